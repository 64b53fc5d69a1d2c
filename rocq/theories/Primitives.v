(** * Primitives: the interface of the cryptographic library

    The functions of libsodium the backend calls (cpp/libs/sodium/src/Backend.cpp).  libsodium is
    not modelled: the development is parametric in this record, and what a theorem assumes about
    it is written in its statement. *)
From Verif Require Import Base.

Record prims := {
  (** crypto_hash_sha256_* over the concatenation of the pieces (Backend.cpp:72-84) *)
  p_sha256 : list N -> list N;
  (** crypto_auth_hmacsha256_*: key, concatenation of the pieces (Backend.cpp:86-98) *)
  p_hmac : list N -> list N -> list N;
  (** crypto_scalarmult: private key, public key; None when it reports an error (Backend.cpp:117-125) *)
  p_dh : list N -> list N -> option (list N);
  (** crypto_scalarmult_base (Backend.cpp:111) *)
  p_dh_public : list N -> list N;
  (** crypto_sign_verify_detached: message, signature, public key (Backend.cpp:147-150) *)
  p_verify : list N -> list N -> list N -> bool;
  (** crypto_aead_aes256gcm_encrypt_detached: key, nonce, additional data, cleartext; ciphertext
      and tag (Backend.cpp:152-177) *)
  p_gcm_encrypt : list N -> list N -> list N -> list N -> list N * list N;
  (** crypto_aead_aes256gcm_decrypt_detached: key, nonce, additional data, ciphertext, tag
      (Backend.cpp:179-200) *)
  p_gcm_decrypt : list N -> list N -> list N -> list N -> list N -> option (list N)
}.

(** What every implementation guarantees: output lengths, and that the inverse functions are
    inverse.  No security assumption. *)
Record prims_ok (P : prims) : Prop := {
  ok_sha256 : forall d, length (p_sha256 P d) = 32 /\ bytes_ok (p_sha256 P d);
  ok_hmac : forall k d, length (p_hmac P k d) = 32 /\ bytes_ok (p_hmac P k d);
  ok_gcm_length : forall k n ad c, length (fst (p_gcm_encrypt P k n ad c)) = length c;
  ok_gcm_tag : forall k n ad c, length (snd (p_gcm_encrypt P k n ad c)) = 16;
  ok_gcm_bytes : forall k n ad c, bytes_ok c ->
    bytes_ok (fst (p_gcm_encrypt P k n ad c)) /\ bytes_ok (snd (p_gcm_encrypt P k n ad c));
  ok_gcm_inverse : forall k n ad c, p_gcm_decrypt P k n ad (fst (p_gcm_encrypt P k n ad c)) (snd (p_gcm_encrypt P k n ad c)) = Some c;
  ok_gcm_dlength : forall k n ad c t d, p_gcm_decrypt P k n ad c t = Some d -> length d = length c;
  ok_dh_length : forall a b s, p_dh P a b = Some s -> length s = 32;
  ok_dh_agree : forall a b s s', p_dh P a (p_dh_public P b) = Some s -> p_dh P b (p_dh_public P a) = Some s' -> s = s';
  ok_dh_public : forall a, length (p_dh_public P a) = 32 /\ bytes_ok (p_dh_public P a)
}.

(** A toy instance, to show that the assumptions are consistent. *)
Fixpoint alternate (n : nat) (a b : N) : list N := match n with O => [] | S m => a :: alternate m b a end.
Definition toy_digest (n : nat) (d : list N) : list N :=
  let v := fold_left (fun a b => N.land (a * 5 + b + 1) 65535) d 0%N in alternate n (N.land (N.shiftr v 8) 255) (N.land v 255).
Definition toy : prims := {|
  p_sha256 d := toy_digest 32 d;
  p_hmac k d := toy_digest 32 (k ++ [255%N] ++ d);
  p_dh a b := Some (be_bytes 32 (be_value a * be_value b)%N);
  p_dh_public a := be_bytes 32 (be_value a);
  p_verify m s k := bytes_eqb s (toy_digest 64 (k ++ m));
  p_gcm_encrypt k n ad c := (c, toy_digest 16 (k ++ n ++ ad ++ [255%N] ++ c));
  p_gcm_decrypt k n ad c t := if bytes_eqb t (toy_digest 16 (k ++ n ++ ad ++ [255%N] ++ c)) then Some c else None
|}.
