(** * IcfSpec: what the certificate tool is supposed to do *)
From Verif Require Import Base Codec CodecSpec Link LinkLayer Primitives Session Handshake HandshakeSpec Icf.

(** Ed25519: sizes, and a signature made with a secret key verifies with its public key.  No
    security assumption. *)
Record signer_ok (P : prims) (G : signer) : Prop := {
  sok_public : forall seed, length (sg_public G seed) = 32 /\ bytes_ok (sg_public G seed);
  sok_secret : forall seed, length (sg_secret G seed) = 64 /\ bytes_ok (sg_secret G seed);
  sok_sign : forall key m, length (sg_sign G key m) = 64 /\ bytes_ok (sg_sign G key m);
  sok_verify : forall seed m, p_verify P m (sg_sign G (sg_secret G seed) m) (sg_public G seed) = true
}.

(** A file that holds [payload] under the type [t]. *)
Definition file_of (t : ContainerEntryType) (payload : list N) : list N := wire_container {| cf_type := t; cf_payload := payload |}.
(** The certificate with body [b] signed with the secret key [key], and its file. *)
Definition signed (G : signer) (key : list N) (b : CertificateBody) : CertificateEnvelope :=
  {| env_signature := sg_sign G key (wire_body b); env_body := wire_body b |}.
Definition chain_file (c : list CertificateEnvelope) : list N := file_of ce_certificate_chain (wire_chain c).

(** The kind of public key a file type stands for. *)
Definition public_entry (t : PublicKeyType) : ContainerEntryType :=
  match t with pk_Ed25519 => ce_ed25519_public_key | pk_X25519 => ce_x25519_public_key end.

(** The body of a certificate without extensions. *)
Definition plain_body (after before level : N) (t : PublicKeyType) (key : list N) : CertificateBody :=
  {| cb_valid_after := after; cb_valid_before := before; cb_signing_level := level; cb_key_type := t;
     cb_public_key := key; cb_extensions := [] |}.

(** Files hold bytes. *)
Definition files_ok (f : files) : Prop := forall p d, f p = Some d -> bytes_ok d.
(** What the tool can write in a certificate: values in range, a 32-byte key, no extensions. *)
Definition tool_body (b : CertificateBody) : Prop :=
  exists a bf l t key, b = plain_body a bf l t key /\ (a < 2 ^ 64)%N /\ (bf < 2 ^ 64)%N /\ (l < 2 ^ 8)%N /\ length key = 32 /\ bytes_ok key.

(** A file can be read: it exists and has 1 to 4096 bytes. *)
Definition readable (f : files) (p : N) (d : list N) : Prop := f p = Some d /\ 1 <= length d <= 4096.

(** The validity of [b] lies in that of [a], and its signing level below. *)
Definition covered (a b : CertificateBody) : Prop :=
  (cb_valid_after a <= cb_valid_after b)%N /\ (cb_valid_before b <= cb_valid_before a)%N /\ (cb_signing_level b < cb_signing_level a)%N.

(** The files a command may write. *)
Definition outputs (c : command) : list N :=
  match c with
  | Show _ => []
  | GenShared p _ => [p]
  | GenX25519 a b _ | GenEd25519 a b _ => [a; b]
  | Certify c _ _ _ _ _ => [c]
  | Append _ _ o => [o]
  end.
(** Whatever is written arrives. *)
Definition works (k : disk) : Prop := forall p, k p = Stored.

(** The values of a command are in range: 32 random bytes, a clock below 2^63 milliseconds (the
    range of the C++ clock), uint16_t days and a uint8_t level. *)
Definition command_ok (c : command) : Prop :=
  match c with
  | GenShared _ r | GenX25519 _ _ r | GenEd25519 _ _ r => length r = 32 /\ bytes_ok r
  | Certify _ _ _ now days level => (now < 2 ^ 63)%N /\ (days < 2 ^ 16)%N /\ (level < 2 ^ 8)%N
  | _ => True
  end.
(** At most 24 days. *)
Definition short_term (c : command) : Prop := match c with Certify _ _ _ _ days _ => (days <= 24)%N | _ => True end.

Definition day_ms : N := 24 * 60 * 60 * 1000.
