(** * PrintSpec: how the text the certificate tool shows is to be read

    Nothing of the model of the printing is used here; [Files], codecs and the text of constant words are
    shared. *)
From Verif Require Import Base Codec CodecSpec Link LinkLayer Primitives Session Handshake HandshakeSpec Icf IcfSpec Print.
From Coq Require Import Ascii String.
Local Open Scope N_scope.

(** [t] is the decimal notation of [v] *)
Definition decimal (t : text) (v : N) : Prop :=
  t <> [] /\ Forall (fun c => 48 <= c <= 57) t /\ fold_left (fun a c => 10 * a + (c - 48)) t 0 = v /\ (hd 0 t = 48 -> t = [48]).
(** [c] is the hexadecimal digit [d] *)
Definition hex_of (c d : N) : Prop := (d < 10 /\ c = 48 + d) \/ (10 <= d < 16 /\ c = 97 + (d - 10)).
(** Bytes, two digits each, separated by colons *)
Inductive hex_line : list N -> text -> Prop :=
| hex_last h l ch cl : hex_of ch h -> hex_of cl l -> hex_line [16 * h + l] [ch; cl]
| hex_more h l ch cl b t : hex_of ch h -> hex_of cl l -> hex_line b t -> hex_line (16 * h + l :: b) (ch :: cl :: 58 :: t).
(** Lines of 16 bytes; the last line may be shorter *)
Inductive hex_dump (indentation : nat) : list N -> text -> Prop :=
| dump_none : hex_dump indentation [] []
| dump_last a t : hex_line a t -> (List.length a <= 16)%nat -> hex_dump indentation a (repeat 32 indentation ++ t ++ [10])
| dump_more a t b u : hex_line a t -> List.length a = 16%nat -> b <> [] -> hex_dump indentation b u ->
    hex_dump indentation (a ++ b) (repeat 32 indentation ++ t ++ [10] ++ u).

(** Parts that follow each other *)
Definition seq (P Q : text -> Prop) (t : text) : Prop := exists a b, t = a ++ b /\ P a /\ Q b.
Infix ";;" := seq (at level 60, right associativity).
Definition line (indentation : nat) (m : text) (t : text) : Prop := t = repeat 32 indentation ++ m ++ [10].

Definition shows_number (indentation : nat) (name : string) (v : N) (t : text) : Prop :=
  exists d, decimal d v /\ line indentation (str name ++ str ": " ++ d) t.
Definition shows_word (indentation : nat) (name word : string) : text -> Prop :=
  line indentation (str name ++ str ": " ++ str word).
Definition shows_bytes (indentation : nat) (name : string) (data : list N) : text -> Prop :=
  (fun t => exists d, decimal d (N.of_nat (List.length data)) /\ line indentation (str name ++ str " (length == " ++ d ++ str ")") t) ;;
  hex_dump (indentation + 2) data.

(** The words for the types *)
Definition entry_word (e : ContainerEntryType) : string :=
  match e with
  | ce_shared_secret => "shared_secret" | ce_certificate_chain => "certificate_chain"
  | ce_x25519_public_key => "x25519_public_key" | ce_x25519_private_key => "x25519_private_key"
  | ce_ed25519_public_key => "ed25519_public_key" | ce_ed25519_private_key => "ed25519_private_key"
  end.
Definition key_word (e : PublicKeyType) : string := match e with pk_Ed25519 => "Ed25519" | pk_X25519 => "X25519" end.

(** Extensions numbered from [i] on *)
Fixpoint shows_fields (indentation : nat) (i : N) (l : list ExtensionEnvelope) : text -> Prop :=
  match l with
  | [] => fun t => t = []
  | e :: rest =>
      (fun t => exists d, decimal d i /\ line indentation (str "field #" ++ d) t) ;;
      shows_number indentation "identifier" (ex_identifier e) ;; shows_bytes indentation "extension_body" (ex_body e) ;;
      shows_fields indentation (i + 1) rest
  end.
Definition shows_body (indentation : nat) (b : CertificateBody) : text -> Prop :=
  shows_number indentation "valid_after" (cb_valid_after b) ;; shows_number indentation "valid_before" (cb_valid_before b) ;;
  shows_number indentation "signing_level" (cb_signing_level b) ;; shows_word indentation "public_key_type" (key_word (cb_key_type b)) ;;
  shows_bytes indentation "public_key" (cb_public_key b) ;;
  (fun t => exists d, decimal d (N.of_nat (List.length (cb_extensions b))) /\ line indentation (str "extensions" ++ str " (count = " ++ d ++ str ")") t) ;;
  shows_fields indentation 1 (cb_extensions b).
(** Certificates numbered from [i] on: an empty line, a title, the envelope, the body it contains.
    Every certificate is indented more than the one before. *)
Fixpoint shows_certificates (i : N) (l : list (CertificateEnvelope * CertificateBody)) : text -> Prop :=
  match l with
  | [] => fun t => t = []
  | (e, b) :: rest =>
      line 0 [] ;; (fun t => exists d, decimal d i /\ line 0 (str "certificate #" ++ d) t) ;;
      shows_bytes (2 * N.to_nat i) "signature" (env_signature e) ;; shows_bytes (2 * N.to_nat i) "certificate_body" (env_body e) ;;
      shows_body (2 * N.to_nat i + 4) b ;; shows_certificates (i + 1) rest
  end.

(** What a file can contain *)
Inductive content := Key (t : ContainerEntryType) (key : list N) | Certificates (l : list (CertificateEnvelope * CertificateBody)).
Definition is_certificate (eb : CertificateEnvelope * CertificateBody) : Prop :=
  envelope_ok (fst eb) /\ body_ok (snd eb) /\ env_body (fst eb) = wire_body (snd eb).
Definition holds (d : list N) (c : content) : Prop :=
  match c with
  | Key t k => t <> ce_certificate_chain /\ d = file_of t k
  | Certificates l => Forall is_certificate l /\ (List.length l <= 6)%nat /\ d = chain_file (map fst l)
  end.
(** The text shown for a file with this name and content *)
Definition shows (name : text) (c : content) : text -> Prop :=
  match c with
  | Key t k => line 0 (str "File: " ++ name) ;; line 0 (str "Type: " ++ str (entry_word t)) ;; shows_bytes 2 "key-data" k ;; line 0 []
  | Certificates l => line 0 (str "File: " ++ name) ;; line 0 (str "Type: " ++ str (entry_word ce_certificate_chain)) ;; shows_certificates 1 l ;; line 0 []
  end.
