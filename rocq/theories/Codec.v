(** * Codec: model of the SSP21 message, certificate and container codecs *)
From Verif Require Import Base.

(** ssp21/crypto/gen/ParseError.h:28-45 *)
Inductive ParseError :=
| insufficient_bytes | undefined_enum | unexpected_function | too_many_bytes
| impl_capacity_limit | reserved_bit | bad_vlength.

(** Result of a read: the value and the remaining input (the C++ advances the
    [seq32_t&] argument), or an error.  What a failed read leaves in the input and in
    the partially filled object is not modelled: every caller discards both. *)
Inductive pres (A : Type) := POk (a : A) (rest : list N) | PErr (e : ParseError).
Arguments POk {A}. Arguments PErr {A}.
Definition parser (A : Type) := list N -> pres A.

Definition pret {A} (a : A) : parser A := fun inp => POk a inp.
(** MessageParser.h:38-45 read_fields: stop at the first error. *)
Definition pbind {A B} (p : parser A) (f : A -> parser B) : parser B :=
  fun inp => match p inp with POk a rest => f a rest | PErr e => PErr e end.
Notation "'do' x <- p ; q" := (pbind p (fun x => q)) (at level 200, x pattern, q at level 200).

(** Result of a write into a destination of a given capacity: the bytes written (the
    C++ advances the [wseq32_t&] argument) or FormatError::insufficient_space, the only
    FormatError (ssp21/crypto/gen/FormatError.h:28-34).  The bytes a failed write leaves
    in the destination are not modelled: every caller discards the destination. *)
Inductive wres := WOk (out : list N) | WErr.
Definition writer := nat -> wres.

Definition wnil : writer := fun _ => WOk [].
(** MessageFormatter.h:34-41 write_fields: stop at the first error. *)
Definition wapp (w1 w2 : writer) : writer := fun space =>
  match w1 space with
  | WErr => WErr
  | WOk b1 => match w2 (space - length b1) with WErr => WErr | WOk b2 => WOk (b1 ++ b2) end
  end.
Infix "+w+" := wapp (at level 60, right associativity).

(** ser4cpp UIntN::read_from (trusted base) and IntegerField.h:45-48. *)
Definition read_uint (n : nat) : parser N := fun inp =>
  if length inp <? n then PErr insufficient_bytes
  else POk (be_value (firstn n inp)) (skipn n inp).
(** ser4cpp UIntN::write_to, WSeq::put (trusted base) and IntegerField.h:50-53. *)
Definition write_uint (n : nat) (v : N) : writer := fun space =>
  if space <? n then WErr else WOk (be_bytes n v).

(** ** VLength *)

(** VLength.cpp:81-94 VLength::num_values_bytes *)
Definition num_values_bytes (v : N) : nat :=
  if (v <=? 127)%N then 0
  else if (v <=? 255)%N then 1
  else if (v <=? 65535)%N then 2
  else if (v <=? 16777215)%N then 3
  else 4.

(** VLength.h:35-38 VLength::size *)
Definition vlength_size (v : N) : nat := num_values_bytes v + 1.

(** VLength.cpp:13-42 VLength::write *)
Definition vlength_write (v : N) : writer :=
  let n := num_values_bytes v in
  match n with
  | 0 => write_uint 1 v
  | _ =>
    write_uint 1 (N.lor 0x80 (N.of_nat n)) +w+
    match n with
    | 1 => write_uint 1 v
    | 2 => write_uint 2 (u16 v)
    | 3 => write_uint 1 (u8 (N.land (N.shiftr v 16) 0xFF)) +w+ write_uint 2 (u16 (N.land v 0xFFFF))
    | _ => write_uint 4 v
    end
  end.

(** VLength.cpp:63-71, the accumulation loop of VLength::read *)
Fixpoint vlength_loop (count : nat) (ret : N) : parser N :=
  match count with
  | O => pret ret
  | S c => do b <- read_uint 1; vlength_loop c (N.lor (u32 (N.shiftl ret 8)) b)
  end.

(** VLength.cpp:44-79 VLength::read *)
Definition vlength_read : parser N :=
  do top <- read_uint 1;
  if (N.land top 0x80 =? 0)%N then pret top
  else
    let count := N.land top 0x7F in
    if ((count <? 1) || (4 <? count))%N then (fun _ => PErr bad_vlength)
    else
      do ret <- vlength_loop (N.to_nat count) 0;
      if (N.of_nat (num_values_bytes ret) =? count)%N then pret ret else (fun _ => PErr bad_vlength).

(** ** Fields *)

(** SeqByteField.h:38-52 SeqByteField::read *)
Definition seq_read : parser (list N) :=
  do len <- vlength_read;
  fun inp =>
    if (N.of_nat (length inp) <? len)%N then PErr insufficient_bytes
    else POk (firstn (N.to_nat len) inp) (skipn (N.to_nat len) inp).

(** SeqByteField.h:54-66 SeqByteField::write; the length() of a seq32_t is a uint32_t. *)
Definition seq_write (s : list N) : writer :=
  vlength_write (N.of_nat (length s)) +w+
  (fun space => if space <? length s then WErr else WOk s).

(** SeqByteField.h:20-23 SeqByteField::size *)
Definition seq_size (s : list N) : nat := vlength_size (N.of_nat (length s)) + length s.

(** SeqStructField.h:43-55, the loop of SeqStructField::read; [cap] is the number of
    free slots left in the array (MAX_COUNT - count_). *)
Fixpoint items_read {A} (item : parser A) (cap : nat) (count : N) {struct cap} : parser (list A) :=
  if (count =? 0)%N then pret []
  else
    do a <- item;
    match cap with
    | O => fun _ => PErr impl_capacity_limit
    | S cap' => do l <- items_read item cap' (count - 1); pret (a :: l)
    end.

(** SeqStructField.h:34-58 SeqStructField::read *)
Definition structs_read {A} (item : parser A) (max : nat) : parser (list A) :=
  do count <- vlength_read; items_read item max count.

(** SeqStructField.h:66-70, the loop of SeqStructField::write *)
Fixpoint items_write {A} (item : A -> writer) (l : list A) : writer :=
  match l with [] => wnil | a :: l' => item a +w+ items_write item l' end.

(** SeqStructField.h:60-73 SeqStructField::write *)
Definition structs_write {A} (item : A -> writer) (l : list A) : writer :=
  vlength_write (N.of_nat (length l)) +w+ items_write item l.

(** SeqStructField.h:23-32 SeqStructField::size *)
Definition structs_size {A} (item : A -> nat) (l : list A) : nat :=
  vlength_size (N.of_nat (length l)) + fold_left (fun s a => s + item a) l 0.

(** ** Enumerations.  [undefined] is not a constructor: EnumField.h:44-46 never stores
    it on read, and no caller writes it. *)

(** src/crypto/gen/Function.cpp:35-50 *)
Inductive Function := request_handshake_begin | reply_handshake_begin | reply_handshake_error | session_data.
Definition function_to (f : Function) : N :=
  match f with request_handshake_begin => 0 | reply_handshake_begin => 1
             | reply_handshake_error => 2 | session_data => 3 end%N.
Definition function_from (b : N) : option Function :=
  match b with 0 => Some request_handshake_begin | 1 => Some reply_handshake_begin
             | 2 => Some reply_handshake_error | 3 => Some session_data | _ => None end%N.

(** src/crypto/gen/HandshakeEphemeral.cpp *)
Inductive HandshakeEphemeral := he_x25519 | he_nonce | he_none.
Definition ephemeral_to (e : HandshakeEphemeral) : N :=
  match e with he_x25519 => 0 | he_nonce => 1 | he_none => 2 end%N.
Definition ephemeral_from (b : N) : option HandshakeEphemeral :=
  match b with 0 => Some he_x25519 | 1 => Some he_nonce | 2 => Some he_none | _ => None end%N.

(** src/crypto/gen/HandshakeHash.cpp, HandshakeKDF.cpp: a single value each *)
Inductive HandshakeHash := hash_sha256.
Definition hash_to (e : HandshakeHash) : N := 0%N.
Definition hash_from (b : N) : option HandshakeHash := match b with 0 => Some hash_sha256 | _ => None end%N.
Inductive HandshakeKDF := kdf_hkdf_sha256.
Definition kdf_to (e : HandshakeKDF) : N := 0%N.
Definition kdf_from (b : N) : option HandshakeKDF := match b with 0 => Some kdf_hkdf_sha256 | _ => None end%N.

(** src/crypto/gen/SessionNonceMode.cpp *)
Inductive SessionNonceMode := strict_increment | greater_than_last_rx.
Definition nonce_mode_to (e : SessionNonceMode) : N :=
  match e with strict_increment => 0 | greater_than_last_rx => 1 end%N.
Definition nonce_mode_from (b : N) : option SessionNonceMode :=
  match b with 0 => Some strict_increment | 1 => Some greater_than_last_rx | _ => None end%N.

(** src/crypto/gen/SessionCryptoMode.cpp *)
Inductive SessionCryptoMode := hmac_sha256_16 | aes_256_gcm.
Definition crypto_mode_to (e : SessionCryptoMode) : N :=
  match e with hmac_sha256_16 => 0 | aes_256_gcm => 1 end%N.
Definition crypto_mode_from (b : N) : option SessionCryptoMode :=
  match b with 0 => Some hmac_sha256_16 | 1 => Some aes_256_gcm | _ => None end%N.

(** src/crypto/gen/HandshakeMode.cpp *)
Inductive HandshakeMode := hm_shared_secret | hm_public_keys | hm_qkd | hm_industrial_certificates.
Definition handshake_mode_to (e : HandshakeMode) : N :=
  match e with hm_shared_secret => 0 | hm_public_keys => 1 | hm_qkd => 2 | hm_industrial_certificates => 3 end%N.
Definition handshake_mode_from (b : N) : option HandshakeMode :=
  match b with 0 => Some hm_shared_secret | 1 => Some hm_public_keys | 2 => Some hm_qkd
             | 3 => Some hm_industrial_certificates | _ => None end%N.

(** src/crypto/gen/HandshakeError.cpp *)
Inductive HandshakeError :=
| he_bad_message_format | he_unsupported_version | he_unsupported_handshake_ephemeral
| he_unsupported_handshake_hash | he_unsupported_handshake_kdf | he_unsupported_session_mode
| he_unsupported_nonce_mode | he_unsupported_handshake_mode | he_bad_certificate_format
| he_bad_certificate_chain | he_unsupported_certificate_feature | he_authentication_error
| he_no_prior_handshake_begin | he_key_not_found | he_unknown | he_no_error.
Definition handshake_error_to (e : HandshakeError) : N :=
  match e with
  | he_bad_message_format => 0 | he_unsupported_version => 1 | he_unsupported_handshake_ephemeral => 2
  | he_unsupported_handshake_hash => 3 | he_unsupported_handshake_kdf => 4 | he_unsupported_session_mode => 5
  | he_unsupported_nonce_mode => 6 | he_unsupported_handshake_mode => 7 | he_bad_certificate_format => 8
  | he_bad_certificate_chain => 9 | he_unsupported_certificate_feature => 10 | he_authentication_error => 11
  | he_no_prior_handshake_begin => 12 | he_key_not_found => 13 | he_unknown => 0xFF | he_no_error => 0xFD
  end%N.
Definition handshake_error_from (b : N) : option HandshakeError :=
  match b with
  | 0 => Some he_bad_message_format | 1 => Some he_unsupported_version
  | 2 => Some he_unsupported_handshake_ephemeral | 3 => Some he_unsupported_handshake_hash
  | 4 => Some he_unsupported_handshake_kdf | 5 => Some he_unsupported_session_mode
  | 6 => Some he_unsupported_nonce_mode | 7 => Some he_unsupported_handshake_mode
  | 8 => Some he_bad_certificate_format | 9 => Some he_bad_certificate_chain
  | 10 => Some he_unsupported_certificate_feature | 11 => Some he_authentication_error
  | 12 => Some he_no_prior_handshake_begin | 13 => Some he_key_not_found
  | 0xFF => Some he_unknown | 0xFD => Some he_no_error | _ => None
  end%N.

(** src/crypto/gen/PublicKeyType.cpp *)
Inductive PublicKeyType := pk_Ed25519 | pk_X25519.
Definition key_type_to (e : PublicKeyType) : N := match e with pk_Ed25519 => 0 | pk_X25519 => 1 end%N.
Definition key_type_from (b : N) : option PublicKeyType :=
  match b with 0 => Some pk_Ed25519 | 1 => Some pk_X25519 | _ => None end%N.

(** src/crypto/gen/ContainerEntryType.cpp *)
Inductive ContainerEntryType :=
| ce_shared_secret | ce_certificate_chain | ce_x25519_public_key | ce_x25519_private_key
| ce_ed25519_public_key | ce_ed25519_private_key.
Definition entry_type_to (e : ContainerEntryType) : N :=
  match e with ce_shared_secret => 0 | ce_certificate_chain => 1 | ce_x25519_public_key => 2
             | ce_x25519_private_key => 3 | ce_ed25519_public_key => 4 | ce_ed25519_private_key => 5 end%N.
Definition entry_type_from (b : N) : option ContainerEntryType :=
  match b with 0 => Some ce_shared_secret | 1 => Some ce_certificate_chain | 2 => Some ce_x25519_public_key
             | 3 => Some ce_x25519_private_key | 4 => Some ce_ed25519_public_key
             | 5 => Some ce_ed25519_private_key | _ => None end%N.

(** EnumField.h:36-51 EnumField::read *)
Definition enum_read {E} (from : N -> option E) : parser E :=
  do raw <- read_uint 1;
  match from raw with None => (fun _ => PErr undefined_enum) | Some e => pret e end.
(** EnumField.h:53-56 EnumField::write *)
Definition enum_write {E} (to : E -> N) (e : E) : writer := write_uint 1 (to e).

(** ** Structures *)

(** src/crypto/gen/Version.cpp *)
Record Version := { major_version : N; minor_version : N }.
Definition version_read : parser Version :=
  do a <- read_uint 2; do b <- read_uint 2; pret {| major_version := a; minor_version := b |}.
Definition version_write (v : Version) : writer :=
  write_uint 2 (major_version v) +w+ write_uint 2 (minor_version v) +w+ wnil.

(** src/crypto/gen/CryptoSpec.cpp *)
Record CryptoSpec := { sp_ephemeral : HandshakeEphemeral; sp_hash : HandshakeHash; sp_kdf : HandshakeKDF;
                       sp_nonce_mode : SessionNonceMode; sp_crypto_mode : SessionCryptoMode }.
Definition spec_read : parser CryptoSpec :=
  do a <- enum_read ephemeral_from; do b <- enum_read hash_from; do c <- enum_read kdf_from;
  do d <- enum_read nonce_mode_from; do e <- enum_read crypto_mode_from;
  pret {| sp_ephemeral := a; sp_hash := b; sp_kdf := c; sp_nonce_mode := d; sp_crypto_mode := e |}.
Definition spec_write (s : CryptoSpec) : writer :=
  enum_write ephemeral_to (sp_ephemeral s) +w+ enum_write hash_to (sp_hash s) +w+
  enum_write kdf_to (sp_kdf s) +w+ enum_write nonce_mode_to (sp_nonce_mode s) +w+
  enum_write crypto_mode_to (sp_crypto_mode s) +w+ wnil.

(** src/crypto/gen/SessionConstraints.cpp *)
Record SessionConstraints := { sc_max_nonce : N; sc_max_session_duration : N }.
Definition constraints_read : parser SessionConstraints :=
  do a <- read_uint 2; do b <- read_uint 4; pret {| sc_max_nonce := a; sc_max_session_duration := b |}.
Definition constraints_write (c : SessionConstraints) : writer :=
  write_uint 2 (sc_max_nonce c) +w+ write_uint 4 (sc_max_session_duration c) +w+ wnil.

(** src/crypto/gen/AuthMetadata.cpp:44-51, 61-68 *)
Record AuthMetadata := { am_nonce : N; am_valid_until_ms : N }.
Definition metadata_read : parser AuthMetadata :=
  do a <- read_uint 2; do b <- read_uint 4; pret {| am_nonce := a; am_valid_until_ms := b |}.
Definition metadata_write (m : AuthMetadata) : writer :=
  write_uint 2 (am_nonce m) +w+ write_uint 4 (am_valid_until_ms m) +w+ wnil.

(** ** Messages *)

(** MessageParser.h:18-35 MessageParser::read_message *)
Definition function_eqb (a b : Function) : bool := N.eqb (function_to a) (function_to b).
Definition read_message {A} (expected : Function) (fields : parser A) (input : list N) : A + ParseError :=
  match enum_read function_from input with
  | PErr e => inr e
  | POk f rest =>
    if negb (function_eqb f expected) then inr unexpected_function
    else match fields rest with
         | PErr e => inr e
         | POk a [] => inl a
         | POk _ (_ :: _) => inr too_many_bytes
         end
  end.

(** src/crypto/gen/*.cpp read_all, e.g. CertificateBody.cpp:67-73 *)
Definition read_all {A} (fields : parser A) (input : list N) : A + ParseError :=
  match fields input with
  | PErr e => inr e
  | POk a [] => inl a
  | POk _ (_ :: _) => inr too_many_bytes
  end.

(** MessageFormatter.h:16-32 MessageFormatter::write_message *)
Definition write_message (f : Function) (fields : writer) : writer :=
  enum_write function_to f +w+ fields.

(** src/crypto/gen/RequestHandshakeBegin.cpp:57-91 *)
Record RequestHandshakeBegin := {
  rq_version : Version; rq_spec : CryptoSpec; rq_constraints : SessionConstraints;
  rq_mode : HandshakeMode; rq_mode_ephemeral : list N; rq_mode_data : list N }.
Definition request_fields_read : parser RequestHandshakeBegin :=
  do a <- version_read; do b <- spec_read; do c <- constraints_read; do d <- enum_read handshake_mode_from;
  do e <- seq_read; do f <- seq_read;
  pret {| rq_version := a; rq_spec := b; rq_constraints := c; rq_mode := d;
          rq_mode_ephemeral := e; rq_mode_data := f |}.
Definition request_read := read_message request_handshake_begin request_fields_read.
Definition request_write (m : RequestHandshakeBegin) : writer :=
  write_message request_handshake_begin
    (version_write (rq_version m) +w+ spec_write (rq_spec m) +w+ constraints_write (rq_constraints m) +w+
     enum_write handshake_mode_to (rq_mode m) +w+ seq_write (rq_mode_ephemeral m) +w+
     seq_write (rq_mode_data m) +w+ wnil).

(** src/crypto/gen/ReplyHandshakeBegin.cpp *)
Record ReplyHandshakeBegin := { rp_version : Version; rp_mode_ephemeral : list N; rp_mode_data : list N }.
Definition reply_fields_read : parser ReplyHandshakeBegin :=
  do a <- version_read; do e <- seq_read; do f <- seq_read;
  pret {| rp_version := a; rp_mode_ephemeral := e; rp_mode_data := f |}.
Definition reply_read := read_message reply_handshake_begin reply_fields_read.
Definition reply_write (m : ReplyHandshakeBegin) : writer :=
  write_message reply_handshake_begin
    (version_write (rp_version m) +w+ seq_write (rp_mode_ephemeral m) +w+ seq_write (rp_mode_data m) +w+ wnil).

(** src/crypto/gen/ReplyHandshakeError.cpp *)
Record ReplyHandshakeError := { re_version : Version; re_error : HandshakeError }.
Definition error_fields_read : parser ReplyHandshakeError :=
  do a <- version_read; do e <- enum_read handshake_error_from; pret {| re_version := a; re_error := e |}.
Definition error_read := read_message reply_handshake_error error_fields_read.
Definition error_write (m : ReplyHandshakeError) : writer :=
  write_message reply_handshake_error
    (version_write (re_version m) +w+ enum_write handshake_error_to (re_error m) +w+ wnil).

(** src/crypto/gen/SessionData.cpp:37-76 *)
Record SessionData := { sd_metadata : AuthMetadata; sd_user_data : list N; sd_auth_tag : list N }.
Definition session_data_fields_read : parser SessionData :=
  do a <- metadata_read; do b <- seq_read; do c <- seq_read;
  pret {| sd_metadata := a; sd_user_data := b; sd_auth_tag := c |}.
Definition session_data_read := read_message session_data session_data_fields_read.
Definition session_data_write (m : SessionData) : writer :=
  write_message session_data
    (metadata_write (sd_metadata m) +w+ seq_write (sd_user_data m) +w+ seq_write (sd_auth_tag m) +w+ wnil).

(** ** Certificates and containers *)

(** src/crypto/gen/ExtensionEnvelope.cpp *)
Record ExtensionEnvelope := { ex_identifier : N; ex_body : list N }.
Definition extension_read : parser ExtensionEnvelope :=
  do a <- read_uint 4; do b <- seq_read; pret {| ex_identifier := a; ex_body := b |}.
Definition extension_write (e : ExtensionEnvelope) : writer :=
  write_uint 4 (ex_identifier e) +w+ seq_write (ex_body e) +w+ wnil.

(** src/crypto/gen/CertificateBody.cpp:54-86; SeqStructField<ExtensionEnvelope, 5> (CertificateBody.h:55) *)
Definition max_extensions : nat := 5.
Record CertificateBody := {
  cb_valid_after : N; cb_valid_before : N; cb_signing_level : N; cb_key_type : PublicKeyType;
  cb_public_key : list N; cb_extensions : list ExtensionEnvelope }.
Definition body_read : parser CertificateBody :=
  do a <- read_uint 8; do b <- read_uint 8; do c <- read_uint 1; do d <- enum_read key_type_from;
  do e <- seq_read; do f <- structs_read extension_read max_extensions;
  pret {| cb_valid_after := a; cb_valid_before := b; cb_signing_level := c; cb_key_type := d;
          cb_public_key := e; cb_extensions := f |}.
Definition body_write (b : CertificateBody) : writer :=
  write_uint 8 (cb_valid_after b) +w+ write_uint 8 (cb_valid_before b) +w+ write_uint 1 (cb_signing_level b) +w+
  enum_write key_type_to (cb_key_type b) +w+ seq_write (cb_public_key b) +w+
  structs_write extension_write (cb_extensions b) +w+ wnil.

(** src/crypto/gen/CertificateEnvelope.cpp *)
Record CertificateEnvelope := { env_signature : list N; env_body : list N }.
Definition envelope_read : parser CertificateEnvelope :=
  do a <- seq_read; do b <- seq_read; pret {| env_signature := a; env_body := b |}.
Definition envelope_write (e : CertificateEnvelope) : writer :=
  seq_write (env_signature e) +w+ seq_write (env_body e) +w+ wnil.

(** src/crypto/gen/CertificateChain.cpp:36-58; SeqStructField<CertificateEnvelope, 6> (CertificateChain.h:37) *)
Definition max_certificates : nat := 6.
Definition chain_read : parser (list CertificateEnvelope) := structs_read envelope_read max_certificates.
Definition chain_write (c : list CertificateEnvelope) : writer := structs_write envelope_write c +w+ wnil.

(** src/crypto/gen/ContainerFile.cpp *)
Record ContainerFile := { cf_type : ContainerEntryType; cf_payload : list N }.
Definition container_read : parser ContainerFile :=
  do a <- enum_read entry_type_from; do b <- seq_read; pret {| cf_type := a; cf_payload := b |}.
Definition container_write (c : ContainerFile) : writer :=
  enum_write entry_type_to (cf_type c) +w+ seq_write (cf_payload c) +w+ wnil.

(** ** size() functions: MessageFormatter.h:43-47 sum_sizes over the same fields *)
Definition extension_size (e : ExtensionEnvelope) : nat := 0 + 4 + seq_size (ex_body e).
Definition body_size (b : CertificateBody) : nat :=
  0 + 8 + 8 + 1 + 1 + seq_size (cb_public_key b) + structs_size extension_size (cb_extensions b).
Definition envelope_size (e : CertificateEnvelope) : nat := 0 + seq_size (env_signature e) + seq_size (env_body e).
Definition chain_size (c : list CertificateEnvelope) : nat := 0 + structs_size envelope_size c.
Definition container_size (c : ContainerFile) : nat := 0 + 1 + seq_size (cf_payload c).
Definition request_size (m : RequestHandshakeBegin) : nat :=
  1 + (0 + 2 + 2) + (0 + 1 + 1 + 1 + 1 + 1) + (0 + 2 + 4) + 1 + seq_size (rq_mode_ephemeral m) + seq_size (rq_mode_data m).
Definition reply_size (m : ReplyHandshakeBegin) : nat :=
  1 + (0 + 2 + 2) + seq_size (rp_mode_ephemeral m) + seq_size (rp_mode_data m).
Definition error_size (m : ReplyHandshakeError) : nat := 1 + (0 + 2 + 2) + 1.
Definition session_data_size (m : SessionData) : nat :=
  1 + (0 + 2 + 4) + seq_size (sd_user_data m) + seq_size (sd_auth_tag m).
