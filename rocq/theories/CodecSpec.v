(** * CodecSpec: the SSP21 wire formats, written down independently of the codec

    Only the data types (the fields of each message) are shared with the model. *)
From Verif Require Import Base Codec.
Local Open Scope N_scope.

(** Variable length: one byte below 128, otherwise 0x80 + number of bytes followed by the
    shortest big-endian representation (the table of VLength.h:8-25). *)
Definition der_length (v : N) : list N :=
  if v <? 128 then [v]
  else let k := N.log2 v / 8 + 1 in (128 + k) :: be_bytes (N.to_nat k) v.

(** A byte string: its length then its bytes. *)
Definition wire_seq (s : list N) : list N := der_length (N.of_nat (length s)) ++ s.
Definition seq_ok (s : list N) : Prop := bytes_ok s /\ N.of_nat (length s) < 2 ^ 32.

Definition wire_version (v : Version) : list N := be_bytes 2 (major_version v) ++ be_bytes 2 (minor_version v).
Definition version_ok (v : Version) : Prop := major_version v < 2 ^ 16 /\ minor_version v < 2 ^ 16.

Definition ephemeral_code (e : HandshakeEphemeral) : N := match e with he_x25519 => 0 | he_nonce => 1 | he_none => 2 end.
Definition nonce_mode_code (e : SessionNonceMode) : N := match e with strict_increment => 0 | greater_than_last_rx => 1 end.
Definition crypto_mode_code (e : SessionCryptoMode) : N := match e with hmac_sha256_16 => 0 | aes_256_gcm => 1 end.
Definition mode_code (e : HandshakeMode) : N :=
  match e with hm_shared_secret => 0 | hm_public_keys => 1 | hm_qkd => 2 | hm_industrial_certificates => 3 end.
Definition error_code (e : HandshakeError) : N :=
  match e with
  | he_bad_message_format => 0x00 | he_unsupported_version => 0x01 | he_unsupported_handshake_ephemeral => 0x02
  | he_unsupported_handshake_hash => 0x03 | he_unsupported_handshake_kdf => 0x04 | he_unsupported_session_mode => 0x05
  | he_unsupported_nonce_mode => 0x06 | he_unsupported_handshake_mode => 0x07 | he_bad_certificate_format => 0x08
  | he_bad_certificate_chain => 0x09 | he_unsupported_certificate_feature => 0x0A | he_authentication_error => 0x0B
  | he_no_prior_handshake_begin => 0x0C | he_key_not_found => 0x0D | he_unknown => 0xFF | he_no_error => 0xFD
  end.
Definition key_type_code (e : PublicKeyType) : N := match e with pk_Ed25519 => 0 | pk_X25519 => 1 end.
Definition entry_code (e : ContainerEntryType) : N :=
  match e with ce_shared_secret => 0 | ce_certificate_chain => 1 | ce_x25519_public_key => 2
             | ce_x25519_private_key => 3 | ce_ed25519_public_key => 4 | ce_ed25519_private_key => 5 end.

Definition wire_spec (s : CryptoSpec) : list N :=
  [ephemeral_code (sp_ephemeral s); 0; 0; nonce_mode_code (sp_nonce_mode s); crypto_mode_code (sp_crypto_mode s)].

Definition wire_constraints (c : SessionConstraints) : list N :=
  be_bytes 2 (sc_max_nonce c) ++ be_bytes 4 (sc_max_session_duration c).
Definition constraints_ok (c : SessionConstraints) : Prop :=
  sc_max_nonce c < 2 ^ 16 /\ sc_max_session_duration c < 2 ^ 32.

Definition wire_metadata (m : AuthMetadata) : list N := be_bytes 2 (am_nonce m) ++ be_bytes 4 (am_valid_until_ms m).
Definition metadata_ok (m : AuthMetadata) : Prop := am_nonce m < 2 ^ 16 /\ am_valid_until_ms m < 2 ^ 32.

Definition wire_request (m : RequestHandshakeBegin) : list N :=
  [0] ++ wire_version (rq_version m) ++ wire_spec (rq_spec m) ++ wire_constraints (rq_constraints m)
  ++ [mode_code (rq_mode m)] ++ wire_seq (rq_mode_ephemeral m) ++ wire_seq (rq_mode_data m).
Definition request_ok (m : RequestHandshakeBegin) : Prop :=
  version_ok (rq_version m) /\ constraints_ok (rq_constraints m)
  /\ seq_ok (rq_mode_ephemeral m) /\ seq_ok (rq_mode_data m).

Definition wire_reply (m : ReplyHandshakeBegin) : list N :=
  [1] ++ wire_version (rp_version m) ++ wire_seq (rp_mode_ephemeral m) ++ wire_seq (rp_mode_data m).
Definition reply_ok (m : ReplyHandshakeBegin) : Prop :=
  version_ok (rp_version m) /\ seq_ok (rp_mode_ephemeral m) /\ seq_ok (rp_mode_data m).

Definition wire_error (m : ReplyHandshakeError) : list N :=
  [2] ++ wire_version (re_version m) ++ [error_code (re_error m)].
Definition error_ok (m : ReplyHandshakeError) : Prop := version_ok (re_version m).

Definition wire_session_data (m : SessionData) : list N :=
  [3] ++ wire_metadata (sd_metadata m) ++ wire_seq (sd_user_data m) ++ wire_seq (sd_auth_tag m).
Definition session_data_ok (m : SessionData) : Prop :=
  metadata_ok (sd_metadata m) /\ seq_ok (sd_user_data m) /\ seq_ok (sd_auth_tag m).

Definition wire_extension (e : ExtensionEnvelope) : list N := be_bytes 4 (ex_identifier e) ++ wire_seq (ex_body e).
Definition extension_ok (e : ExtensionEnvelope) : Prop := ex_identifier e < 2 ^ 32 /\ seq_ok (ex_body e).

(** A collection: the number of items then the items. *)
Definition wire_items {A} (item : A -> list N) (l : list A) : list N :=
  der_length (N.of_nat (length l)) ++ concat (map item l).

Definition wire_body (b : CertificateBody) : list N :=
  be_bytes 8 (cb_valid_after b) ++ be_bytes 8 (cb_valid_before b) ++ be_bytes 1 (cb_signing_level b)
  ++ [key_type_code (cb_key_type b)] ++ wire_seq (cb_public_key b) ++ wire_items wire_extension (cb_extensions b).
Definition body_ok (b : CertificateBody) : Prop :=
  cb_valid_after b < 2 ^ 64 /\ cb_valid_before b < 2 ^ 64 /\ cb_signing_level b < 2 ^ 8
  /\ seq_ok (cb_public_key b) /\ Forall extension_ok (cb_extensions b) /\ (length (cb_extensions b) <= 5)%nat.

Definition wire_envelope (e : CertificateEnvelope) : list N := wire_seq (env_signature e) ++ wire_seq (env_body e).
Definition envelope_ok (e : CertificateEnvelope) : Prop := seq_ok (env_signature e) /\ seq_ok (env_body e).

Definition wire_chain (c : list CertificateEnvelope) : list N := wire_items wire_envelope c.
Definition chain_ok (c : list CertificateEnvelope) : Prop := Forall envelope_ok c /\ (length c <= 6)%nat.

Definition wire_container (c : ContainerFile) : list N := [entry_code (cf_type c)] ++ wire_seq (cf_payload c).
Definition container_ok (c : ContainerFile) : Prop := seq_ok (cf_payload c).
