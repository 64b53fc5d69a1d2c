(** * Print: what messages and files look like when they are printed

    The printing functions of all messages (cpp/libs/ssp21/src/crypto/gen), the console printer of the
    certificate tool (cpp/exe/icftool/ConsolePrinter.h), and the text the tool shows for a file.

    Text is a list of character codes.  std::cout is not modelled beyond what is written to it:
    numbers are decimal (the flag std::hex is set while a line of bytes is printed and reset at the end
    of ConsolePrinter.h:50-73), std::endl writes a newline.  The messages of the log are formatted by
    log4cpp, which is not part of the repository; modelled is what the printer is given. *)
From Verif Require Import Base Codec Link LinkLayer Primitives Session Handshake Icf.
From Coq Require Import Ascii String.

Notation string := String.string.
Definition text := list N.
Definition str (s : string) : text := map N_of_ascii (list_ascii_of_string s).

(** A number as operator<< and %u write it *)
Fixpoint dec_digits (fuel : nat) (v : N) : text :=
  match fuel with
  | O => []
  | S f => if (v <? 10)%N then [(48 + v)%N] else dec_digits f (v / 10)%N ++ [(48 + v mod 10)%N]
  end.
Definition dec (v : N) : text := dec_digits (S (N.to_nat (N.log2 v))) v.

(** IMessagePrinter.h:14-20: the calls on a printer *)
Inductive item :=
| Line (message : text)
| Number (name : string) (value : N)
| Word (name : string) (value : string)
| Bytes (name : string) (data : list N).

(** ** The names of the enumerations: gen/*.cpp to_string (the default branches cannot be reached) *)
(** gen/HandshakeEphemeral.cpp:38-51 *)
Definition ephemeral_name (e : HandshakeEphemeral) : string :=
  match e with he_x25519 => "x25519" | he_nonce => "nonce" | he_none => "none" end.
(** gen/HandshakeHash.cpp:34-43 *)
Definition hash_name (e : HandshakeHash) : string := match e with sha256 => "sha256" end.
(** gen/HandshakeKDF.cpp:34-43 *)
Definition kdf_name (e : HandshakeKDF) : string := match e with hkdf_sha256 => "hkdf_sha256" end.
(** gen/SessionNonceMode.cpp:36-47 *)
Definition nonce_mode_name (e : SessionNonceMode) : string :=
  match e with strict_increment => "strict_increment" | greater_than_last_rx => "greater_than_last_rx" end.
(** gen/SessionCryptoMode.cpp:36-47 *)
Definition crypto_mode_name (e : SessionCryptoMode) : string :=
  match e with hmac_sha256_16 => "hmac_sha256_16" | aes_256_gcm => "aes_256_gcm" end.
(** gen/HandshakeMode.cpp:40-55 *)
Definition mode_name (e : HandshakeMode) : string :=
  match e with
  | hm_shared_secret => "shared_secret" | hm_public_keys => "public_keys"
  | hm_qkd => "quantum_key_distribution" | hm_industrial_certificates => "industrial_certificates"
  end.
(** gen/HandshakeError.cpp:64-103 *)
Definition error_name (e : HandshakeError) : string :=
  match e with
  | he_bad_message_format => "bad_message_format" | he_unsupported_version => "unsupported_version"
  | he_unsupported_handshake_ephemeral => "unsupported_handshake_ephemeral"
  | he_unsupported_handshake_hash => "unsupported_handshake_hash" | he_unsupported_handshake_kdf => "unsupported_handshake_kdf"
  | he_unsupported_session_mode => "unsupported_session_mode" | he_unsupported_nonce_mode => "unsupported_nonce_mode"
  | he_unsupported_handshake_mode => "unsupported_handshake_mode" | he_bad_certificate_format => "bad_certificate_format"
  | he_bad_certificate_chain => "bad_certificate_chain" | he_unsupported_certificate_feature => "unsupported_certificate_feature"
  | he_authentication_error => "authentication_error" | he_no_prior_handshake_begin => "no_prior_handshake_begin"
  | he_key_not_found => "key_not_found" | he_unknown => "unknown" | he_no_error => "none"
  end.
(** gen/PublicKeyType.cpp:36-47 *)
Definition key_type_name (e : PublicKeyType) : string := match e with pk_Ed25519 => "Ed25519" | pk_X25519 => "X25519" end.
(** gen/ContainerEntryType.cpp:44-63 *)
Definition entry_name (e : ContainerEntryType) : string :=
  match e with
  | ce_shared_secret => "shared_secret" | ce_certificate_chain => "certificate_chain"
  | ce_x25519_public_key => "x25519_public_key" | ce_x25519_private_key => "x25519_private_key"
  | ce_ed25519_public_key => "ed25519_public_key" | ce_ed25519_private_key => "ed25519_private_key"
  end.

(** ** The printing functions of the messages

    MessagePrinting.h:13-18 print_fields; IntegerField.h:55-58, EnumField.h:58-61, SeqByteField.h:68-71.
    A nested structure does not print its own name. *)
(** gen/Version.cpp:70-79 *)
Definition version_items (v : Version) : list item :=
  [Number "major_version" (major_version v); Number "minor_version" (minor_version v)].
(** gen/CryptoSpec.cpp:85-100 *)
Definition spec_items (s : CryptoSpec) : list item :=
  [Word "handshake_ephemeral" (ephemeral_name (sp_ephemeral s)); Word "handshake_hash" (hash_name (sp_hash s));
   Word "handshake_kdf" (kdf_name (sp_kdf s)); Word "session_nonce_mode" (nonce_mode_name (sp_nonce_mode s));
   Word "session_crypto_mode" (crypto_mode_name (sp_crypto_mode s))].
(** gen/SessionConstraints.cpp:70-79 *)
Definition constraints_items (c : SessionConstraints) : list item :=
  [Number "max_nonce" (sc_max_nonce c); Number "max_session_duration" (sc_max_session_duration c)].
(** gen/AuthMetadata.cpp:70-79 *)
Definition metadata_items (m : AuthMetadata) : list item :=
  [Number "nonce" (am_nonce m); Number "valid_until_ms" (am_valid_until_ms m)].
(** gen/RequestHandshakeBegin.cpp:92-109 *)
Definition request_items (m : RequestHandshakeBegin) : list item :=
  version_items (rq_version m) ++ spec_items (rq_spec m) ++ constraints_items (rq_constraints m) ++
  [Word "handshake_mode" (mode_name (rq_mode m)); Bytes "mode_ephemeral" (rq_mode_ephemeral m); Bytes "mode_data" (rq_mode_data m)].
(** gen/ReplyHandshakeBegin.cpp:77-88 *)
Definition reply_items (m : ReplyHandshakeBegin) : list item :=
  version_items (rp_version m) ++ [Bytes "mode_ephemeral" (rp_mode_ephemeral m); Bytes "mode_data" (rp_mode_data m)].
(** gen/ReplyHandshakeError.cpp:72-81 *)
Definition error_items (m : ReplyHandshakeError) : list item :=
  version_items (re_version m) ++ [Word "handshake_error" (error_name (re_error m))].
(** gen/SessionData.cpp:77-88 *)
Definition session_data_items (m : SessionData) : list item :=
  metadata_items (sd_metadata m) ++ [Bytes "user_data" (sd_user_data m); Bytes "auth_tag" (sd_auth_tag m)].
(** gen/ExtensionEnvelope.cpp:70-79 *)
Definition extension_items (e : ExtensionEnvelope) : list item :=
  [Number "identifier" (ex_identifier e); Bytes "extension_body" (ex_body e)].
(** SeqStructField.h:75-87 print; the messages are shorter than max_log_entry_size *)
Fixpoint fields_items {A} (items : A -> list item) (i : N) (l : list A) : list item :=
  match l with
  | [] => []
  | x :: rest => Line (str "field #" ++ dec i) :: items x ++ fields_items items (i + 1)%N rest
  end.
Definition structs_items {A} (items : A -> list item) (name : string) (l : list A) : list item :=
  Line (str name ++ str " (count = " ++ dec (N.of_nat (List.length l)) ++ str ")") :: fields_items items 1 l.
(** gen/CertificateBody.cpp:88-105 *)
Definition body_items (b : CertificateBody) : list item :=
  [Number "valid_after" (cb_valid_after b); Number "valid_before" (cb_valid_before b); Number "signing_level" (cb_signing_level b);
   Word "public_key_type" (key_type_name (cb_key_type b)); Bytes "public_key" (cb_public_key b)] ++
  structs_items extension_items "extensions" (cb_extensions b).
(** gen/CertificateEnvelope.cpp:70-79 *)
Definition envelope_items (e : CertificateEnvelope) : list item :=
  [Bytes "signature" (env_signature e); Bytes "certificate_body" (env_body e)].

(** ** ConsolePrinter.h *)
Definition newline : text := [10%N].
(** ConsolePrinter.h:13-18 write_line_prefix *)
Definition line_prefix (indentation : nat) : text := repeat 32%N indentation.
Definition hex_digit (d : N) : N := if (d <? 10)%N then (48 + d)%N else (87 + d)%N.
(** ConsolePrinter.h:64-68: one line of bytes, two digits each *)
Fixpoint hex_bytes (l : list N) : text :=
  match l with
  | [] => []
  | [b] => [hex_digit (b / 16)%N; hex_digit (b mod 16)%N]
  | b :: rest => [hex_digit (b / 16)%N; hex_digit (b mod 16)%N; 58%N] ++ hex_bytes rest
  end.
(** ConsolePrinter.h:56-70: lines of 16 bytes.  [fuel]: as many lines as there are bytes are enough. *)
Fixpoint hex_lines (fuel : nat) (indentation : nat) (data : list N) : text :=
  match fuel, data with
  | S f, _ :: _ => line_prefix indentation ++ hex_bytes (firstn 16 data) ++ newline ++ hex_lines f indentation (skipn 16 data)
  | _, _ => []
  end.
(** ConsolePrinter.h:32-73 *)
Definition console_item (indentation : nat) (i : item) : text :=
  match i with
  | Line m => line_prefix indentation ++ m ++ newline
  | Number name v => line_prefix indentation ++ str name ++ str ": " ++ dec v ++ newline
  | Word name w => line_prefix indentation ++ str name ++ str ": " ++ str w ++ newline
  | Bytes name data =>
      line_prefix indentation ++ str name ++ str " (length == " ++ dec (N.of_nat (List.length data)) ++ str ")" ++ newline ++
      hex_lines (List.length data) (indentation + 2) data
  end.
Definition console (indentation : nat) (l : list item) : text := List.concat (map (console_item indentation) l).

(** ** The text of a file *)
(** Actions.cpp:223-250 print_certificate_chain from certificate number [i] on, and whether it finishes.
    The indentation is increased for every certificate and not decreased (Actions.cpp:232). *)
Fixpoint print_certificates (indentation : nat) (i : N) (chain : list CertificateEnvelope) : text * bool :=
  match chain with
  | [] => ([], true)
  | e :: rest =>
      let ind := indentation + 2 in
      let head := newline ++ str "certificate #" ++ dec i ++ newline ++ console ind (envelope_items e) in
      match read_all body_read (env_body e) with
      | inr _ => (head, false)
      | inl b =>
          let (t, ok) := print_certificates ind (i + 1)%N rest in
          (head ++ console (ind + 2 + 2) (body_items b) ++ t, ok)
      end
  end.
(** Actions.cpp:29-53 print_contents of the file with the given name: what is written to the console, and
    whether it finishes (otherwise an exception is thrown) *)
Definition display (f : files) (name : text) (p : N) : text * bool :=
  match read_container f p with
  | None => ([], false)
  | Some file =>
      let head := str "File: " ++ name ++ newline ++ str "Type: " ++ str (entry_name (cf_type file)) ++ newline in
      if entry_eqb (cf_type file) ce_certificate_chain then
        match read_all chain_read (cf_payload file) with
        | inr _ => (head, false)
        | inl chain =>
            let (t, ok) := print_certificates 0 1 chain in
            (head ++ t ++ (if ok then newline else []), ok)
        end
      else (head ++ console 2 [Bytes "key-data" (cf_payload file)] ++ newline, true)
  end.
