(** * Handshake: model of key derivation, certificates and the handshakes of both sides

    Time is in nanoseconds (see Session.v).  Randomness, key sources and key look-ups are
    interfaces of the environment: each call receives the answer as an argument.  Logging is left
    out.  Enumerations have no "undefined" value here: the message parsers reject it
    (EnumField.h:36-51), so the default branches of the switches below are unreachable. *)
From Verif Require Import Base Codec Link LinkLayer Primitives Session.

(** ** Backend capabilities: Crypto.cpp:103-121.  sodium/src/Backend.cpp:200-216 registers every
    function, so all four are true with the sodium backend. *)
Record supports := { sup_sha256 : bool; sup_x25519 : bool; sup_ed25519 : bool; sup_gcm : bool }.
Definition sodium_supports : supports := {| sup_sha256 := true; sup_x25519 := true; sup_ed25519 := true; sup_gcm := true |}.

(** ** Algorithms *)

(** Algorithms.cpp:42-69 Algorithms::Handshake::configure; None is HandshakeError::none *)
Definition configure_handshake (S : supports) (h : HandshakeHash) (k : HandshakeKDF) : option HandshakeError :=
  match h with
  | hash_sha256 =>
      if negb (sup_sha256 S) then Some he_unsupported_handshake_hash
      else match k with
           | kdf_hkdf_sha256 => if negb (sup_sha256 S) then Some he_unsupported_handshake_kdf else None
           end
  end.
(** Algorithms.cpp:8-40 Algorithms::Session::configure: which functions it selects is in
    Session.v ([verify_nonce], [aead_encrypt], [aead_decrypt] by mode) *)
Definition configure_session (S : supports) (n : SessionNonceMode) (c : SessionCryptoMode) : option HandshakeError :=
  match c with
  | hmac_sha256_16 => if negb (sup_sha256 S) then Some he_unsupported_session_mode else None
  | aes_256_gcm => if negb (sup_gcm S) then Some he_unsupported_session_mode else None
  end.
(** Algorithms.cpp:87-115 Algorithms::Common::configure *)
Definition configure_common (S : supports) (s : CryptoSpec) : option HandshakeError :=
  match configure_handshake S (sp_hash s) (sp_kdf s) with
  | Some e => Some e
  | None => configure_session S (sp_nonce_mode s) (sp_crypto_mode s)
  end.
(** Algorithms.cpp:127-140 Algorithms::DH::configure *)
Definition configure_dh (S : supports) (e : HandshakeEphemeral) : option HandshakeError :=
  match e with
  | he_x25519 => if negb (sup_x25519 S) then Some he_unsupported_handshake_ephemeral else None
  | _ => Some he_unsupported_handshake_ephemeral
  end.

(** ** Key derivation *)

(** HKDF.h:15-36 hkdf<hmac_sha256>: mac_func concatenates its pieces; both outputs have length 32. *)
Definition hkdf (P : prims) (salt : list N) (ikm : list (list N)) : list N * list N :=
  let temp_key := p_hmac P salt (concat ikm) in
  let output1 := p_hmac P temp_key (concat [[1%N]]) in
  let output2 := p_hmac P temp_key (concat [output1; [2%N]]) in
  (output1, output2).

(** HandshakeHasher.cpp:6-15 HandshakeHasher::compute *)
Definition hasher_compute (P : prims) (first second : list N) : list N :=
  let value := p_sha256 P (concat [first]) in
  p_sha256 P (concat [value; second]).

(** Backend.cpp:117-125 dh_x25519: crypto_scalarmult reads 32 bytes of the public key whatever the
    length of the sequence, so a shorter sequence is read out of bounds. *)
Definition dh_x25519 (P : prims) (priv pub : list N) : outcome (option (list N)) :=
  if length pub <? 32 then UB else Ok (p_dh P priv (firstn 32 pub)).

(** TripleDH.cpp:6-27 TripleDH::compute *)
Definition triple_dh (P : prims) (static_priv ephemeral_priv remote_static remote_ephemeral : list N)
  : outcome (option (list N * list N * list N)) :=
  let* r1 := dh_x25519 P ephemeral_priv remote_ephemeral in
  match r1 with
  | None => Ok None
  | Some dh1 =>
      let* r2 := dh_x25519 P ephemeral_priv remote_static in
      match r2 with
      | None => Ok None
      | Some dh2 =>
          let* r3 := dh_x25519 P static_priv remote_ephemeral in
          match r3 with
          | None => Ok None
          | Some dh3 => Ok (Some (dh1, dh2, dh3))
          end
      end
  end.

(** ** Certificate chains *)

(** Chain.cpp:78-91 try_get_dsa_info: Some signature_length when there is a verify function *)
Definition try_get_dsa_info (S : supports) (t : PublicKeyType) : option nat :=
  match t with
  | pk_Ed25519 => if sup_ed25519 S then Some 64 else None
  | pk_X25519 => None
  end.
(** Chain.cpp:93-101 *)
Definition is_dh_key (t : PublicKeyType) : bool := match t with pk_X25519 => true | pk_Ed25519 => false end.

(** Backend.cpp:147-150 verify_ed25519: crypto_sign_verify_detached reads 64 bytes of signature
    and 32 bytes of public key whatever the lengths of the sequences. *)
Definition verify_ed25519 (P : prims) (message signature public_key : list N) : outcome bool :=
  if (length signature <? 64) || (length public_key <? 32) then UB
  else Ok (p_verify P message (firstn 64 signature) (firstn 32 public_key)).

(** Chain.cpp:44-76 Chain::verify_pair *)
Definition verify_pair (P : prims) (S : supports) (parent : CertificateBody) (child_envelope : CertificateEnvelope)
  : outcome (CertificateBody + HandshakeError) :=
  match try_get_dsa_info S (cb_key_type parent) with
  | None => Ok (inr he_bad_certificate_chain)
  | Some signature_length =>
      if negb (signature_length =? length (env_signature child_envelope)) then Ok (inr he_bad_certificate_chain)
      else
        let* good := verify_ed25519 P (env_body child_envelope) (env_signature child_envelope) (cb_public_key parent) in
        if negb good then Ok (inr he_authentication_error)
        else match read_all body_read (env_body child_envelope) with
             | inr _ => Ok (inr he_bad_certificate_format)
             | inl child =>
                 if (cb_valid_after child <? cb_valid_after parent)%N then Ok (inr he_bad_certificate_chain)
                 else if (cb_valid_before parent <? cb_valid_before child)%N then Ok (inr he_bad_certificate_chain)
                 else if (cb_signing_level parent <=? cb_signing_level child)%N then Ok (inr he_bad_certificate_chain)
                 else Ok (inl child)
             end
  end.

(** Chain.cpp:18-27, the loop of Chain::verify *)
Fixpoint verify_loop (P : prims) (S : supports) (parent : CertificateBody) (certificates : list CertificateEnvelope)
  : outcome (CertificateBody + HandshakeError) :=
  match certificates with
  | [] => Ok (inl parent)
  | child :: rest =>
      let* r := verify_pair P S parent child in
      match r with inr e => Ok (inr e) | inl output => verify_loop P S output rest end
  end.
(** Chain.cpp:10-42 Chain::verify *)
Definition chain_verify (P : prims) (S : supports) (anchor : CertificateBody) (certificates : list CertificateEnvelope)
  : outcome (CertificateBody + HandshakeError) :=
  match certificates with
  | [] => Ok (inr he_bad_certificate_chain)
  | _ =>
      let* r := verify_loop P S anchor certificates in
      match r with
      | inr e => Ok (inr e)
      | inl parent =>
          if negb (cb_signing_level parent =? 0)%N then Ok (inr he_bad_certificate_chain)
          else if negb (is_dh_key (cb_key_type parent)) then Ok (inr he_bad_certificate_chain)
          else Ok (inl parent)
      end
  end.

(** ** Certificate handlers: PresharedKeyCertificateHandler.h, IndustrialCertificateHandler.cpp *)
Inductive cert_handler :=
| Preshared (remote_static_public_key : list N)
| Industrial (anchor : CertificateBody) (presented : list N).

(** PresharedKeyCertificateHandler.h:29-32, IndustrialCertificateHandler.h:30-33 *)
Definition cert_mode (h : cert_handler) : HandshakeMode :=
  match h with Preshared _ => hm_public_keys | Industrial _ _ => hm_industrial_certificates end.
(** PresharedKeyCertificateHandler.h:24-27, IndustrialCertificateHandler.cpp:86-89 *)
Definition cert_data (h : cert_handler) : list N := match h with Preshared _ => [] | Industrial _ d => d end.

(** Equality of enumeration values *)
Definition mode_eqb (a b : HandshakeMode) : bool := N.eqb (handshake_mode_to a) (handshake_mode_to b).
Definition is_empty {A} (l : list A) : bool := match l with [] => true | _ => false end.

(** PresharedKeyCertificateHandler.h:34-44, IndustrialCertificateHandler.cpp:91-112 *)
Definition cert_validate (P : prims) (S : supports) (h : cert_handler) (mode : HandshakeMode) (data : list N)
  : outcome (list N + HandshakeError) :=
  match h with
  | Preshared key =>
      if negb (mode_eqb mode hm_public_keys) then Ok (inr he_unsupported_handshake_mode)
      else if negb (is_empty data) then Ok (inr he_bad_message_format)
      else Ok (inl key)
  | Industrial anchor _ =>
      if negb (mode_eqb mode hm_industrial_certificates) then Ok (inr he_unsupported_handshake_mode)
      else match read_all chain_read data with
           | inr _ => Ok (inr he_bad_certificate_format)
           | inl chain =>
               let* r := chain_verify P S anchor chain in
               match r with inr e => Ok (inr e) | inl endpoint => Ok (inl (cb_public_key endpoint)) end
           end
  end.

(** IndustrialCertificateHandler.cpp:24-53 read_anchor_cert; None when it throws *)
Definition entry_eqb (a b : ContainerEntryType) : bool := N.eqb (entry_type_to a) (entry_type_to b).
Definition read_anchor_cert (file_data : list N) : option CertificateBody :=
  match read_all container_read file_data with
  | inr _ => None
  | inl file =>
      if negb (entry_eqb (cf_type file) ce_certificate_chain) then None
      else match read_all chain_read (cf_payload file) with
           | inl [e] => match read_all body_read (env_body e) with inl body => Some body | inr _ => None end
           | _ => None
           end
  end.
(** IndustrialCertificateHandler.cpp:55-84 verify_presented_chain *)
Definition verify_presented_chain (P : prims) (S : supports) (anchor : CertificateBody) (file_data : list N) : outcome (option (list N)) :=
  match read_all container_read file_data with
  | inr _ => Ok None
  | inl file =>
      if negb (entry_eqb (cf_type file) ce_certificate_chain) then Ok None
      else match read_all chain_read (cf_payload file) with
           | inr _ => Ok None
           | inl chain =>
               let* r := chain_verify P S anchor chain in
               match r with inr _ => Ok None | inl _ => Ok (Some (cf_payload file)) end
           end
  end.
(** IndustrialCertificateHandler.cpp:14-22, the constructor *)
Definition make_industrial (P : prims) (S : supports) (anchor_file chain_file : list N) : outcome (option cert_handler) :=
  match read_anchor_cert anchor_file with
  | None => Ok None
  | Some anchor =>
      let* r := verify_presented_chain P S anchor chain_file in
      match r with None => Ok None | Some data => Ok (Some (Industrial anchor data)) end
  end.

(** ** Messages and frames *)

(** ProtocolVersion.cpp:10-15 with Constants.h:13-14 *)
Definition version_get : Version := {| major_version := 0; minor_version := 1 |}.

(** IFrameWriter.cpp:15-32 IFrameWriter::write: the frame and the message bytes inside it *)
Definition frame_write2 (E : senv) (w : writer) : option (list N * list N) :=
  match e_kind E with
  | FLink a => link_frame_write (a_destination a) (a_source a) (e_max_payload E) w
  | FRaw => raw_frame_write (e_max_payload E) w
  end.

(** ** The responder's side *)
Inductive responder_handshake :=
| RSharedSecret (key : list N)
| RQkd
| RPublicKey (static_private : list N) (handler : cert_handler).

(** What the environment answers during one call: 32 random bytes (Crypto::gen_random, or the
    private key of gen_keypair_x25519) and IKeyLookup::find_and_consume_key. *)
Record answers := { ans_random : list N; ans_lookup : N -> option (list N) }.

(** BigEndian::read of a uint64_t followed by is_not_empty, QKDResponderHandshake.cpp:39-45 *)
Definition read_key_id (data : list N) : option N := if length data =? 8 then Some (be_value data) else None.

(** Session::Param(now, max_nonce, milliseconds(max_session_duration)) *)
Definition responder_param (now : Z) (c : SessionConstraints) : param :=
  {| p_start := now; p_max_nonce := sc_max_nonce c; p_max_time := ms (sc_max_session_duration c) |}.

(** The end of the three process functions (SharedSecretResponderHandshake.cpp:72-80,
    QKDResponderHandshake.cpp:83-91, PublicKeyResponderHandshake.cpp:92-108): derive the keys,
    initialize the session (the result of initialize is ignored) and return the reply frame.  The
    first key of the KDF is the receive key. *)
Definition responder_finish (P : prims) (msg : RequestHandshakeBegin) (now : Z) (salt : list N) (ikm : list (list N))
  (frame : list N) (session : session) : outcome ((list N + HandshakeError) * Session.session) :=
  let (k1, k2) := hkdf P salt ikm in
  let '(_, session', _) := initialize session (sp_nonce_mode (rq_spec msg)) (sp_crypto_mode (rq_spec msg))
                             (responder_param now (rq_constraints msg)) {| k_rx := k1; k_tx := k2 |} in
  Ok (inl frame, session').

(** SharedSecretResponderHandshake.cpp:22-81, QKDResponderHandshake.cpp:22-92,
    PublicKeyResponderHandshake.cpp:22-109: process.  Result: the reply frame or the error, and the
    session given as argument.  gen_keypair_x25519 terminates the process when the backend has no
    Ed25519 (Crypto.cpp:142-146 checks the wrong capability); UB stands for that too. *)
Definition process (E : senv) (S : supports) (h : responder_handshake) (ans : answers)
  (msg : RequestHandshakeBegin) (msg_bytes : list N) (now : Z) (session : session)
  : outcome ((list N + HandshakeError) * Session.session) :=
  let P := e_prims E in
  let failure e := Ok (inr e, session) in
  match h with
  | RSharedSecret key =>
      if negb (length (rq_mode_ephemeral msg) =? 32) then failure he_bad_message_format
      else if negb (is_empty (rq_mode_data msg)) then failure he_bad_message_format
      else match configure_common S (rq_spec msg) with
      | Some e => failure e
      | None =>
          let nonce := ans_random ans in
          match frame_write2 E (reply_write {| rp_version := version_get; rp_mode_ephemeral := nonce; rp_mode_data := [] |}) with
          | None => failure he_unknown
          | Some (frame, written) =>
              responder_finish P msg now (hasher_compute P msg_bytes written) [key; rq_mode_ephemeral msg; nonce] frame session
          end
      end
  | RQkd =>
      if negb (is_empty (rq_mode_ephemeral msg)) then failure he_bad_message_format
      else match configure_common S (rq_spec msg) with
      | Some e => failure e
      | None =>
          match read_key_id (rq_mode_data msg) with
          | None => failure he_bad_message_format
          | Some key_id =>
              match ans_lookup ans key_id with
              | None => failure he_key_not_found
              | Some shared_secret =>
                  match frame_write2 E (reply_write {| rp_version := version_get; rp_mode_ephemeral := []; rp_mode_data := [] |}) with
                  | None => failure he_unknown
                  | Some (frame, written) =>
                      responder_finish P msg now (hasher_compute P msg_bytes written) [shared_secret] frame session
                  end
              end
          end
      end
  | RPublicKey static_private handler =>
      match configure_common S (rq_spec msg) with
      | Some e => failure e
      | None =>
      match configure_dh S (sp_ephemeral (rq_spec msg)) with
      | Some e => failure e
      | None =>
          if negb (length (rq_mode_ephemeral msg) =? 32) then failure he_bad_message_format
          else
            let* v := cert_validate P S handler (rq_mode msg) (rq_mode_data msg) in
            match v with
            | inr e => failure e
            | inl remote_static =>
                if negb (sup_ed25519 S) then UB else
                let ephemeral_private := ans_random ans in
                let reply := {| rp_version := version_get; rp_mode_ephemeral := p_dh_public P ephemeral_private;
                                rp_mode_data := cert_data handler |} in
                match frame_write2 E (reply_write reply) with
                | None => failure he_unknown
                | Some (frame, written) =>
                    let salt := hasher_compute P msg_bytes written in
                    let* ikm := triple_dh P static_private ephemeral_private remote_static (rq_mode_ephemeral msg) in
                    match ikm with
                    | None => failure he_unknown
                    | Some (dh1, dh2, dh3) => responder_finish P msg now salt [dh1; dh2; dh3] frame session
                    end
                end
            end
      end
      end
  end.

(** Responder.cpp:26-35 reply_with_handshake_error: the frame to transmit, if it can be written *)
Definition error_frame (E : senv) (e : HandshakeError) : option (list N) :=
  option_map fst (frame_write2 E (error_write {| re_version := version_get; re_error := e |})).

(** Responder.cpp:64-81 on_message(RequestHandshakeBegin): the frame given to the lower layer (if
    any) and the pending session afterwards *)
Definition respond (E : senv) (S : supports) (h : responder_handshake) (ans : answers)
  (msg : RequestHandshakeBegin) (msg_bytes : list N) (now : Z) (pending : session)
  : outcome (option (list N) * Session.session) :=
  if negb (major_version (rq_version msg) =? major_version version_get)%N
  then Ok (error_frame E he_unsupported_version, pending)
  else
    let* (r, pending') := process E S h ans msg msg_bytes now pending in
    match r with
    | inr e => Ok (error_frame E e, pending')
    | inl frame => Ok (Some frame, pending')
    end.

(** CryptoLayer.h:102-115 handle_message for a RequestHandshakeBegin, with Responder.cpp:53-62
    on_parse_error *)
Definition respond_bytes (E : senv) (S : supports) (h : responder_handshake) (ans : answers)
  (msg_bytes : list N) (now : Z) (pending : session) : outcome (option (list N) * Session.session) :=
  match request_read msg_bytes with
  | inr _ => Ok (error_frame E he_bad_message_format, pending)
  | inl msg => respond E S h ans msg msg_bytes now pending
  end.

(** ** The initiator's side *)

(** CryptoSuite.h:15-33 and DHCryptoSuite: the spec the initiator was configured with.  For the
    shared secret and QKD modes get_crypto_suite returns the ephemeral nonce resp. none
    (SharedSecretInitiatorHandshake.h:35-38, QKDInitiatorHandshake.h:35-38). *)
Inductive initiator_handshake :=
| ISharedSecret (suite : CryptoSpec) (key : list N)
| IQkd (suite : CryptoSpec)
| IPublicKey (suite : CryptoSpec) (static_private : list N) (handler : cert_handler).

(** PublicKeyInitiatorHandshake.h:39-47 and the like *)
Definition with_ephemeral (s : CryptoSpec) (e : HandshakeEphemeral) : CryptoSpec :=
  {| sp_ephemeral := e; sp_hash := sp_hash s; sp_kdf := sp_kdf s;
     sp_nonce_mode := sp_nonce_mode s; sp_crypto_mode := sp_crypto_mode s |}.
Definition get_crypto_spec (h : initiator_handshake) : CryptoSpec :=
  match h with
  | ISharedSecret s _ => with_ephemeral s he_nonce
  | IQkd s => with_ephemeral s he_none
  | IPublicKey s _ _ => s
  end.
Definition get_handshake_mode (h : initiator_handshake) : HandshakeMode :=
  match h with ISharedSecret _ _ => hm_shared_secret | IQkd _ => hm_qkd | IPublicKey _ _ c => cert_mode c end.

(** The constructors: get_or_throw (Algorithms.cpp:71-85, 117-125) *)
Definition initiator_constructible (S : supports) (h : initiator_handshake) : bool :=
  match h with
  | ISharedSecret s _ | IQkd s => match configure_common S s with None => true | Some _ => false end
  | IPublicKey s _ _ =>
      match configure_common S s, configure_dh S (sp_ephemeral s) with None, None => true | _, _ => false end
  end.

(** The variable members: nonce_buffer or the ephemeral private key; the QKD key; the time of
    transmission; the running hash *)
Record ihs := { i_secret : list N; i_qkd_key : option (list N); i_time : Z; i_hash : list N }.
Definition new_ihs : ihs := {| i_secret := []; i_qkd_key := None; i_time := 0; i_hash := [] |}.

(** What the environment answers to initialize_new_handshake: random bytes, a key record *)
Record ianswers := { ia_random : list N; ia_key : option (N * list N) }.

(** initialize_new_handshake: SharedSecretInitiatorHandshake.cpp:18-23, QKDInitiatorHandshake.cpp:
    18-36, PublicKeyInitiatorHandshake.cpp:11-18.  None is InitResult::failure; otherwise the mode
    ephemeral and the mode data. *)
Definition initialize_new_handshake (P : prims) (h : initiator_handshake) (a : ianswers) (i : ihs)
  : option (list N * list N) * ihs :=
  match h with
  | ISharedSecret _ _ =>
      (Some (ia_random a, []), {| i_secret := ia_random a; i_qkd_key := i_qkd_key i; i_time := i_time i; i_hash := i_hash i |})
  | IQkd _ =>
      match ia_key a with
      | None => (None, {| i_secret := i_secret i; i_qkd_key := None; i_time := i_time i; i_hash := i_hash i |})
      | Some (id, key) =>
          (Some ([], be_bytes 8 id), {| i_secret := i_secret i; i_qkd_key := Some key; i_time := i_time i; i_hash := i_hash i |})
      end
  | IPublicKey _ _ handler =>
      (Some (p_dh_public P (ia_random a), cert_data handler),
       {| i_secret := ia_random a; i_qkd_key := i_qkd_key i; i_time := i_time i; i_hash := i_hash i |})
  end.

(** finalize_request_tx: SharedSecretInitiatorHandshake.cpp:25-29 and the two like it *)
Definition finalize_request_tx (P : prims) (request : list N) (now : Z) (i : ihs) : ihs :=
  {| i_secret := i_secret i; i_qkd_key := i_qkd_key i; i_time := now; i_hash := p_sha256 P (concat [request]) |}.

(** CryptoLayerConfig.h:33-39 *)
Record limits := { l_max_nonce : N; l_max_time_ms : N }.

(** InitiatorHandshakeStates.cpp:37-45: the request of Idle::on_handshake_required *)
Definition make_request (h : initiator_handshake) (l : limits) (mode_ephemeral mode_data : list N) : RequestHandshakeBegin :=
  {| rq_version := version_get; rq_spec := get_crypto_spec h;
     rq_constraints := {| sc_max_nonce := l_max_nonce l; sc_max_session_duration := l_max_time_ms l |};
     rq_mode := get_handshake_mode h; rq_mode_ephemeral := mode_ephemeral; rq_mode_data := mode_data |}.

(** The end of the three initialize_session functions: the first key of the KDF is the transmit
    key; clock rollback check; estimate of the session start; Session::initialize. *)
Definition initiator_finish (P : prims) (h : initiator_handshake) (i : ihs) (l : limits) (now : Z) (salt : list N)
  (ikm : list (list N)) (session : session) : outcome (bool * ihs * Session.session) :=
  let i' := {| i_secret := i_secret i; i_qkd_key := i_qkd_key i; i_time := i_time i; i_hash := salt |} in
  let (k1, k2) := hkdf P salt ikm in
  if (now <? i_time i)%Z then Ok (false, i', session)
  else
    let elapsed := (now - i_time i)%Z in
    let start := (now - elapsed / 2)%Z in
    let '(ok, session', _) :=
      initialize session (sp_nonce_mode (get_crypto_spec h)) (sp_crypto_mode (get_crypto_spec h))
        {| p_start := start; p_max_nonce := l_max_nonce l; p_max_time := ms (l_max_time_ms l) |}
        {| k_rx := k2; k_tx := k1 |} in
    Ok (ok, i', session').

(** initialize_session: SharedSecretInitiatorHandshake.cpp:31-71, QKDInitiatorHandshake.cpp:44-89,
    PublicKeyInitiatorHandshake.cpp:26-78 *)
Definition initialize_session (P : prims) (S : supports) (h : initiator_handshake) (i : ihs) (msg : ReplyHandshakeBegin)
  (msg_bytes : list N) (l : limits) (now : Z) (session : session) : outcome (bool * ihs * Session.session) :=
  let salt := p_sha256 P (concat [i_hash i; msg_bytes]) in
  match h with
  | ISharedSecret _ key =>
      if negb (length (rp_mode_ephemeral msg) =? 32) then Ok (false, i, session)
      else if negb (is_empty (rp_mode_data msg)) then Ok (false, i, session)
      else initiator_finish P h i l now salt [key; i_secret i; rp_mode_ephemeral msg] session
  | IQkd _ =>
      match i_qkd_key i with
      | None => Ok (false, i, session)
      | Some key =>
          if negb (is_empty (rp_mode_ephemeral msg)) then Ok (false, i, session)
          else if negb (is_empty (rp_mode_data msg)) then Ok (false, i, session)
          else initiator_finish P h i l now salt [key] session
      end
  | IPublicKey _ static_private handler =>
      let* v := cert_validate P S handler (cert_mode handler) (rp_mode_data msg) in
      match v with
      | inr _ => Ok (false, i, session)
      | inl remote_static =>
          let* ikm := triple_dh P static_private (i_secret i) remote_static (rp_mode_ephemeral msg) in
          match ikm with
          | None => Ok (false, {| i_secret := i_secret i; i_qkd_key := i_qkd_key i; i_time := i_time i; i_hash := salt |}, session)
          | Some (dh1, dh2, dh3) => initiator_finish P h i l now salt [dh1; dh3; dh2] session
          end
      end
  end.
