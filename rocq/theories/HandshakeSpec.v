(** * HandshakeSpec: what key derivation, certificate chains and handshakes are supposed to do *)
From Verif Require Import Base Codec CodecSpec Link LinkSpec LinkLayer Primitives Session SessionSpec Handshake.

(** ** RFC 5869 with HMAC-SHA256 *)
Definition rfc_extract (P : prims) (salt ikm : list N) : list N := p_hmac P salt ikm.
(** T(0) is empty, T(n) = HMAC(PRK, T(n-1) | info | n) *)
Fixpoint rfc_T (P : prims) (prk info : list N) (n : nat) : list N :=
  match n with O => [] | S m => p_hmac P prk (rfc_T P prk info m ++ info ++ [N.of_nat n]) end.
(** the first L bytes of T(1) | ... | T(ceil(L/32)) *)
Definition rfc_expand (P : prims) (prk info : list N) (L : nat) : list N :=
  firstn L (concat (map (rfc_T P prk info) (seq 1 ((L + 31) / 32)))).
Definition rfc_hkdf (P : prims) (salt ikm info : list N) (L : nat) : list N := rfc_expand P (rfc_extract P salt ikm) info L.

(** The handshake hash over the request and the reply. *)
Definition transcript_hash (P : prims) (request reply : list N) : list N := p_sha256 P (p_sha256 P request ++ reply).

(** ** Certificates *)

(** [issuer] issued [subject], in the envelope [env].  (Only the first 32 bytes of the issuer's
    key are used; see C36.) *)
Record issued (P : prims) (issuer : CertificateBody) (env : CertificateEnvelope) (subject : CertificateBody) : Prop := {
  is_signing_key : cb_key_type issuer = pk_Ed25519 /\ 32 <= length (cb_public_key issuer);
  is_signature : length (env_signature env) = 64 /\ p_verify P (env_body env) (env_signature env) (firstn 32 (cb_public_key issuer)) = true;
  is_body : body_ok subject /\ env_body env = wire_body subject;
  is_nested : (cb_valid_after issuer <= cb_valid_after subject)%N /\ (cb_valid_before subject <= cb_valid_before issuer)%N;
  is_level : (cb_signing_level subject < cb_signing_level issuer)%N
}.
(** A path of certificates, each issued by the one before. *)
Inductive issue_path (P : prims) : CertificateBody -> list CertificateEnvelope -> CertificateBody -> Prop :=
| path_nil a : issue_path P a [] a
| path_cons a env b rest leaf : issued P a env b -> issue_path P b rest leaf -> issue_path P a (env :: rest) leaf.
(** An end-entity certificate may not sign, and its key is for key agreement. *)
Definition end_entity (b : CertificateBody) : Prop := cb_signing_level b = 0%N /\ cb_key_type b = pk_X25519.
Definition chain_certifies (P : prims) (anchor : CertificateBody) (chain : list CertificateEnvelope) (leaf : CertificateBody) : Prop :=
  chain <> [] /\ issue_path P anchor chain leaf /\ end_entity leaf.

(** The certificates a chain carries. *)
Definition envelopes_of (bodies : list CertificateBody) (chain : list CertificateEnvelope) : Prop :=
  Forall2 (fun b e => env_body e = wire_body b) bodies chain.

(** A certificate handler takes the public key [key] from the certificate data [data]. *)
Inductive takes_key (P : prims) : cert_handler -> list N -> list N -> Prop :=
| takes_preshared key : takes_key P (Preshared key) [] key
| takes_certified anchor mine chain leaf : chain_ok chain -> chain_certifies P anchor chain leaf ->
    takes_key P (Industrial anchor mine) (wire_chain chain) (cb_public_key leaf).

(** ** Checks in order, each with the error it causes *)
Inductive first_failing {X} : list (Prop * X) -> option X -> Prop :=
| ff_none : first_failing [] None
| ff_here (Q : Prop) e l : Q -> first_failing ((Q, e) :: l) (Some e)
| ff_later (Q : Prop) e l r : ~ Q -> first_failing l r -> first_failing ((Q, e) :: l) r.

(** Why a certificate is rejected below its issuer. *)
Definition subject_of (env : CertificateEnvelope) (b : CertificateBody) : Prop := body_ok b /\ env_body env = wire_body b.
Definition pair_checks (P : prims) (S : supports) (issuer : CertificateBody) (env : CertificateEnvelope) : list (Prop * HandshakeError) := [
  (~ (cb_key_type issuer = pk_Ed25519 /\ sup_ed25519 S = true), he_bad_certificate_chain);
  (length (env_signature env) <> 64, he_bad_certificate_chain);
  (p_verify P (env_body env) (env_signature env) (firstn 32 (cb_public_key issuer)) = false, he_authentication_error);
  ((forall b, ~ subject_of env b), he_bad_certificate_format);
  ((exists b, subject_of env b /\ (cb_valid_after b < cb_valid_after issuer)%N), he_bad_certificate_chain);
  ((exists b, subject_of env b /\ (cb_valid_before issuer < cb_valid_before b)%N), he_bad_certificate_chain);
  ((exists b, subject_of env b /\ (cb_signing_level issuer <= cb_signing_level b)%N), he_bad_certificate_chain) ].
(** Walking down a chain: the first failing check, or the end-entity certificate. *)
Inductive chain_walk (P : prims) (S : supports) : CertificateBody -> list CertificateEnvelope -> CertificateBody + HandshakeError -> Prop :=
| walk_end a r : first_failing [(cb_signing_level a <> 0%N, he_bad_certificate_chain); (cb_key_type a <> pk_X25519, he_bad_certificate_chain)] r ->
    chain_walk P S a [] match r with None => inl a | Some e => inr e end
| walk_stop a env rest e : first_failing (pair_checks P S a env) (Some e) -> chain_walk P S a (env :: rest) (inr e)
| walk_next a env b rest r : first_failing (pair_checks P S a env) None -> subject_of env b -> chain_walk P S b rest r ->
    chain_walk P S a (env :: rest) r.

(** Why certificate data is rejected by a handler. *)
Inductive cert_rejects (P : prims) (S : supports) : cert_handler -> HandshakeMode -> list N -> HandshakeError -> Prop :=
| rej_mode h mode data : mode <> cert_mode h -> cert_rejects P S h mode data he_unsupported_handshake_mode
| rej_data key data : data <> [] -> cert_rejects P S (Preshared key) hm_public_keys data he_bad_message_format
| rej_format anchor mine data : (forall c, chain_ok c -> data <> wire_chain c) ->
    cert_rejects P S (Industrial anchor mine) hm_industrial_certificates data he_bad_certificate_format
| rej_empty anchor mine data : data = wire_chain [] ->
    cert_rejects P S (Industrial anchor mine) hm_industrial_certificates data he_bad_certificate_chain
| rej_chain anchor mine c e : chain_ok c -> c <> [] -> chain_walk P S anchor c (inr e) ->
    cert_rejects P S (Industrial anchor mine) hm_industrial_certificates (wire_chain c) e.

(** ** The responder's decision *)

(** Room for a message of that size in a frame. *)
Definition fits (E : senv) (n : nat) : Prop := (N.of_nat n <= e_max_payload E)%N.

(** The reply of each mode. *)
Definition the_reply (E : senv) (h : responder_handshake) (ans : answers) : ReplyHandshakeBegin :=
  {| rp_version := {| major_version := 0; minor_version := 1 |};
     rp_mode_ephemeral := match h with RSharedSecret _ => ans_random ans | RQkd => []
                          | RPublicKey _ _ => p_dh_public (e_prims E) (ans_random ans) end;
     rp_mode_data := match h with RPublicKey _ c => cert_data c | _ => [] end |}.

Definition algorithm_checks (S : supports) (m : RequestHandshakeBegin) : list (Prop * HandshakeError) := [
  (sup_sha256 S = false, he_unsupported_handshake_hash);
  (sup_sha256 S = false, he_unsupported_handshake_kdf);
  (match sp_crypto_mode (rq_spec m) with hmac_sha256_16 => sup_sha256 S | aes_256_gcm => sup_gcm S end = false, he_unsupported_session_mode) ].

Definition mode_checks (E : senv) (S : supports) (h : responder_handshake) (ans : answers) (m : RequestHandshakeBegin)
  : list (Prop * HandshakeError) :=
  let P := e_prims E in
  let reply_fits := [(~ fits E (length (wire_reply (the_reply E h ans))), he_unknown)] in
  match h with
  | RSharedSecret _ =>
      [(length (rq_mode_ephemeral m) <> 32, he_bad_message_format); (rq_mode_data m <> [], he_bad_message_format)]
      ++ algorithm_checks S m ++ reply_fits
  | RQkd =>
      [(rq_mode_ephemeral m <> [], he_bad_message_format)] ++ algorithm_checks S m ++
      [(length (rq_mode_data m) <> 8, he_bad_message_format);
       (ans_lookup ans (be_value (rq_mode_data m)) = None, he_key_not_found)] ++ reply_fits
  | RPublicKey s c =>
      algorithm_checks S m ++
      [(~ (sp_ephemeral (rq_spec m) = he_x25519 /\ sup_x25519 S = true), he_unsupported_handshake_ephemeral);
       (length (rq_mode_ephemeral m) <> 32, he_bad_message_format)]
  end.
(** The checks of the public key mode after the certificate has been accepted. *)
Definition late_checks (E : senv) (c : cert_handler) (ans : answers) (h : responder_handshake) (s : list N) (m : RequestHandshakeBegin) (remote : list N)
  : list (Prop * HandshakeError) :=
  let P := e_prims E in
  [(~ fits E (length (wire_reply (the_reply E h ans))), he_unknown);
   (p_dh P (ans_random ans) (rq_mode_ephemeral m) = None, he_unknown);
   (p_dh P (ans_random ans) (firstn 32 remote) = None, he_unknown);
   (p_dh P s (rq_mode_ephemeral m) = None, he_unknown)].

(** The decision on the bytes of a handshake request: an error, or none. *)
Inductive decision (E : senv) (S : supports) (h : responder_handshake) (ans : answers) : list N -> option HandshakeError -> Prop :=
| dec_malformed bytes : (forall m, request_ok m -> bytes <> wire_request m) -> decision E S h ans bytes (Some he_bad_message_format)
| dec_version m : request_ok m -> major_version (rq_version m) <> 0%N -> decision E S h ans (wire_request m) (Some he_unsupported_version)
| dec_mode m r : request_ok m -> major_version (rq_version m) = 0%N ->
    first_failing (mode_checks E S h ans m) r -> (r = None -> forall s c, h <> RPublicKey s c) ->
    decision E S h ans (wire_request m) r
| dec_certificate m s c e : request_ok m -> major_version (rq_version m) = 0%N -> h = RPublicKey s c ->
    first_failing (mode_checks E S h ans m) None -> cert_rejects (e_prims E) S c (rq_mode m) (rq_mode_data m) e ->
    decision E S h ans (wire_request m) (Some e)
| dec_certified m s c remote r : request_ok m -> major_version (rq_version m) = 0%N -> h = RPublicKey s c ->
    first_failing (mode_checks E S h ans m) None -> rq_mode m = cert_mode c ->
    takes_key (e_prims E) c (rq_mode_data m) remote ->
    first_failing (late_checks E c ans h s m remote) r -> decision E S h ans (wire_request m) r.

(** The frame of an error reply, when there is room for its 6 bytes. *)
Definition error_reply (E : senv) (e : HandshakeError) (out : option (list N)) : Prop :=
  out = Some (frame_of (e_kind E) (wire_error {| re_version := {| major_version := 0; minor_version := 1 |}; re_error := e |}))
  \/ (~ fits E 6 /\ out = None).

(** A new session with exactly these parameters. *)
Definition session_for (s : session) (spec : CryptoSpec) (start : Z) (max_nonce max_ms : N) (rx tx : list N) : Prop :=
  s_valid s = true /\ s_rx_nonce s = 0%N /\ s_tx_nonce s = 0%N /\ s_nonce_mode s = sp_nonce_mode spec /\
  s_crypto_mode s = sp_crypto_mode spec /\ p_start (s_param s) = start /\ p_max_nonce (s_param s) = max_nonce /\
  p_max_time (s_param s) = (Z.of_N max_ms * 1000000)%Z /\ k_rx (s_keys s) = rx /\ k_tx (s_keys s) = tx.

(** ** Input key material *)
Inductive responder_material (P : prims) (ans : answers) (m : RequestHandshakeBegin) : responder_handshake -> list N -> Prop :=
| rm_secret key : responder_material P ans m (RSharedSecret key) (key ++ rq_mode_ephemeral m ++ ans_random ans)
| rm_qkd key : ans_lookup ans (be_value (rq_mode_data m)) = Some key -> responder_material P ans m RQkd key
| rm_public s c remote a b d : takes_key P c (rq_mode_data m) remote ->
    p_dh P (ans_random ans) (rq_mode_ephemeral m) = Some a ->
    p_dh P (ans_random ans) (firstn 32 remote) = Some b ->
    p_dh P s (rq_mode_ephemeral m) = Some d ->
    responder_material P ans m (RPublicKey s c) (a ++ b ++ d).
Inductive initiator_material (P : prims) (i : ihs) (m : ReplyHandshakeBegin) : initiator_handshake -> list N -> Prop :=
| im_secret suite key : initiator_material P i m (ISharedSecret suite key) (key ++ i_secret i ++ rp_mode_ephemeral m)
| im_qkd suite key : i_qkd_key i = Some key -> initiator_material P i m (IQkd suite) key
| im_public suite s c remote a b d : takes_key P c (rp_mode_data m) remote ->
    p_dh P (i_secret i) (firstn 32 (rp_mode_ephemeral m)) = Some a ->
    p_dh P s (firstn 32 (rp_mode_ephemeral m)) = Some b ->
    p_dh P (i_secret i) (firstn 32 remote) = Some d ->
    initiator_material P i m (IPublicKey suite s c) (a ++ b ++ d).

(** ** What an accepting responder does *)
(** The random generator yields 32 bytes; the data a certificate handler presents is a byte
    sequence. *)
Definition answers_ok (ans : answers) : Prop := length (ans_random ans) = 32 /\ bytes_ok (ans_random ans).
Definition presents_ok (c : cert_handler) : Prop := seq_ok (cert_data c).
Definition responder_ok (h : responder_handshake) : Prop := match h with RPublicKey s c => presents_ok c | _ => True end.

(** The two halves of the 64 bytes of key material: what the responder receives with, and what it
    transmits with. *)
Definition okm (P : prims) (request reply ikm : list N) : list N := rfc_hkdf P (transcript_hash P request reply) ikm [] 64.

(** The responder accepted [m] at time [now]: it replies and holds a session with the requested
    algorithms and constraints and the derived keys. *)
Definition responded (E : senv) (h : responder_handshake) (ans : answers) (m : RequestHandshakeBegin) (bytes : list N) (now : Z)
  (frame : list N) (s : session) : Prop :=
  frame = frame_of (e_kind E) (wire_reply (the_reply E h ans)) /\
  exists ikm, responder_material (e_prims E) ans m h ikm /\
    session_for s (rq_spec m) now (sc_max_nonce (rq_constraints m)) (sc_max_session_duration (rq_constraints m))
      (firstn 32 (okm (e_prims E) bytes (wire_reply (the_reply E h ans)) ikm)) (skipn 32 (okm (e_prims E) bytes (wire_reply (the_reply E h ans)) ikm)).

(** ** A handshake between two endpoints *)

(** The two sides are configured for each other: same secret; the same quantum key under the
    identifier; certificates that lead to each other's static keys. *)
Inductive configured (P : prims) (ia : ianswers) (ans : answers) : initiator_handshake -> responder_handshake -> Prop :=
| conf_secret suite key : configured P ia ans (ISharedSecret suite key) (RSharedSecret key)
| conf_qkd suite id key : ia_key ia = Some (id, key) -> (id < 2 ^ 64)%N -> ans_lookup ans id = Some key -> configured P ia ans (IQkd suite) RQkd
| conf_public suite si ci sr cr : cert_mode ci = cert_mode cr ->
    takes_key P cr (cert_data ci) (p_dh_public P si) -> takes_key P ci (cert_data cr) (p_dh_public P sr) ->
    configured P ia ans (IPublicKey suite si ci) (RPublicKey sr cr).

(** The Diffie-Hellman function fails on none of the pairs of the two key pairs of each side. *)
Definition dh_defined (P : prims) (a b : list N) : Prop := exists s, p_dh P a (p_dh_public P b) = Some s.
Definition dh_works (P : prims) (hi : initiator_handshake) (hr : responder_handshake) (ei er : list N) : Prop :=
  match hi, hr with
  | IPublicKey _ si _, RPublicKey sr _ =>
      dh_defined P ei er /\ dh_defined P er ei /\ dh_defined P er si /\ dh_defined P si er /\ dh_defined P sr ei /\ dh_defined P ei sr
  | _, _ => True
  end.

(** No two different elements of the list collide. *)
Definition no_collision {X Y} (f : X -> Y) (l : list X) : Prop := forall a b, In a l -> In b l -> f a = f b -> a = b.

(** One handshake, message by message, over a network that delivers both messages unmodified: the
    initiator makes the request at [t0], the responder answers at [t1], the initiator processes the
    reply at [t2]. *)
Inductive exchange (Ei Er : senv) (Si Sr : supports) (hi : initiator_handshake) (hr : responder_handshake) (l : limits)
  (ia : ianswers) (ans : answers) (t0 t1 t2 : Z) (request reply : list N) (si sr : session) : Prop :=
| an_exchange i0 i1 i2 ephemeral data request_frame pending reply_msg session0 :
    initialize_new_handshake (e_prims Ei) hi ia i0 = (Some (ephemeral, data), i1) ->
    frame_write2 Ei (request_write (make_request hi l ephemeral data)) = Some (request_frame, request) ->
    respond_bytes Er Sr hr ans request t1 pending = Ok (Some (frame_of (e_kind Er) reply), sr) ->
    reply_read reply = inl reply_msg ->
    initialize_session (e_prims Ei) Si hi (finalize_request_tx (e_prims Ei) request t0 i1) reply_msg reply l t2 session0 = Ok (true, i2, si) ->
    exchange Ei Er Si Sr hi hr l ia ans t0 t1 t2 request reply si sr.

(** The sessions of the two sides fit together. *)
Record matching (si sr : session) : Prop := {
  ma_valid : s_valid si = true /\ s_valid sr = true;
  ma_keys : k_tx (s_keys si) = k_rx (s_keys sr) /\ k_rx (s_keys si) = k_tx (s_keys sr);
  ma_length : length (k_tx (s_keys si)) = 32 /\ length (k_rx (s_keys si)) = 32;
  ma_modes : s_nonce_mode si = s_nonce_mode sr /\ s_crypto_mode si = s_crypto_mode sr;
  ma_limits : p_max_nonce (s_param si) = p_max_nonce (s_param sr) /\ p_max_time (s_param si) = p_max_time (s_param sr);
  ma_nonces : s_rx_nonce si = 0%N /\ s_tx_nonce si = 0%N /\ s_rx_nonce sr = 0%N /\ s_tx_nonce sr = 0%N
}.

(** What the configuration of an initiator consists of. *)
Definition limits_ok (l : limits) : Prop := (l_max_nonce l < 2 ^ 16)%N /\ (l_max_time_ms l < 2 ^ 32)%N.
Definition initiator_ok (h : initiator_handshake) : Prop := match h with IPublicKey s _ c => presents_ok c | _ => True end.
Definition ianswers_ok (a : ianswers) : Prop := length (ia_random a) = 32 /\ bytes_ok (ia_random a).

(** The inputs of the hash and of the MAC while one side derives its keys. *)
Definition hash_inputs (P : prims) (request reply : list N) : list (list N) := [request; p_sha256 P request ++ reply].
Definition mac_inputs (P : prims) (request reply ikm : list N) : list (list N * list N) :=
  let salt := transcript_hash P request reply in [(salt, ikm); (p_hmac P salt ikm, [1%N])].

(** Every public key a certificate handler can come to use has at least 32 bytes: the preshared key
    resp. the keys of the anchor and of all certificates it issued, directly or indirectly. *)
Definition long_keys (P : prims) (c : cert_handler) : Prop :=
  match c with
  | Preshared key => 32 <= length key
  | Industrial anchor _ => forall chain b, issue_path P anchor chain b -> 32 <= length (cb_public_key b)
  end.
