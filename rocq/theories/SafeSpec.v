(** * SafeSpec: the messages that can lead an endpoint out of the bounds of its buffers *)
From Verif Require Import Base Codec CodecSpec Link LinkLayer Primitives Session Handshake HandshakeSpec Endpoint EndpointSpec.

(** A session message with a whole tag, whose user data fits into the receive buffer *)
Definition whole_data (C : econf) (raw : list N) : Prop :=
  forall m, session_data_read raw = inl m -> 16 <= length (sd_auth_tag m) /\ length (sd_user_data m) <= c_payload_size C.
(** A reply with a whole ephemeral key; only an initiator with public keys looks at it *)
Definition whole_reply (C : econf) (raw : list N) : Prop :=
  forall c suite st h m, c_role C = Initiator c -> ic_handshake c = IPublicKey suite st h -> reply_read raw = inl m -> 32 <= length (rp_mode_ephemeral m).
(** A request to a responder that does not ask for AES-GCM *)
Definition asks_hmac (C : econf) (raw : list N) : Prop := forall h, c_role C = Responder h -> forall m, request_read raw = inl m -> sp_crypto_mode (rq_spec m) = hmac_sha256_16.

(** The opposites *)
Definition bad_data (C : econf) (raw : list N) : Prop :=
  exists m, session_data_read raw = inl m /\ (length (sd_auth_tag m) < 16 \/ c_payload_size C < length (sd_user_data m)).
Definition short_reply (C : econf) (raw : list N) : Prop :=
  exists c suite st h m, c_role C = Initiator c /\ ic_handshake c = IPublicKey suite st h /\ reply_read raw = inl m /\ length (rp_mode_ephemeral m) < 32.
Definition asks_gcm (C : econf) (raw : list N) : Prop := exists h m, c_role C = Responder h /\ request_read raw = inl m /\ sp_crypto_mode (rq_spec m) = aes_256_gcm.
(** Messages that can lead an endpoint out of bounds; for one that is not configured to use AES-GCM ([hmac])
    session messages are harmless, but a request can ask it to use AES-GCM *)
Definition harmful (C : econf) (hmac : bool) (raw : list N) : Prop := short_reply C raw \/ (if hmac then asks_gcm C raw else bad_data C raw).

(** A condition on all messages that arrive *)
Definition receives (Q : list N -> Prop) (k : config) (l : label) : Prop := match l with Run inp => Q (in_message inp) | Ext _ => True end.

(** The configured keys have their lengths: with certificates, those of the anchor and of all
    certificates issued under it *)
Definition keys_whole (C : econf) : Prop :=
  match c_role C with
  | Initiator c => forall suite st h, ic_handshake c = IPublicKey suite st h -> long_keys (e_prims (c_env C)) h
  | Responder r => forall st h, r = RPublicKey st h -> long_keys (e_prims (c_env C)) h
  end.
(** The initiator is configured without AES-GCM *)
Definition hmac_configured (C : econf) : Prop :=
  match c_role C with Initiator c => sp_crypto_mode (get_crypto_spec (ic_handshake c)) = hmac_sha256_16 | Responder _ => True end.

(** ** Two attacks by somebody who knows no key *)

(** An environment that does nothing unusual: the message [m] is there to be read *)
Definition plain_input (ans : answers) (ia : ianswers) (now : Z) (ready : bool) (m : list N) : input :=
  {| in_now := now; in_now2 := now; in_ready := ready; in_message := m; in_started := true; in_calls := [];
     in_answers := ans; in_ianswers := ia; in_scratch := [] |}.
(** A request for a session with AES-GCM and a session message with an empty tag *)
Definition gcm_request : list N :=
  wire_request {| rq_version := version_get;
    rq_spec := {| sp_ephemeral := he_nonce; sp_hash := hash_sha256; sp_kdf := kdf_hkdf_sha256; sp_nonce_mode := greater_than_last_rx; sp_crypto_mode := aes_256_gcm |};
    rq_constraints := {| sc_max_nonce := 1000; sc_max_session_duration := 1000 |}; rq_mode := hm_shared_secret; rq_mode_ephemeral := repeat 0%N 32; rq_mode_data := [] |}.
Definition untagged : list N := [3; 0; 0; 0; 0; 0; 9; 0; 0]%N.
Definition attack_responder (ans : answers) (ia : ianswers) (now : Z) : list label :=
  let go ready m := Run (plain_input ans ia now ready m) in
  [Ext (Enter LowerOpen); go true []; Ext (Enter LowerRxReady); go true []; go true gcm_request; go false []; go false [];
   Ext (Enter LowerTxReady); go true []; go true []; go true untagged; go true []].
(** A reply without an ephemeral key *)
Definition keyless_reply : list N := [1; 0; 0; 0; 1; 0; 0]%N.
Definition attack_initiator (ans : answers) (ia : ianswers) (now : Z) : list label :=
  let go ready m := Run (plain_input ans ia now ready m) in
  [Ext (Enter LowerOpen); go true []; go true []; Ext (Enter LowerTxReady); go true []; go true []; go true keyless_reply; go true []].
