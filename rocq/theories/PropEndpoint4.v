(** * C35 at the endpoint: which message gets which answer *)
From Verif Require Import Base BaseFacts Codec CodecSpec CodecFacts Link LinkLayer Primitives Session SessionSpec SessionFacts SessionMain
  Handshake HandshakeSpec HandshakeFacts Endpoint EndpointSpec EndpointFacts EndpointMain EndpointRuns PropEndpoint.

(** The frames transmitted, whatever they are *)
Definition transmitted (e : list event) : list (list N) := flat_map (fun x => match x with EvTx _ f => [f] | _ => [] end) e.
(** Messages by which a handshake is answered *)
Definition answering (x : event) : bool := match x with EvTx TxReply _ | EvTx TxError _ => true | _ => false end.
Definition opt_list {A} (o : option A) : list A := match o with Some a => [a] | None => [] end.

(** A responder answers a message with the function code of a handshake request with what C35_decision says, and with nothing
    else; only its pending session changes. *)
Theorem C35_endpoint_request : forall C h s m inp s' pushed e, c_role C = Responder h -> hd_error m = Some 0%N ->
  exec C s (IProcess m) inp = Ok (s', pushed, e) ->
  exists out, respond_bytes (c_env C) (c_supports C) h (in_answers inp) m (in_now inp) (ep_pending s) = Ok (out, ep_pending s') /\
  transmitted e = opt_list out /\ pushed = [] /\ ep_active s' = ep_active s /\ ep_up s' = ep_up s /\ ep_payload s' = ep_payload s.
Proof.
  intros C h s m inp s' pushed e HC Hm. destruct m as [|b m]; [discriminate|]. cbn in Hm. injection Hm as ->. cbn [exec].
  unfold process_message. rewrite HC. cbn [function_from]. unfold respond_bytes.
  assert (forall s err s' pushed e, reply_error C s err inp = Ok (s', pushed, e) -> ep_pending s' = ep_pending s /\
    transmitted e = opt_list (error_frame (c_env C) err) /\ pushed = [] /\ ep_active s' = ep_active s /\ ep_up s' = ep_up s /\ ep_payload s' = ep_payload s) as RE.
  { clear. intros s err s' pushed e. unfold reply_error. destruct (error_frame (c_env C) err) as [f|]; intros H; injection H as <- <- <-; auto 10. }
  destruct (request_read (0%N :: m)) as [msg|err].
  - unfold on_request, respond. destruct (negb _).
    + intros H. apply RE in H. destruct H as [-> H]. eexists. split; [reflexivity|exact H].
    + destruct (process _ _ _ _ _ _ _ _) as [[r p']| |]; cbn [obind]; try discriminate. destruct r as [frame|err].
      * intros H. injection H as <- <- <-. exists (Some frame). split; [reflexivity|]. auto 10.
      * intros H. apply RE in H. destruct H as [-> [H1 [H2 [H3 [H4 H5]]]]]. exists (error_frame (c_env C) err). split; [reflexivity|]. auto 10.
  - intros H. apply RE in H. destruct H as [-> H]. eexists. split; [reflexivity|exact H].
Qed.
Print Assumptions C35_endpoint_request.

(** It answers a session authentication message for which there was no handshake with the error "no prior handshake begin", and
    nothing else happens. *)
Theorem C35_endpoint_no_handshake : forall C h s m msg inp s' pushed e, c_role C = Responder h -> (e_max_payload (c_env C) < 65536)%N ->
  session_data_read m = inl msg -> am_nonce (sd_metadata msg) = 0%N -> s_valid (ep_pending s) = false ->
  exec C s (IProcess m) inp = Ok (s', pushed, e) ->
  (exists out, error_reply (c_env C) he_no_prior_handshake_begin out /\ transmitted e = opt_list out) /\
  filter (fun x => negb (answering x)) e = [] /\ pushed = [] /\ (s' = s \/ s' = started s inp).
Proof.
  intros C h s m msg inp s' pushed e HC Hm Hr Hn Hv. destruct m as [|b m]; [discriminate|].
  assert (function_from b = Some session_data) as Fb.
  { clear - Hr. destruct b as [|[[p|[p|p|]|]|[p|p|]|]]; try reflexivity; try (vm_compute in Hr; discriminate Hr).
    all: unfold session_data_read, read_message, enum_read, read_uint in Hr; cbn in Hr; try discriminate Hr. }
  cbn [exec]. unfold process_message. rewrite HC, Fb, Hr, Hn. cbn [N.eqb]. unfold on_auth_session. rewrite Hv. cbn [negb].
  pose proof (error_frame_spec (c_env C) he_no_prior_handshake_begin Hm) as S. unfold reply_error.
  destruct (error_frame (c_env C) he_no_prior_handshake_begin) as [f|]; intros H; injection H as <- <- <-.
  - split; [exists (Some f); split; [exact S|reflexivity]|]. auto.
  - split; [exists None; split; [exact S|reflexivity]|]. auto.
Qed.
Print Assumptions C35_endpoint_no_handshake.

(** Every other message is not answered by a handshake message; one that is neither a request nor session data, or is malformed, has no
    effect at all. *)
Theorem C35_endpoint_silent : forall C h s m inp s' pushed e, c_role C = Responder h -> hd_error m <> Some 0%N ->
  (forall msg, session_data_read m = inl msg -> am_nonce (sd_metadata msg) = 0%N -> s_valid (ep_pending s) = true) ->
  exec C s (IProcess m) inp = Ok (s', pushed, e) ->
  existsb answering e = false /\ ((forall msg, session_data_read m <> inl msg) -> s' = s /\ pushed = [] /\ e = []).
Proof.
  intros C h s m inp s' pushed e HC Hm Hv. cbn [exec]. unfold process_message. destruct m as [|b m].
  { intros H. injection H as <- <- <-. auto. }
  rewrite HC. destruct (function_from b) as [fn|] eqn:F; [|intros H; injection H as <- <- <-; auto].
  destruct fn; try (intros H; injection H as <- <- <-; auto; fail).
  { destruct b as [|[p|p|]]; try discriminate; [destruct (Hm eq_refl)| |]; try (destruct p; discriminate). }
  destruct (session_data_read (b :: m)) as [msg|err] eqn:R; [|intros H; injection H as <- <- <-; auto].
  intros H. split; [|intros X; destruct (X _ eq_refl)]. destruct (N.eqb_spec (am_nonce (sd_metadata msg)) 0) as [Q|Q].
  - unfold on_auth_session in H. rewrite (Hv _ eq_refl Q) in H. cbn [negb] in H.
    destruct (validate_session_auth _ _ _ _ _) as [[[r p'] sc]| |]; cbn [obind] in H; try discriminate.
    destruct r as [payload|err]; [|injection H as <- <- <-; reflexivity].
    match type of H with context [transmit_session_auth C ?s2 ?a inp] => destruct (transmit_session_auth C s2 a inp) as [[[[sent act] s3] ev]| |] eqn:T end; cbn [obind] in H; try discriminate.
    assert (existsb answering ev = false) as E.
    { unfold transmit_session_auth in T. destruct (format_session_auth _ _ _ _) as [[[q rest] sess]| |]; cbn [obind] in T; try discriminate.
      destruct q; injection T; intros; subst; reflexivity. }
    destruct (negb sent); injection H as <- <- <-; cbn; rewrite ?existsb_app, ?E; reflexivity.
  - unfold on_session_data in H. destruct (validate_session_data _ _ _ _ _) as [[[r p'] sc]| |]; cbn [obind] in H; try discriminate.
    destruct r as [payload|err]; injection H as <- <- <-; [reflexivity|]. destruct (is_empty_error err); reflexivity.
Qed.
Print Assumptions C35_endpoint_silent.

(** A request with a bad version, an authentication message without a handshake, and unknown messages, to a responder just opened *)
Example C35_endpoint_instance : forallb (fun c =>
  let k := config_of (drive (dr_r false) (fresh (dr_r false)) [happen (Enter LowerOpen) 1]) in
  let e m := events_of (drive (dr_r false) k [arrive m 2]) in
  (length (transmitted (e (dr_request c))) =? 1) && (length (transmitted (e (dr_message (dr_session_i c) 0 []))) =? 1) &&
  (length (transmitted (e [0%N])) =? 1) && (length (transmitted (e [9%N; 1%N])) =? 0) && (length (transmitted (e (dr_message (dr_session_i c) 1 [5%N]))) =? 0))
  [hmac_sha256_16; aes_256_gcm] = true.
Proof. vm_compute. reflexivity. Qed.
