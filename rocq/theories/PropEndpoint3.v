(** * C27: the initiator goes on, and its timers belong to its state *)
From Verif Require Import Base BaseFacts Codec CodecSpec CodecFacts Link LinkLayer Primitives Session SessionSpec SessionFacts SessionMain
  Handshake HandshakeFacts Endpoint EndpointSpec EndpointFacts EndpointMain EndpointRx EndpointTx EndpointTimer EndpointRuns PropEndpoint PropEndpoint2.

(** In a well-behaved environment, whenever no call is in progress: an initiator whose connection is
    open has a timer running for its state, or waits for the end of a transmission, or has found its
    configuration bad; at most one response or retry timer is running, and it is the one of its
    state; when the connection is closed none is running.
    Partial: [good] excludes that the application reads in a loop inside the notification of the data
    that came with the handshake (C27_timer_refuted). *)
Theorem C27_alive_partial : forall C c ls k t, c_role C = Initiator c -> along good C (new_endpoint C, []) ls ->
  run C (new_endpoint C, []) ls = Ok (k, t) -> quiescent k ->
  one_timer (fst k) /\ (ep_open (fst k) = true -> alive (fst k)) /\ (ep_open (fst k) = false -> ep_timer (fst k) = None /\ ep_session_timer (fst k) = false).
Proof. intros C c ls k t HC HQ H Hk. eapply hinv_quiescent; [|exact Hk]. eapply hinv_run; eauto. Qed.
Print Assumptions C27_alive_partial.

(** What the timers do.  If no answer comes, the response timer leads to the retry state with its
    timer running. *)
Theorem C27_response_timeout_partial : forall C c ls k t, c_role C = Initiator c -> along good C (new_endpoint C, []) ls ->
  run C (new_endpoint C, []) ls = Ok (k, t) -> quiescent k -> ep_state (fst k) = WaitForBeginReply \/ ep_state (fst k) = WaitForAuthReply ->
  exists s, step C k (Ext FireTimer) = Ok ((s, []), []) /\ ep_state s = WaitForRetry /\ ep_timer s = Some TRetry.
Proof.
  intros C c ls k t HC HQ H Hk Hs. pose proof (hinv_run _ _ _ _ _ HC HQ H) as I. destruct k as [s stk]. unfold quiescent in Hk. cbn [fst snd] in *. subst stk.
  destruct (h_state _ I) as [((a & b & X & _) & _)|[_ (W1 & _)]]; [destruct a; discriminate|]. cbn [fst] in W1. unfold timer_of in W1.
  assert (T : ep_timer s = Some TResponse) by (destruct Hs as [E|E]; rewrite E in W1; exact W1).
  exists (on_response_timeout (set_timer s None)). cbn. rewrite T. cbn. split; [reflexivity|]. unfold on_response_timeout. cbn.
  destruct Hs as [E|E]; rewrite E; split; reflexivity.
Qed.
Print Assumptions C27_response_timeout_partial.

(** The retry timer leads to a new attempt: if the lower layer is ready, a new request is sent and
    the response timer started, or the retry timer is started again (no key available), or the request
    cannot be formatted at all; if it is not ready, the attempt is remembered and made when it is. *)
Theorem C27_retry_partial : forall C c ls k t, c_role C = Initiator c -> along good C (new_endpoint C, []) ls ->
  run C (new_endpoint C, []) ls = Ok (k, t) -> quiescent k -> ep_state (fst k) = WaitForRetry ->
  (forall inp, good (set_state (set_timer (fst k) None) Idle, [IHandshakeRequired]) (Run inp) ->
   exists s e, run C k [Ext FireTimer; Run inp] = Ok ((s, []), e) /\
     ((ep_busy (fst k) = false /\ ep_state s = WaitForBeginReply /\ ep_timer s = Some TResponse /\ (exists f, e = [EvQuery true; EvTx TxRequest f])) \/
      (ep_busy (fst k) = false /\ ep_state s = WaitForRetry /\ ep_timer s = Some TRetry) \/
      (ep_busy (fst k) = false /\ ep_state s = BadConfiguration) \/
      (ep_busy (fst k) = true /\ ep_state s = Idle /\ ep_required s = true /\ ep_busy s = true))).
Proof.
  intros C c ls k t HC HQ H Hk Hs inp [_ (L1 & L2 & _)]. pose proof (hinv_run _ _ _ _ _ HC HQ H) as I. destruct k as [s stk]. unfold quiescent in Hk. cbn [fst snd] in *. subst stk.
  destruct (h_state _ I) as [((a & b & X & _) & _)|[_ (W1 & _)]]; [destruct a; discriminate|]. cbn [fst] in W1. unfold timer_of in W1. rewrite Hs in W1.
  unfold run, step. cbn [snd fst inject obind]. rewrite W1. cbn [fire fst snd]. unfold on_retry_timeout. cbn [set_timer ep_state]. rewrite Hs.
  change (ep_busy (set_state (set_timer s None) Idle)) with (ep_busy s) in *.
  unfold exec. rewrite HC. unfold on_handshake_required. cbn [set_state ep_state]. 
  destruct (in_ready inp) eqn:Er; cbn [negb].
  - assert (B : ep_busy s = false) by (destruct (ep_busy s); [discriminate|reflexivity]). specialize (L2 B).
    destruct (initialize_new_handshake _ _ _ _) as [[[a d]|] i]; cbn [obind app].
    + destruct (frame_write2 _ _) as [[f w]|] eqn:F; cbn [obind app].
      * do 2 eexists. split; [reflexivity|]. left. rewrite B. cbn. repeat split; eauto.
      * do 2 eexists. split; [reflexivity|]. right; right; left. rewrite B. auto.
    + do 2 eexists. split; [reflexivity|]. right; left. rewrite B. cbn. auto.
  - assert (B : ep_busy s = true) by (destruct (ep_busy s); [reflexivity|discriminate]).
    do 2 eexists. split; [reflexivity|]. right; right; right. rewrite B. unfold asked. cbn. rewrite Er. cbn. auto.
Qed.
Print Assumptions C27_retry_partial.

(** The states reached by a run without answers, and by a complete handshake *)
Definition is_state (h : hstate) (s : endpoint) : bool :=
  match h, ep_state s with
  | Idle, Idle | WaitForBeginReply, WaitForBeginReply | WaitForAuthReply, WaitForAuthReply | WaitForRetry, WaitForRetry
  | BadConfiguration, BadConfiguration => true
  | _, _ => false
  end.
Definition ex_waiting : list happening := [happen (Enter LowerOpen) 1; happen (Enter LowerTxReady) 1].
Example C27_instance :
  ex_check (dr_i hmac_sha256_16 900 false) ex_waiting (fun k t => quiescentb k && ep_open (fst k) && is_state WaitForBeginReply (fst k)) = true /\
  ex_check (dr_i hmac_sha256_16 900 false) (ex_waiting ++ [happen FireTimer 9]) (fun k t => quiescentb k && ep_open (fst k) && is_state WaitForRetry (fst k)) = true /\
  ex_check (dr_i hmac_sha256_16 900 false) (ex_waiting ++ [happen FireTimer 9; happen FireTimer 20]) (fun k t => quiescentb k && is_state WaitForBeginReply (fst k) && (length (filter is_tx t) =? 2)) = true /\
  ex_check (dr_i hmac_sha256_16 900 false) (ex_initiator hmac_sha256_16) (fun k t => quiescentb k && is_state Idle (fst k) && ep_session_timer (fst k)) = true /\
  ex_check (dr_i hmac_sha256_16 900 false) (ex_initiator hmac_sha256_16 ++ [happen (Enter LowerClose) 9]) (fun k t => quiescentb k && negb (ep_open (fst k))) = true.
Proof. vm_compute. auto. Qed.

(** An application that reads until nothing is left, as its notification "data available" invites it
    to, over a lower layer that keeps its promises: the answer of the responder carries data and is
    followed by an (unauthenticated) error message.  The initiator then is in the idle state with an
    established session and the retry timer running; when it expires, a needless new handshake is
    started. *)
Definition ex_error : list N := match error_frame dr_env he_no_prior_handshake_begin with Some f => f | None => [] end.
Definition ex_loop : list happening :=
  [happen (Enter LowerOpen) 1; happen (Enter LowerTxReady) 1; arrive (dr_reply hmac_sha256_16) 3; happen (Enter LowerTxReady) 3;
   {| h_event := Enter LowerRxReady; h_time := 5; h_queue := [dr_message (dr_session_r hmac_sha256_16) 0 [9; 9]%N; ex_error];
      h_script := fun i => match i with IUpRxReady => [StartRx; StartRx] | _ => [] end |}].
Definition loops (k : config) (l : label) : Prop := reader_ok k l /\ lower_ok k l.
Definition is_request (e : event) : bool := match e with EvTx TxRequest _ => true | _ => false end.
Theorem C27_timer_refuted : exists C c ls k t, c_role C = Initiator c /\ along loops C (new_endpoint C, []) ls /\
  run C (new_endpoint C, []) ls = Ok (k, t) /\ quiescent k /\ ep_open (fst k) = true /\
  ep_state (fst k) = Idle /\ ep_session_timer (fst k) = true /\ s_valid (ep_active (fst k)) = true /\ ep_timer (fst k) = Some TRetry /\ ~ one_timer (fst k) /\
  exists inp k' t', lower_ok (fst k, [IHandshakeRequired]) (Run inp) /\ run C k [Ext FireTimer; Run inp] = Ok (k', t') /\ existsb is_request t' = true.
Proof.
  set (C := dr_i hmac_sha256_16 900 false). set (ls := ex_run C (ex_loop ++ [happen (Enter LowerTxReady) 6])).
  set (inp := fun k : config => input_for no_calls 7 (fst k) IHandshakeRequired []).
  destruct (run_check C ls (fun k t => quiescentb k && ep_open (fst k) && is_state Idle (fst k) && ep_session_timer (fst k) && s_valid (ep_active (fst k)) &&
     match ep_timer (fst k) with Some TRetry => true | _ => false end && lower_okb (fst k, [IHandshakeRequired]) (Run (inp k)) &&
     match run C k [Ext FireTimer; Run (inp k)] with Ok (k', t') => existsb is_request t' | _ => false end)) as (k & t & R & Hs); [vm_compute; reflexivity|].
  assert (A : along loops C (new_endpoint C, []) ls).
  { apply (alongb_ok (fun k l => calm_openb k l && lower_okb k l)); [|vm_compute; reflexivity].
    intros k0 l0. rewrite Bool.andb_true_iff. intros [H1 H2]. apply lower_okb_ok in H2. split; [split; [apply calm_openb_ok; exact H1|apply lower_quiet; exact H2]|exact H2]. }
  clearbody ls.
  repeat match goal with H : _ && _ = true |- _ => apply Bool.andb_true_iff in H; destruct H end.
  exists C, {| ic_handshake := ISharedSecret (dr_suite hmac_sha256_16) (repeat 7%N 32); ic_limits := dr_limits; ic_nonce_trigger := 900 |}, ls, k, t.
  assert (E1 : ep_state (fst k) = Idle) by (match goal with H : is_state Idle _ = true |- _ => unfold is_state in H; destruct (ep_state (fst k)); first [reflexivity|discriminate] end).
  assert (E2 : ep_timer (fst k) = Some TRetry) by (destruct (ep_timer (fst k)) as [[|]|]; first [reflexivity|discriminate]).
  split; [reflexivity|]. split; [exact A|]. split; [exact R|]. split; [apply quiescentb_ok; assumption|]. split; [assumption|]. split; [exact E1|].
  split; [assumption|]. split; [assumption|]. split; [exact E2|]. split.
  - intros (_ & _ & X). rewrite E2, E1 in X. discriminate.
  - destruct (run C k [Ext FireTimer; Run (inp k)]) as [[k' t']| |] eqn:E; try discriminate.
    exists (inp k), k', t'. split; [apply lower_okb_ok; assumption|]. auto.
Qed.
Print Assumptions C27_timer_refuted.
