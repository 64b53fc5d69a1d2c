(** * C53: what was lost is made up for over the same connection *)
From Verif Require Import Base BaseFacts Codec CodecSpec CodecFacts Link LinkLayer Primitives Session SessionSpec SessionFacts SessionMain
  Handshake HandshakeSpec HandshakeFacts HandshakeMain HandshakePair PropHandshake Endpoint EndpointSpec EndpointFacts EndpointMain EndpointRx EndpointRuns
  PropEndpoint PairSpec Line LineSpec LineFacts LineLive LineRuns PropLine RecoverSpec RecoverFacts PropRecover Renew Resume RenewSpec RenewFacts.

(** Both sides have agreed on a new session and all is well: nothing is left to do, both applications
    know that the layer is open, the session in use was begun since the timers expired, and the
    initiator is ready to renew it *)
Definition well (L : net) (x : line) : Prop :=
  all_delivered x /\ session_since L x /\ ep_session_timer (fst (d_conf (l_a x))) = true /\ ep_state (fst (d_conf (l_a x))) = Idle.

(** Two endpoints configured for each other with an open connection, whatever happened to either of
    them before: any messages may have been lost, changed, forged, repeated or too late, handshakes
    may have failed or be half done, either side may or may not have a session, and not the same.
    Nothing is under way any more.  Then a timer of the initiator is running; when its timers expire
    and the line works from then on, a new session is agreed on, whatever the interleaving of the
    steps, unless they take so long that a message gets too old. *)
Theorem C53_recovers : forall L c h sa sb deadline, compatible L c h ->
  after_history (n_ca L) sa -> after_history (n_cb L) sb -> undisturbed sa -> undisturbed sb -> ep_state sa <> BadConfiguration ->
  2 <= n_limit L -> (deadline <= n_end L)%Z -> (deadline <= n_delay L)%Z ->
  due sa /\ inevitable L (fun y => (deadline < l_now y)%Z \/ well L y) (resumed sa sb).
Proof.
  intros L c h sa sb deadline OK HA HB UA UB S LM T1 T2. pose proof (history_due _ _ _ (proj1 (co_roles _ _ _ OK)) HA UA S) as D. split; [exact D|].
  pose proof (era_resumed c h L sa sb OK UA UB D) as E.
  eapply (era_strengthen c h L); [|apply (era_inevitable c h L true (resumed sa sb) deadline (era_invariant _ _ _ _ _ E))|exact E].
  - intros y Ey [X|X]; [left; exact X|right]. pose proof X as (R1 & R2 & _). destruct (era_rest c h L true y (era_invariant _ _ _ _ _ Ey) R1 R2) as (_ & _ & _ & _ & _ & X5 & X6 & X7 & _). split; auto.
  - exact LM.
  - unfold in_time, resumed. cbn [l_now l_a l_b]. split; [exact T1|]. split; [exact T2|]. unfold unprocessed, resume_side. cbn [d_out d_taken]. rewrite !skipn_nil. split; constructor.
Qed.
Print Assumptions C53_recovers.

(** From then on everything is as it was after the first handshake: the applications may offer data, which
    is delivered, and the session may be renewed (C52 holds for connections that begin this way). *)
Theorem C53_afterwards : forall c h L sa sb L' renewing x, compatible L c h -> undisturbed sa -> undisturbed sb -> due sa ->
  since (resumed sa sb) c h L L' renewing x ->
  ((exists r, got (l_b x) ++ r = given (l_a x)) /\ (exists r, got (l_a x) ++ r = given (l_b x))) /\
  (at_rest (l_a x) -> at_rest (l_b x) -> given (l_a x) = got (l_b x) /\ given (l_b x) = got (l_a x) /\ told_open (l_a x) /\ told_open (l_b x) /\ session_since L' x).
Proof.
  intros c h L sa sb L' b x OK UA UB D S.
  assert (E : era c h L' b x) by (induction S; [apply era_resumed; assumption|eapply era_step; eauto|eapply era_expired; eauto|eapply era_quiet; eauto|eapply era_renewed; eauto]).
  pose proof (era_invariant _ _ _ _ _ E) as EI. split; [exact (era_prefix _ _ _ _ _ EI)|]. intros R1 R2. destruct (era_rest c h L' b x EI R1 R2) as (_ & X1 & X2 & X3 & X4 & X5 & _). auto.
Qed.
Print Assumptions C53_afterwards.

(** If neither side has a session any more, the applications may even offer data and read at any time:
    everything is as over a new connection (C48). *)
Theorem C53_without_session : forall L c h sa sb x, compatible L c h ->
  after_history (n_ca L) sa -> after_history (n_cb L) sb -> undisturbed sa -> undisturbed sb -> ep_state sa <> BadConfiguration ->
  without_session sa -> without_session sb -> reachable_from L (resumed sa sb) x ->
  ((exists r, got (l_b x) ++ r = given (l_a x)) /\ (exists r, got (l_a x) ++ r = given (l_b x))) /\
  (at_rest (l_a x) -> at_rest (l_b x) -> all_delivered x) /\
  (forall deadline, room L (l_a x) -> room L (l_b x) -> in_time L deadline x -> inevitable L (fun y => (deadline < l_now y)%Z \/ all_delivered y) x).
Proof.
  intros L c h sa sb x OK HA HB UA UB S WA WB R. pose proof (history_due _ _ _ (proj1 (co_roles _ _ _ OK)) HA UA S) as D.
  pose proof (resumed_reachable L c h sa sb x OK UA UB D WA WB R) as I.
  split; [exact (line_prefix L c h x I)|]. split; [|intros deadline; exact (line_inevitable L c h OK deadline x I)].
  intros RA RB. destruct (line_delivered L c h x I RA RB) as ((X1 & X2) & X3 & X4). unfold all_delivered. auto 10.
Qed.
Print Assumptions C53_without_session.

(** ** The hypotheses hold *)
Definition undisturbedb (s : endpoint) : bool :=
  ep_open s && negb (ep_busy s) && match ep_payload s with None => true | _ => false end && negb (ep_proc s) && is_empty (ep_remainder s) && negb (ep_transmitting s) && negb (ep_required s).
Lemma undisturbedb_ok s : undisturbedb s = true -> undisturbed s.
Proof.
  unfold undisturbedb, undisturbed. intros H. repeat (apply andb_prop in H as [H ?]). repeat split; try (apply Bool.negb_true_iff; assumption); [exact H|destruct (ep_payload s); congruence|destruct (ep_remainder s); [reflexivity|discriminate]].
Qed.
Definition history_check (C : econf) (hs : list happening) (f : endpoint -> bool) : bool :=
  alongb (fun k l => calmb k l && lower_okb k l) C (new_endpoint C, []) (ex_run C hs) &&
  match run C (new_endpoint C, []) (ex_run C hs) with Ok (k, t) => quiescentb k && undisturbedb (fst k) && f (fst k) | _ => false end.
Lemma history_check_ok C hs f : history_check C hs f = true -> after_history C (past_state C hs) /\ undisturbed (past_state C hs) /\ f (past_state C hs) = true.
Proof.
  unfold history_check, past_state. intros H. apply andb_prop in H as [H1 H2]. destruct (run C (new_endpoint C, []) (ex_run C hs)) as [[[s k] t]| |] eqn:E; try discriminate.
  apply andb_prop in H2 as [H2 H4]. apply andb_prop in H2 as [H2 H3]. apply quiescentb_ok in H2. unfold quiescent in H2. cbn [fst snd] in *. subst k.
  split; [|split; [apply undisturbedb_ok, H3|exact H4]]. exists (ex_run C hs), t. split; [|exact E].
  revert H1. apply alongb_ok. intros k l X. apply andb_prop in X as [X Y]. split; [apply calmb_ok, X|apply lower_okb_ok, Y].
Qed.
Definition is_state (st : hstate) (s : endpoint) : bool :=
  match st, ep_state s with Idle, Idle | WaitForBeginReply, WaitForBeginReply | WaitForAuthReply, WaitForAuthReply | WaitForRetry, WaitForRetry => true | _, _ => false end.
Lemma is_state_ok st s : is_state st s = true -> ep_state s = st.
Proof. unfold is_state. destruct st, (ep_state s); congruence. Qed.

(** The request was lost; or the responder's authentication was, so that only the responder has a session *)
Definition lost_request_i : list happening := [happen (Enter LowerOpen) 1; happen (Enter LowerTxReady) 1].
Definition lost_request_r : list happening := [happen (Enter LowerOpen) 1].
Definition lost_answer_i (c : SessionCryptoMode) : list happening :=
  [happen (Enter LowerOpen) 1; happen (Enter LowerTxReady) 1; arrive (dr_reply c) 3; happen (Enter LowerTxReady) 3].
Definition lost_answer_r (c : SessionCryptoMode) : list happening :=
  [happen (Enter LowerOpen) 1; arrive (dr_request c) 2; happen (Enter LowerTxReady) 2; arrive (dr_message (dr_session_i c) 0 []) 4; happen (Enter LowerTxReady) 4].
Definition no_session (s : endpoint) : bool := negb (s_valid (ep_active s)) && negb (ep_up s).
Lemma lost_request_ok c :
  history_check (dr_i c 900 false) lost_request_i (fun s => is_state WaitForBeginReply s && no_session s) = true /\
  history_check (dr_r false) lost_request_r no_session = true.
Proof. destruct c; vm_compute; split; reflexivity. Qed.
Lemma lost_answer_ok c :
  history_check (dr_i c 900 false) (lost_answer_i c) (fun s => is_state WaitForAuthReply s && no_session s) = true /\
  history_check (dr_r false) (lost_answer_r c) (fun s => s_valid (ep_active s) && ep_up s) = true.
Proof. destruct c; vm_compute; split; reflexivity. Qed.

(** In both cases a new session is agreed on. *)
Example C53_recovers_instance : forall c (answer : bool),
  let sa := past_state (dr_i c 900 false) (if answer then lost_answer_i c else lost_request_i) in
  let sb := past_state (dr_r false) (if answer then lost_answer_r c else lost_request_r) in
  ep_state sa = (if answer then WaitForAuthReply else WaitForBeginReply) /\ ep_up sb = answer /\
  inevitable (rx_net false c) (fun y => (4000000000 < l_now y)%Z \/ well (rx_net false c) y) (resumed sa sb).
Proof.
  intros c [] sa sb; unfold sa, sb.
  - destruct (lost_answer_ok c) as [H1 H2]. destruct (history_check_ok _ _ _ H1) as (A1 & A2 & A3). destruct (history_check_ok _ _ _ H2) as (B1 & B2 & B3).
    apply andb_prop in A3 as [A3 _]. apply andb_prop in B3 as [_ B3]. apply is_state_ok in A3. split; [exact A3|]. split; [exact B3|].
    eapply C53_recovers; [apply rx_compatible|exact A1|exact B1|exact A2|exact B2|rewrite A3; discriminate|apply Nat.leb_le; reflexivity|cbn; lia|cbn; lia].
  - destruct (lost_request_ok c) as [H1 H2]. destruct (history_check_ok _ _ _ H1) as (A1 & A2 & A3). destruct (history_check_ok _ _ _ H2) as (B1 & B2 & B3).
    apply andb_prop in A3 as [A3 _]. unfold no_session in B3. apply andb_prop in B3 as [_ B3]. apply Bool.negb_true_iff in B3. apply is_state_ok in A3. split; [exact A3|]. split; [exact B3|].
    eapply C53_recovers; [apply rx_compatible|exact A1|exact B1|exact A2|exact B2|rewrite A3; discriminate|apply Nat.leb_le; reflexivity|cbn; lia|cbn; lia].
Qed.
(** When the request was lost, neither side has a session, and data offered as soon as the layer is open is delivered. *)
Example C53_without_session_instance : forall c,
  let sa := past_state (dr_i c 900 false) lost_request_i in let sb := past_state (dr_r false) lost_request_r in
  after_history (dr_i c 900 false) sa /\ after_history (dr_r false) sb /\ undisturbed sa /\ undisturbed sb /\ without_session sa /\ without_session sb /\
  exists x, reachable_from (rx_net false c) (resumed sa sb) x /\ at_rest (l_a x) /\ at_rest (l_b x) /\ given (l_a x) = [1; 2; 3; 4; 5]%N /\ got (l_a x) = [2; 3]%N.
Proof.
  intros c sa sb. unfold sa, sb. destruct (lost_request_ok c) as [H1 H2]. destruct (history_check_ok _ _ _ H1) as (A1 & A2 & A3). destruct (history_check_ok _ _ _ H2) as (B1 & B2 & B3).
  apply andb_prop in A3 as [_ A3]. apply andb_prop in A3 as [A3 A4]. apply andb_prop in B3 as [B3 B4]. apply Bool.negb_true_iff in A3, A4, B3, B4.
  do 4 (split; [assumption|]). split; [split; assumption|]. split; [split; assumption|].
  exists (rx_run false c (resumed (past_state (dr_i c 900 false) lost_request_i) (past_state (dr_r false) lost_request_r))). split; [apply rx_reachable|].
  assert (X : lx_check (rx_run false c (resumed (past_state (dr_i c 900 false) lost_request_i) (past_state (dr_r false) lost_request_r))) = true) by (destruct c; vm_compute; reflexivity).
  apply lx_check_ok in X. tauto.
Qed.
