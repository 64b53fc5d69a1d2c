(** * RenewFacts: the session is renewed over a reliable line

    While the session is renewed and the applications offer nothing, the two endpoints do what two
    endpoints without a session would do: a state without the old session goes along with theirs. *)
From Verif Require Import Base BaseFacts Codec CodecSpec CodecFacts Link LinkLayer Primitives Session SessionSpec SessionFacts SessionMain
  Handshake HandshakeSpec HandshakeFacts HandshakeMain HandshakePair PropCodec Endpoint EndpointSpec EndpointFacts EndpointMain EndpointRx EndpointTx EndpointTimer EndpointNonce PairSpec
  Line LineSpec LineMsgs LineHandshake LineLocal LineSide LineCost LineFacts LineLive Renew Resume RenewSpec.

Notation core d := (fst (d_conf d)).
Notation stack d := (snd (d_conf d)).

(** ** One step with and without the old session *)
Definition veil (s : endpoint) : endpoint := set_up s false.
Definition hide (s : endpoint) : endpoint := veil (set_active s (reset (ep_active s))).
Definition modest (i : instr) : Prop :=
  match i with IUpOpen | IUpTxReady | IUpRxReady | IUpClose | INonceChange | ICall (StartTx _) | ICall LowerClose | IAuthPayload (Some _) => False | _ => True end.
Definition keep (e : event) : bool := match e with EvQuery _ | EvUpOpen => false | _ => true end.
Definition kept (t : list event) : list event := filter keep t.
Definition not_data (m : list N) : Prop :=
  forall f r msg, m = f :: r -> function_from f = Some session_data -> session_data_read m = inl msg -> am_nonce (sd_metadata msg) = 0%N.

Lemma reset_reset s : reset (reset s) = reset s.
Proof. reflexivity. Qed.
Lemma unveil s : ep_up s = true -> set_up (veil s) true = s.
Proof. destruct s; cbn. intros ->. reflexivity. Qed.
Lemma veil_down s : ep_up s = false -> veil s = s.
Proof. destruct s; cbn. intros ->. reflexivity. Qed.
Lemma set_busy_same s : set_busy s (ep_busy s) = s.
Proof. destruct s; reflexivity. Qed.

Definition same_but (s : endpoint) (r r' : xres) : Prop :=
  match r with
  | Ok (s', p, ev) => exists ev', kept ev = kept ev' /\ ep_up s' = ep_up s /\
      ((r' = Ok (hide s', p, ev') /\ Forall modest p) \/ (r' = Ok (veil s', p, ev') /\ accepted ev' <> [] /\ (p = [] \/ exists q, p = IUpOpen :: q)))
  | UB => r' = UB | NoFuel => r' = NoFuel
  end.
Lemma same_hide s s' p ev : ep_up s' = ep_up s -> Forall modest p -> same_but s (Ok (s', p, ev)) (Ok (hide s', p, ev)).
Proof. intros H F. exists ev. auto. Qed.

Ltac same := apply same_hide; [reflexivity|repeat (constructor; try exact I)].

Lemma hide_transmit C s sess inp : ep_remainder s = [] ->
  match transmit_session_auth C s sess inp with
  | Ok (b, sess', s1, ev) => transmit_session_auth C (hide s) sess inp = Ok (b, sess', hide s1, ev) /\ ep_up s1 = ep_up s /\ (ev = [] \/ exists x f, ev = [EvTx (TxAuth x) f])
  | UB => transmit_session_auth C (hide s) sess inp = UB | NoFuel => transmit_session_auth C (hide s) sess inp = NoFuel end.
Proof.
  intros R. unfold transmit_session_auth. change (ep_remainder (hide s)) with (ep_remainder s). rewrite R. destruct (format_session_auth _ _ _ _) as [[[[f|e] rest] sess']| |]; cbn [obind is_empty]; auto.
  split; [reflexivity|]. split; [reflexivity|]. eauto.
Qed.
Lemma veil_transmit C s sess inp : ep_remainder s = [] ->
  match transmit_session_auth C s sess inp with
  | Ok (b, sess', s1, ev) => transmit_session_auth C (veil s) sess inp = Ok (b, sess', veil s1, ev) /\ ep_up s1 = ep_up s /\ (ev = [] \/ exists x f, ev = [EvTx (TxAuth x) f])
  | UB => transmit_session_auth C (veil s) sess inp = UB | NoFuel => transmit_session_auth C (veil s) sess inp = NoFuel end.
Proof.
  intros R. unfold transmit_session_auth. change (ep_remainder (veil s)) with (ep_remainder s). rewrite R. destruct (format_session_auth _ _ _ _) as [[[[f|e] rest] sess']| |]; cbn [obind is_empty]; auto.
  split; [reflexivity|]. split; [reflexivity|]. eauto.
Qed.

Lemma hide_reply C c s msg bytes inp : ep_remainder s = [] -> same_but s (on_reply_message C c s msg bytes inp) (on_reply_message C c (hide s) msg bytes inp).
Proof.
  intros R. unfold on_reply_message. change (ep_state (hide s)) with (ep_state s). destruct (ep_state s); try same.
  change (ep_ihs (set_timer (hide s) None)) with (ep_ihs (set_timer s None)). change (ep_pending (set_timer (hide s) None)) with (ep_pending (set_timer s None)).
  destruct (initialize_session _ _ _ _ _ _ _ _ _) as [[[ok i] pending']| |]; cbn [obind]; try reflexivity.
  destruct ok; cbn [negb]; [|same].
  pose proof (hide_transmit C (set_pending (set_ihs (set_timer s None) i) pending') pending' inp R) as T.
  change (set_pending (set_ihs (set_timer (hide s) None) i) pending') with (hide (set_pending (set_ihs (set_timer s None) i) pending')).
  destruct (transmit_session_auth C (set_pending _ _) pending' inp) as [[[[b sess'] s1] ev]| |].
  - destruct T as (T & U & _). rewrite T. cbn [obind]. destruct b; cbn [negb]; apply same_hide; try exact U; constructor.
  - rewrite T. reflexivity.
  - rewrite T. reflexivity.
Qed.
Lemma hide_auth_i C s msg inp : same_but s (on_auth_message C s msg inp) (on_auth_message C (hide s) msg inp).
Proof.
  unfold on_auth_message. change (ep_state (hide s)) with (ep_state s). destruct (ep_state s); try same.
  change (ep_pending (set_timer (hide s) None)) with (ep_pending (set_timer s None)).
  destruct (validate_session_auth _ _ _ _ _) as [[[[payload|e] pending'] st]| |]; cbn [obind]; try reflexivity; [|same].
  eexists. split; [reflexivity|]. split; [reflexivity|]. right. split; [reflexivity|]. split; [discriminate|]. right. eauto.
Qed.
Lemma hide_error C s e inp : same_but s (reply_error C s e inp) (reply_error C (hide s) e inp).
Proof. unfold reply_error. destruct (error_frame (c_env C) e); same. Qed.
Lemma hide_request C h s msg bytes inp : same_but s (on_request C h s msg bytes inp) (on_request C h (hide s) msg bytes inp).
Proof.
  unfold on_request. destruct (negb _); [apply hide_error|]. change (ep_pending (hide s)) with (ep_pending s).
  destruct (process _ _ _ _ _ _ _ _) as [[[frame|e] pending']| |]; cbn [obind]; try reflexivity; [same|].
  exact (hide_error C (set_pending s pending') e inp).
Qed.
Lemma hide_auth_r C s msg inp : ep_remainder s = [] -> same_but s (on_auth_session C s msg inp) (on_auth_session C (hide s) msg inp).
Proof.
  intros R. unfold on_auth_session. change (ep_pending (hide s)) with (ep_pending s). destruct (negb _); [apply hide_error|].
  destruct (validate_session_auth _ _ _ _ _) as [[[[payload|e] pending'] st]| |]; cbn [obind]; try reflexivity; [|same].
  change (ep_buffer (hide s)) with (ep_buffer s).
  set (s2 := activate (set_buffer (set_pending s pending') _)).
  change (activate (set_buffer (set_pending (hide s) pending') _)) with (veil s2).
  pose proof (veil_transmit C s2 (ep_active s2) inp R) as T. change (ep_active (veil s2)) with (ep_active s2).
  destruct (transmit_session_auth C s2 (ep_active s2) inp) as [[[[b sess'] s1] ev]| |].
  - destruct T as (T & U & _). rewrite T. cbn [obind]. destruct b; cbn [negb].
    + eexists. split; [reflexivity|]. split; [exact U|]. right. split; [reflexivity|]. split; [discriminate|]. right. eauto.
    + eexists. split; [reflexivity|]. split; [exact U|]. right. split; [reflexivity|]. split; [discriminate|]. left. reflexivity.
  - rewrite T. reflexivity.
  - rewrite T. reflexivity.
Qed.
Lemma hide_process C s m inp : ep_remainder s = [] -> not_data m -> same_but s (process_message C s m inp) (process_message C (hide s) m inp).
Proof.
  intros R ND. unfold process_message. destruct m as [|f r] eqn:Em; [same|]. destruct (c_role C) as [c|h].
  - destruct (function_from f) as [[]|] eqn:Ef; try same.
    + destruct (reply_read (f :: r)); [apply hide_reply, R|same].
    + destruct (error_read (f :: r)); [|same]. unfold on_error_message. change (ep_state (hide s)) with (ep_state s). destruct (ep_state s); same.
    + destruct (session_data_read (f :: r)) as [msg|] eqn:Er; [|same]. rewrite (ND f r msg eq_refl Ef Er). cbn [N.eqb]. apply hide_auth_i.
  - destruct (function_from f) as [[]|] eqn:Ef; try same.
    + destruct (request_read (f :: r)); [apply hide_request|apply hide_error].
    + destruct (session_data_read (f :: r)) as [msg|] eqn:Er; [|same]. rewrite (ND f r msg eq_refl Ef Er). cbn [N.eqb]. apply hide_auth_r, R.
Qed.
Lemma hide_exec C s i inp : ep_remainder s = [] -> ep_transmitting s = false -> in_ready inp = negb (ep_busy s) -> modest i -> (forall m, i = IProcess m -> not_data m) ->
  same_but s (exec C s i inp) (exec C (hide s) i inp).
Proof.
  intros R T B M ND. destruct i as [[]| | | | | | | | | | |[p|]|h0|]; cbn [modest] in M; try contradiction; cbn [exec enter].
  - unfold start_rx. change (ep_proc (hide s)) with (ep_proc s).
    replace (if ep_proc s then set_proc (set_payload (hide s) None) false else hide s) with (hide (if ep_proc s then set_proc (set_payload s None) false else s)) by (destruct (ep_proc s); reflexivity).
    set (s1 := if ep_proc s then _ else s). assert (U : ep_up s1 = ep_up s) by (unfold s1; destruct (ep_proc s); reflexivity).
    change (ep_payload (hide s1)) with (ep_payload s1). destruct (ep_payload s1) as [p|]; [|apply same_hide; [exact U|repeat constructor]].
    replace (slice_bytes (hide s1) p) with (slice_bytes s1 p) by (destruct p; reflexivity). destruct (slice_bytes s1 p); cbn [obind]; [apply same_hide; [exact U|constructor]|reflexivity|reflexivity].
  - change (ep_open (hide s)) with (ep_open s). destruct (ep_open s); [same|]. destruct (c_role C); same.
  - change (ep_open (set_busy (hide s) false)) with (ep_open (set_busy s false)). destruct (ep_open (set_busy s false)); [|same].
    change (ep_transmitting (set_busy (hide s) false)) with (ep_transmitting s). change (ep_transmitting (set_busy s false)) with (ep_transmitting s). rewrite T. cbn [andb app]. same.
  - change (ep_open (hide s)) with (ep_open s). destruct (ep_open s); same.
  - unfold try_read_one. destruct (in_ready inp); cbn [negb]; [|same]. change (ep_payload (asked (hide s) inp)) with (ep_payload (asked s inp)). destruct (ep_payload (asked s inp)); [same|].
    destruct (in_message inp); same.
  - exact (hide_process C s message inp R (ND _ eq_refl)).
  - unfold check_transmit. change (s_valid (ep_active (hide s))) with false. cbn [negb]. destruct (s_valid (ep_active s)); cbn [negb]; [|same].
    unfold asked at 1 2 3. rewrite B, Bool.negb_involutive, set_busy_same. unfold tx_ready at 1. rewrite R. cbn [is_empty negb]. rewrite !Bool.andb_false_r. cbn [negb].
    exists []. split; [reflexivity|]. split; [reflexivity|]. left. split; [reflexivity|constructor].
  - destruct (c_role C) as [c|]; [|same]. unfold on_handshake_required. change (ep_state (hide s)) with (ep_state s). destruct (ep_state s); try same.
    destruct (in_ready inp); cbn [negb]; [|same]. change (ep_ihs (asked (hide s) inp)) with (ep_ihs (asked s inp)).
    destruct (initialize_new_handshake _ _ _ _) as [[[me md]|] i]; [|same]. destruct (frame_write2 _ _) as [[frame written]|]; same.
  - change (ep_required (hide s)) with (ep_required s). destruct (c_role C); [|same]. destruct (ep_required s); same.
  - same.
  - same.
  - change (ep_proc (hide s)) with (ep_proc s). destruct (c_via_stack C); same.
Qed.

(** ** One side *)
Inductive masked (s g : endpoint) (k : list instr) : Prop :=
| mk_old : g = hide s -> Forall modest k -> masked s g k
| mk_new r : g = veil s -> ep_up s = true -> k = IUpOpen :: r -> masked s g k
| mk_same : g = s -> masked s g k.
Record rel (H : list event) (d g : side) : Prop := {
  re_stack : stack g = stack d; re_core : masked (core d) (core g) (stack d);
  re_out : d_out g = d_out d; re_taken : d_taken g = d_taken d; re_owed : d_owed g = d_owed d;
  re_trace : exists D, d_trace d = H ++ D /\ kept D = kept (d_trace g) }.

Lemma masked_fields s g k : masked s g k -> ep_open g = ep_open s /\ ep_busy g = ep_busy s /\ ep_payload g = ep_payload s /\ ep_remainder g = ep_remainder s /\ ep_transmitting g = ep_transmitting s.
Proof. intros [-> _|r -> _ _| ->]; auto 6. Qed.
Lemma kept_app a b : kept (a ++ b) = kept a ++ kept b.
Proof. apply filter_app. Qed.
Lemma kept_flat {A} (f : event -> list A) t : (forall e, keep e = false -> f e = []) -> flat_map f (kept t) = flat_map f t.
Proof. intros H. unfold kept. induction t as [|e t IH]; [reflexivity|]. cbn. destruct (keep e) eqn:E; cbn; rewrite IH; [reflexivity|]. rewrite (H _ E). reflexivity. Qed.
Lemma kept_eq {A} (f : event -> list A) a b : (forall e, keep e = false -> f e = []) -> kept a = kept b -> flat_map f a = flat_map f b.
Proof. intros F H. rewrite <- (kept_flat f a F), <- (kept_flat f b F), H. reflexivity. Qed.
Lemma kept_frames a b : kept a = kept b -> frames a = frames b.
Proof. apply kept_eq. intros []; cbn; congruence. Qed.
Lemma kept_takes a b : kept a = kept b -> takes a = takes b.
Proof. intros H. unfold takes. f_equal. revert H. apply kept_eq. intros []; cbn; congruence. Qed.
Lemma kept_offered a b : kept a = kept b -> offered a = offered b.
Proof. apply kept_eq. intros []; cbn; congruence. Qed.
Lemma kept_read a b : kept a = kept b -> read_data a = read_data b.
Proof. apply kept_eq. intros []; cbn; congruence. Qed.
Lemma kept_closed a b : kept a = kept b -> In EvUpClose a -> In EvUpClose b.
Proof. intros H X. assert (Y : In EvUpClose (kept a)) by (apply filter_In; auto). rewrite H in Y. apply filter_In in Y. apply Y. Qed.

Lemma rel_call H d g c owed : rel H d g -> stack d = [] -> modest (ICall c) -> rel H (call_in d c owed) (call_in g c owed).
Proof.
  intros [R1 R2 R3 R4 R5 R6] K A. constructor; cbn [call_in d_conf fst snd d_out d_taken d_owed d_trace]; auto. destruct R2 as [E F|r E U F|E].
  - apply mk_old; auto.
  - rewrite K in F. discriminate.
  - apply mk_same, E.
Qed.
Lemma rel_answers H L off out d g i inp t1 t2 : rel H d g -> answers_step L off out d i inp t1 t2 <-> answers_step L off out g i inp t1 t2.
Proof.
  intros [R1 R2 R3 R4 R5 R6]. destruct (masked_fields _ _ _ R2) as (M1 & M2 & M3 & _).
  assert (W : waiting out g = waiting out d) by (unfold waiting; rewrite R4; reflexivity).
  assert (T : taken_sent out g = taken_sent out d) by (unfold taken_sent; rewrite R4; reflexivity).
  split; intros []; constructor; rewrite ?M1, ?M2, ?W, ?T in *; auto; try (rewrite <- M1, <- W; assumption).
Qed.

(** The input of the step without the old session: the application is only told there that the layer is open *)
Definition silenced (inp : input) : input :=
  {| in_now := in_now inp; in_now2 := in_now2 inp; in_ready := in_ready inp; in_message := in_message inp; in_started := in_started inp; in_calls := [];
     in_answers := in_answers inp; in_ianswers := in_ianswers inp; in_scratch := in_scratch inp |}.
Lemma silenced_answers L off out d i inp t1 t2 : answers_step L off out d i inp t1 t2 -> answers_step L off out d i (silenced inp) t1 t2.
Proof. intros []. constructor; auto. cbn. auto. Qed.

(** What is needed of the state without the old session *)
Record ghost_ok (g : side) : Prop := {
  go_down : ep_up (core g) = false -> ep_remainder (core g) = [] /\ ep_transmitting (core g) = false;
  go_message : ep_up (core g) = false -> Forall modest (stack g) -> forall m r, stack g = IProcess m :: r -> not_data m }.

Definition after (H : list event) (d' g' : side) : Prop :=
  rel H d' g' \/ (ep_up (core g') = false /\ ~ In IUpOpen (stack g') /\ accepted (d_trace g') <> []).

Lemma sim_calm H L C off out now d g d' now' : rel H d g -> ghost_ok g -> side_calm L C off out now d d' now' ->
  exists g', side_calm L C off out now g g' now' /\ after H d' g'.
Proof.
  intros R [G1 G2] S. pose proof (masked_fields _ _ _ (re_core _ _ _ R)) as (M1 & M2 & M3 & M4 & M5).
  destruct S as [K O|K B|K O W|K P|s i rest inp t1 t2 s' pushed ev ms Hd TT TE HA HC HX FR LM].
  - exists (call_in g LowerOpen (d_owed g)). split; [apply sc_open; [rewrite (re_stack _ _ _ R); exact K|congruence]|]. left. rewrite (re_owed _ _ _ R). apply rel_call; auto. exact I.
  - exists (call_in g LowerTxReady (d_owed g)). split; [apply sc_sent; [rewrite (re_stack _ _ _ R); exact K|congruence]|]. left. rewrite (re_owed _ _ _ R). apply rel_call; auto. exact I.
  - exists (call_in g LowerRxReady false). split; [apply sc_arrived; [rewrite (re_stack _ _ _ R); exact K|congruence|rewrite (re_owed _ _ _ R); exact W]|]. left. apply rel_call; auto. exact I.
  - exists (call_in g StartRx (d_owed g)). split; [apply sc_read; [rewrite (re_stack _ _ _ R); exact K|congruence]|]. left. rewrite (re_owed _ _ _ R). apply rel_call; auto. exact I.
  - pose proof (proj1 (rel_answers _ _ _ _ _ _ _ _ _ _ R) HA) as HG. destruct (R) as [R1 R2 R3 R4 R5 (D & R6 & R7)]. rewrite Hd in *. cbn [fst snd] in *.
    destruct R2 as [E F|r E U F|E].
    + (* with the old session *)
      assert (Ug : ep_up (core g) = false) by (rewrite E; reflexivity). destruct (G1 Ug) as [N1 N2]. rewrite M4 in N1. rewrite M5 in N2.
      inversion F as [|? ? Fi Fr]; subst.
      assert (X : same_but s (exec C s i inp) (exec C (hide s) i inp)).
      { apply hide_exec; auto. { rewrite (as_ready _ _ _ _ _ _ _ _ HA), Hd. reflexivity. } intros m ->. apply (G2 Ug) with rest; rewrite R1; auto. }
      rewrite HX in X. destruct X as (ev' & X1 & X2 & X3).
      assert (Dg : d_conf g = (hide s, i :: rest)) by (rewrite (surjective_pairing (d_conf g)), E, R1; reflexivity).
      assert (Y : forall g', exec C (hide s) i inp = Ok (g', pushed, ev') -> side_calm L C off out now g (stepped g g' (pushed ++ rest) ev' (map (pair t1) ms)) t2).
      { intros g' Z. eapply sc_run; eauto; [rewrite <- (kept_frames _ _ X1); exact FR|rewrite R3; exact LM]. }
      destruct X3 as [[X3 X4]|(X3 & X4 & X5)].
      * eexists. split; [exact (Y _ X3)|]. left. constructor; cbn [stepped d_conf fst snd d_out d_taken d_owed d_trace]; auto.
        -- apply mk_old; [reflexivity|]. apply Forall_app. auto.
        -- rewrite R3. reflexivity.
        -- rewrite R4, (kept_takes _ _ X1). reflexivity.
        -- exists (D ++ ev). rewrite R6, app_assoc. split; [reflexivity|]. rewrite !kept_app, R7, X1. reflexivity.
      * eexists. split; [exact (Y _ X3)|]. destruct X5 as [-> |[q ->]].
        -- right. cbn [stepped d_conf fst snd d_trace app]. split; [reflexivity|]. split.
           ++ intros Z. rewrite Forall_forall in Fr. exact (Fr _ Z).
           ++ rewrite (proj2 (proj2 (proj2 (traces_app _ _)))). intros Z. apply app_eq_nil in Z as [_ Z]. contradiction.
        -- left. constructor; cbn [stepped d_conf fst snd d_out d_taken d_owed d_trace]; auto.
           ++ destruct (ep_up s') eqn:Us; [eapply mk_new; [reflexivity|exact Us|reflexivity]|apply mk_same, veil_down, Us].
           ++ rewrite R3. reflexivity.
           ++ rewrite R4, (kept_takes _ _ X1). reflexivity.
           ++ exists (D ++ ev). rewrite R6, app_assoc. split; [reflexivity|]. rewrite !kept_app, R7, X1. reflexivity.
    + (* the upper layer knows already that the layer is open *)
      injection F as -> ->. cbn [exec] in HX. rewrite U in HX. injection HX as <- <- <-. cbn [frames flat_map] in FR. rewrite (sent_none _ _ FR) in *.
      exists (stepped g s ([] ++ r) [EvUpOpen] (map (pair t1) [])). split.
      * eapply (sc_run _ _ _ _ _ _ (veil s) IUpOpen r (silenced inp)); [rewrite (surjective_pairing (d_conf g)), E, R1; reflexivity|exact TT|exact TE|apply silenced_answers, HG|left; reflexivity| |constructor|rewrite R3; exact LM].
        cbn [exec]. change (ep_up (veil s)) with false. cbn iota. unfold notify. cbn. rewrite (unveil _ U). reflexivity.
      * left. constructor; cbn [stepped d_conf fst snd d_out d_taken d_owed d_trace map app]; auto.
        -- apply mk_same. reflexivity.
        -- rewrite R3. reflexivity.
        -- exists D. rewrite app_nil_r. split; [exact R6|]. rewrite kept_app, R7. cbn. rewrite app_nil_r. reflexivity.
    + (* the same state *)
      exists (stepped g s' (pushed ++ rest) ev (map (pair t1) ms)). split.
      * eapply sc_run; eauto; [rewrite (surjective_pairing (d_conf g)), E, R1; reflexivity|rewrite R3; exact LM].
      * left. constructor; cbn [stepped d_conf fst snd d_out d_taken d_owed d_trace]; auto.
        -- apply mk_same. reflexivity.
        -- rewrite R3. reflexivity.
        -- exists (D ++ ev). rewrite R6, app_assoc. split; [reflexivity|]. rewrite !kept_app, R7. reflexivity.
Qed.

(** A step that can be made without the old session can be made with it *)
Lemma sim_can H L C off out now d g g' now' : rel H d g -> ghost_ok g -> side_calm L C off out now g g' now' -> exists d' now'', side_calm L C off out now d d' now''.
Proof.
  intros R [G1 G2] S. pose proof (masked_fields _ _ _ (re_core _ _ _ R)) as (M1 & M2 & M3 & M4 & M5).
  destruct S as [K O|K B|K O W|K P|s i rest inp t1 t2 s' pushed ev ms Hd TT TE HA HC HX FR LM].
  - do 2 eexists. apply sc_open; [rewrite <- (re_stack _ _ _ R); exact K|congruence].
  - do 2 eexists. apply sc_sent; [rewrite <- (re_stack _ _ _ R); exact K|congruence].
  - do 2 eexists. apply sc_arrived; [rewrite <- (re_stack _ _ _ R); exact K|congruence|rewrite <- (re_owed _ _ _ R); exact W].
  - do 2 eexists. apply sc_read; [rewrite <- (re_stack _ _ _ R); exact K|congruence].
  - pose proof (proj2 (rel_answers _ _ _ _ _ _ _ _ _ _ R) HA) as HR. destruct (R) as [R1 R2 R3 R4 R5 _]. rewrite Hd in *. cbn [fst snd] in *. rewrite <- R1 in *.
    assert (Dd : d_conf d = (core d, i :: rest)) by (rewrite R1; apply surjective_pairing).
    destruct R2 as [E F|r E U F|E].
    + assert (Ug : ep_up s = false) by (rewrite E; reflexivity). destruct (G1 Ug) as [N1 N2]. rewrite M4 in N1. rewrite M5 in N2. inversion F as [|? ? Fi Fr]; subst.
      assert (X : same_but (core d) (exec C (core d) i inp) (exec C (hide (core d)) i inp)).
      { apply hide_exec; auto. { exact (as_ready _ _ _ _ _ _ _ _ HR). } intros m ->. apply (G2 Ug) with rest; auto. }
      rewrite HX in X. destruct (exec C (core d) i inp) as [[[z p] ev']| |] eqn:EX; try discriminate X.
      destruct X as (ev0 & X1 & X2 & X3). assert (ev0 = ev) by (destruct X3 as [[X3 _]|[X3 _]]; congruence). subst ev0.
      do 2 eexists. eapply sc_run; [exact Dd|exact TT|exact TE|exact HR|exact HC|exact EX| |rewrite <- R3; exact LM]. rewrite (kept_frames _ _ X1). exact FR.
    + injection F as -> ->. do 2 eexists. eapply (sc_run _ _ _ _ _ _ (core d) IUpOpen r inp t1 t2 (core d) [] [] []); [exact Dd|exact TT|exact TE|exact HR|exact HC| |constructor|rewrite <- R3; cbn; lia].
      cbn [exec]. rewrite U. reflexivity.
    + subst s. do 2 eexists. eapply sc_run; [exact Dd|exact TT|exact TE|exact HR|exact HC|exact HX|exact FR|rewrite <- R3; exact LM].
Qed.

(** ** The line *)
Lemma rel_informed H d g o1 o2 : rel H d g -> rel H (informed o1 o2 d) (informed o1 o2 g).
Proof. intros [R1 R2 R3 R4 R5 R6]. constructor; cbn [informed d_conf d_trace d_out d_taken d_owed]; auto. rewrite R5. reflexivity. Qed.
Lemma modest_up est s k t : local est s k t -> ep_up s = false -> ~ In IUpOpen k -> est = false.
Proof. intros HL U F. destruct est; [|reflexivity]. pose proof (lc_up _ _ _ _ HL) as X. cbn in X. destruct X; [congruence|contradiction]. Qed.
Lemma modest_no_open k : Forall modest k -> ~ In IUpOpen k.
Proof. rewrite Forall_forall. intros F X. exact (F _ X). Qed.
Lemma carried_not_data E s off x ck : carried E s off 0 x ck -> not_data (snd x).
Proof.
  intros (m & M1 & M2 & M3 & _) f r msg E1 E2 E3. rewrite M1 in E3. rewrite (proj2 (C10_session_data_round_trip m _ M2 (le_n _))) in E3. injection E3 as <-. exact M3.
Qed.

Section line.
Variables (L : net) (c : iconf) (h : responder_handshake).
Hypothesis OK : compatible L c h.
Notation invariant_of := (invariant_of L c h).
Notation inv_with := (inv_with L c h).

Lemma request_not_data : not_data (request L c).
Proof. destruct (begun_some _ _ _ OK new_ihs) as (me & md & _ & E & _). rewrite E. intros f r msg E1 E2. unfold wire_request in E1. cbn in E1. injection E1 as <- _. discriminate E2. Qed.
Lemma reply_not_data : not_data (reply L h).
Proof. intros f r msg E1 E2. unfold reply, wire_reply in E1. cbn in E1. injection E1 as <- _. discriminate E2. Qed.

Lemma ghost_a ea eb now a b : inv_with ea eb now a b -> ghost_ok a.
Proof.
  intros (SA & SB & PA & PB & TM & NW & LA & LB). pose proof (sk_local _ _ _ _ SA) as HL. constructor; [exact (lc_down _ _ _ _ HL)|].
  intros U F m r K. assert (ea = false) as -> by (eapply modest_up; eauto using modest_no_open).
  destruct (sk_head _ _ _ _ SA m r K) as (P & x & X1 & X2). assert (Hp : processed a = pred (d_taken a)) by (unfold processed; rewrite K; cbn; lia). rewrite <- Hp in X1. subst m.
  inversion PA as [E1 E2 E3|i0 t0 E1 E2 E3|t0 u2 y si E1 E2 E3|]; subst.
  - exfalso. destruct (d_out b) as [|[u v] z] eqn:Eb; [destruct (processed a); discriminate|]. destruct (tm_ab _ _ _ _ TM _ _ _ eq_refl) as (? & ? & ? & X & _). congruence.
  - rewrite E2 in X1. inversion PB as [B1|tr sr B1|tr z tail sr B1]; rewrite B1 in X1; cbn in X1; try discriminate; injection X1 as <-; exact reply_not_data.
  - rewrite E2 in X1. inversion PB as [B1|tr sr B1|tr z tail sr B1 B2 B3 B4]; rewrite B1 in X1; cbn in X1; try discriminate. injection X1 as <-.
    destruct (streams_at _ _ _ _ _ 0 _ B4 eq_refl) as (ck & _ & C & _). eapply carried_not_data; eauto.
Qed.
Lemma ghost_b ea eb now a b : inv_with ea eb now a b -> ghost_ok b.
Proof.
  intros (SA & SB & PA & PB & TM & NW & LA & LB). pose proof (sk_local _ _ _ _ SB) as HL. constructor; [exact (lc_down _ _ _ _ HL)|].
  intros U F m r K. assert (eb = false) as -> by (eapply modest_up; eauto using modest_no_open).
  destruct (sk_head _ _ _ _ SB m r K) as (P & x & X1 & X2). assert (Hp : processed b = pred (d_taken b)) by (unfold processed; rewrite K; cbn; lia). rewrite <- Hp in X1. subst m.
  inversion PB as [B1 B2 B3|tr sr B1 B2 B3|]; subst; rewrite B2 in X1.
  - inversion PA as [E1|i0 t0 E1|t0 u2 y si E1|t0 u2 y tail si E1]; rewrite E1 in X1; cbn in X1; try discriminate; injection X1 as <-; exact request_not_data.
  - inversion PA as [E1|i0 t0 E1|t0 u2 y si E1 E2 E3 E4 E5 E6|t0 u2 y tail si E1 E2 E3 E4]; rewrite E1 in X1; cbn in X1; try discriminate; injection X1 as <-.
    + destruct (streams_at _ _ _ _ _ 0 _ E6 eq_refl) as (ck & _ & C & _). eapply carried_not_data; eauto.
    + destruct (streams_at _ _ _ _ _ 0 _ E4 eq_refl) as (ck & _ & C & _). eapply carried_not_data; eauto.
Qed.
(** A session that was accepted is used *)
Lemma after_a H ea eb now d a b : inv_with ea eb now a b -> after H d a -> rel H d a.
Proof.
  intros (SA & SB & PA & PB & TM & NW & LA & LB) [R|(U & N & A)]; [exact R|]. exfalso.
  assert (ea = false) as -> by (eapply modest_up; eauto using sk_local). rewrite (sk_acc _ _ _ _ SA) in A. inversion PA as [E1 E2|i0 t0 E1 E2|t0 u2 y si E1 E2|]; rewrite E2 in A; apply A; reflexivity.
Qed.
Lemma after_b H ea eb now d a b : inv_with ea eb now a b -> after H d b -> rel H d b.
Proof.
  intros (SA & SB & PA & PB & TM & NW & LA & LB) [R|(U & N & A)]; [exact R|]. exfalso.
  assert (eb = false) as -> by (eapply modest_up; eauto using sk_local). rewrite (sk_acc _ _ _ _ SB) in A. inversion PB as [E1 E2|t0 u2 E1 E2|]; rewrite E2 in A; apply A; reflexivity.
Qed.
Lemma after_informed H d g o1 o2 d0 : after H d g -> d0 = informed o1 o2 d -> after H d0 (informed o1 o2 g).
Proof. intros [R|X] ->; [left; apply rel_informed, R|right; exact X]. Qed.

Record linked (Ha Hb : list event) (x g : line) : Prop := { lk_now : l_now g = l_now x; lk_a : rel Ha (l_a x) (l_a g); lk_b : rel Hb (l_b x) (l_b g) }.

Lemma sim_line Ha Hb x g y : invariant_of g -> linked Ha Hb x g -> line_calm L x y -> exists g', line_calm L g g' /\ invariant_of g' /\ linked Ha Hb y g'.
Proof.
  intros (ea & eb & I) [N RA RB] [a' now' S|b' now' S].
  - destruct (sim_calm _ _ _ _ _ _ _ _ _ _ RA (ghost_a _ _ _ _ _ I) S) as (ga' & G1 & G2).
    rewrite <- (re_out _ _ _ RB), <- N in G1. set (g' := {| l_now := now'; l_a := ga'; l_b := informed (d_out (l_a g)) (d_out ga') (l_b g) |}).
    assert (GS : line_calm L g g') by (apply lc_a, G1). exists g'. split; [exact GS|].
    assert (IG : invariant_of g') by (eapply inv_step; [exact OK|exists ea, eb; exact I|apply calm_line, GS]). split; [exact IG|].
    destruct IG as (ea' & eb' & I'). cbn [g' l_now l_a l_b] in *. pose proof (after_a _ _ _ _ _ _ _ I' G2) as RA'.
    constructor; cbn [g' l_now l_a l_b]; auto. rewrite <- (re_out _ _ _ RA), <- (re_out _ _ _ RA'). apply rel_informed, RB.
  - destruct (sim_calm _ _ _ _ _ _ _ _ _ _ RB (ghost_b _ _ _ _ _ I) S) as (gb' & G1 & G2).
    rewrite <- (re_out _ _ _ RA), <- N in G1. set (g' := {| l_now := now'; l_a := informed (d_out (l_b g)) (d_out gb') (l_a g); l_b := gb' |}).
    assert (GS : line_calm L g g') by (apply lc_b, G1). exists g'. split; [exact GS|].
    assert (IG : invariant_of g') by (eapply inv_step; [exact OK|exists ea, eb; exact I|apply calm_line, GS]). split; [exact IG|].
    destruct IG as (ea' & eb' & I'). cbn [g' l_now l_a l_b] in *. pose proof (after_b _ _ _ _ _ _ _ I' G2) as RB'.
    constructor; cbn [g' l_now l_a l_b]; auto. rewrite <- (re_out _ _ _ RB), <- (re_out _ _ _ RB'). apply rel_informed, RA.
Qed.
Lemma sim_progress Ha Hb x g g' : invariant_of g -> linked Ha Hb x g -> line_calm L g g' -> exists y, line_calm L x y.
Proof.
  intros (ea & eb & I) [N RA RB] [a' now' S|b' now' S].
  - rewrite N, (re_out _ _ _ RB) in S. destruct (sim_can _ _ _ _ _ _ _ _ _ _ RA (ghost_a _ _ _ _ _ I) S) as (d' & n' & X). eexists. eapply lc_a, X.
  - rewrite N, (re_out _ _ _ RA) in S. destruct (sim_can _ _ _ _ _ _ _ _ _ _ RB (ghost_b _ _ _ _ _ I) S) as (d' & n' & X). eexists. eapply lc_b, X.
Qed.
Lemma sim_inevitable Ha Hb (P Q : line -> Prop) : (forall x g, invariant_of g -> linked Ha Hb x g -> Q g -> P x) ->
  forall g, inevitable L Q g -> forall x, invariant_of g -> linked Ha Hb x g -> inevitable L P x.
Proof.
  intros HP. fix IH 2. intros g [HQ|HE HA] x I K.
  - apply iv_now. eapply HP; eauto.
  - apply iv_next.
    + destruct HE as [g' S]. eapply sim_progress; eauto.
    + intros y S. destruct (sim_line _ _ _ _ _ I K S) as (g' & S' & I' & K'). apply (IH g' (HA g' S')); assumption.
Qed.
End line.

(** ** The session timer of the initiator, and its state *)
Definition settled (s : endpoint) (k : list instr) : Prop := ep_session_timer s = true /\ (ep_state s = Idle \/ In (ISetState Idle) k).
Lemma validate_invalid E s m now cap r s1 st : s_valid s = false -> validate_session_data E s m now cap = Ok (r, s1, st) -> s1 = s /\ exists e, r = inr e.
Proof. intros V. unfold validate_session_data, validate_with. rewrite V. cbn. intros [= <- <- _]. eauto. Qed.
Lemma opening_exec C c s i inp s' p ev : c_role C = Initiator c -> exec C s i inp = Ok (s', p, ev) -> s_valid (ep_active s) = false -> s_valid (ep_active s') = true ->
  ep_session_timer s' = true /\ In (ISetState Idle) p.
Proof.
  intros HC H V V'. destruct i as [[]| | | | | | | | | | | | |]; exec_cases H; unfold reset_state_on_close in *; rewrite ?HC in *; eps; try discriminate; try congruence; splits; cbn; auto; try congruence; try discriminate.
  all: try match goal with X : validate_session_data _ _ _ _ _ = Ok _ |- _ => destruct (validate_invalid _ _ _ _ _ _ _ _ V X) as [-> [e E]]; congruence end.
  all: repeat match goal with X : context [if ?b then _ else _] |- _ => destruct b eqn:?; eps end; try congruence.
  all: rewrite V in *; discriminate.
Qed.
Lemma settled_exec C c s i rest inp s' p ev : c_role C = Initiator c -> exec C s i inp = Ok (s', p, ev) -> settled s (i :: rest) ->
  i <> IHandshakeRequired -> i <> ICall LowerClose -> (forall x, i = ISetState x -> x = Idle) -> (i = INonceChange -> (N.max (s_tx_nonce (ep_active s)) (s_rx_nonce (ep_active s)) < ic_nonce_trigger c)%N) ->
  settled s' (p ++ rest).
Proof.
  intros HC H [T S] N1 N2 N3 N4.
  assert (T' : ep_session_timer s' = true).
  { destruct i as [[]| | | | | | | | | | | | |]; try congruence; exec_cases H; unfold reset_state_on_close in *; rewrite ?HC in *; splits; auto; try congruence.
    injection HC as ->. specialize (N4 eq_refl). match goal with X : (_ <=? _)%N = true |- _ => apply N.leb_le in X; lia end. }
  split; [exact T'|]. destruct S as [S|[S|S]].
  - destruct i as [[]| | | | | | | | | | | |h0|]; try congruence; try (rewrite (N3 _ eq_refl) in *); exec_cases H; unfold reset_state_on_close in *; rewrite ?HC in *; splits; auto; try congruence.
  - left. subst i. cbn in H. injection H as <- <- <-. reflexivity.
  - right. apply in_or_app. auto.
Qed.
Lemma up_exec C s i inp s' p ev : exec C s i inp = Ok (s', p, ev) -> ep_up s' = true -> ep_up s = true \/ In EvUpOpen ev.
Proof. intros H U. destruct i as [[]| | | | | | | | | | | | |]; exec_cases H; unfold reset_state_on_close in *; destruct (c_role C); eps; splits; cbn; auto; try congruence. all: repeat match goal with X : context [if ?b then _ else _] |- _ => destruct b eqn:?; eps end; auto. Qed.
Definition told (d : side) : Prop := ep_up (core d) = true -> In EvUpOpen (d_trace d).
Lemma told_step L C off out now d d' now' : told d -> side_step L C off out now d d' now' -> told d'.
Proof.
  intros T [K O|K B|K O W|cl K A Ty|s i rest inp t1 t2 s' pushed ev ms Hd TT TE HA HX FR LM]; unfold told in *; cbn [call_in d_conf d_trace fst snd]; auto.
  rewrite Hd in T. cbn [fst] in T. intros U. apply in_or_app. destruct (up_exec _ _ _ _ _ _ _ HX U); auto.
Qed.
Lemma told_line L x y : told (l_a x) -> told (l_b x) -> line_step L x y -> told (l_a y) /\ told (l_b y).
Proof. intros A B [a' now' S|b' now' S]; cbn [l_a l_b]; split; first [exact A|exact B|exact (told_step _ _ _ _ _ _ _ _ A S)|exact (told_step _ _ _ _ _ _ _ _ B S)]. Qed.

Lemma rel_step H L C off out now d g d' now' : rel H d g -> core g = core d -> side_step L C off out now d d' now' ->
  exists g', side_step L C off out now g g' now' /\ rel H d' g' /\ core g' = core d'.
Proof.
  intros R E S. pose proof R as [R1 R2 R3 R4 R5 (D & R6 & R7)].
  assert (RC : forall cl owed, rel H (call_in d cl owed) (call_in g cl owed)).
  { intros cl owed. constructor; cbn [call_in d_conf fst snd d_out d_taken d_owed d_trace]; auto; [apply mk_same, E|exists D; auto]. }
  destruct S as [K O|K B|K O W|cl K A T|s i rest inp t1 t2 s' pushed ev ms Hd TT TE HA HX FR LM].
  - exists (call_in g LowerOpen (d_owed g)). split; [apply ss_open; congruence|]. rewrite R5. split; [apply RC|exact E].
  - exists (call_in g LowerTxReady (d_owed g)). split; [apply ss_sent; congruence|]. rewrite R5. split; [apply RC|exact E].
  - exists (call_in g LowerRxReady false). split; [apply ss_arrived; congruence|]. split; [apply RC|exact E].
  - exists (call_in g cl (d_owed g)). split; [apply ss_call; congruence|]. rewrite R5. split; [apply RC|exact E].
  - pose proof (proj1 (rel_answers _ _ _ _ _ _ _ _ _ _ R) HA) as HG. rewrite Hd in *. cbn [fst snd] in *.
    exists (stepped g s' (pushed ++ rest) ev (map (pair t1) ms)). split.
    + eapply ss_run; eauto; [rewrite (surjective_pairing (d_conf g)), E, R1; reflexivity|rewrite R3; exact LM].
    + split; [|reflexivity]. constructor; cbn [stepped d_conf fst snd d_out d_taken d_owed d_trace]; auto.
      * apply mk_same. reflexivity.
      * rewrite R3. reflexivity.
      * exists (D ++ ev). rewrite R6, app_assoc. split; [reflexivity|]. rewrite !kept_app, R7. reflexivity.
Qed.
Lemma rel_rest H d g : rel H d g -> at_rest d -> at_rest g.
Proof. intros [R1 R2 R3 R4 R5 _] (A1 & A2 & A3 & A4 & A5). destruct (masked_fields _ _ _ R2) as (M1 & M2 & M3 & _). unfold at_rest. rewrite M1, M2, M3, R1, R5. auto. Qed.
Lemma rel_same H d g : rel H d g -> stack d = [] -> ep_up (core g) = true -> core g = core d.
Proof. intros [R1 R2 _ _ _ _] K U. destruct R2 as [E _|r E _ X|E]; [rewrite E in U; discriminate U|rewrite K in X; discriminate|exact E]. Qed.
Lemma rel_given H d g : rel H d g -> given d = concat (offered H) ++ given g /\ got d = concat (read_data H) ++ got g.
Proof.
  intros [_ _ _ _ _ (D & R6 & R7)]. unfold given, got. rewrite R6. destruct (traces_app H D) as (T1 & _ & T3 & _). rewrite T1, T3, !concat_app, (kept_offered _ _ R7), (kept_read _ _ R7). auto.
Qed.

Section era.
Variables (c : iconf) (h : responder_handshake).

Lemma established L ea eb now a b : inv_with L c h ea eb now a b -> at_rest a -> at_rest b -> ea = true /\ eb = true.
Proof.
  intros (SA & SB & PA & PB & TM & NW & LA & LB) RA RB.
  pose proof (rest_taken _ _ _ _ SA RA) as HA. pose proof (rest_taken _ _ _ _ SB RB) as HB. destruct RA as (R1 & R2 & _). rewrite HA in PA. rewrite HB in PB.
  inversion PA as [O1 P1 X1 X2 X5 X6 X7|? ? O1 P1|? ? ? ? O1 P1|? ? ? ? ? O1 P1]; inversion PB as [O2 P2|? ? O2 P2|? ? ? ? O2 P2]; auto; rewrite O1, O2 in *; cbn in *; try lia.
  specialize (X7 R1). congruence.
Qed.

Definition invx (L : net) (g : line) : Prop := exists ea eb, inv_with L c h ea eb (l_now g) (l_a g) (l_b g) /\ (ea = true -> settled (core (l_a g)) (stack (l_a g))).
Lemma invx_inv L g : invx L g -> invariant_of L c h g.
Proof. intros (ea & eb & I & _). exists ea, eb. exact I. Qed.
Lemma pa_valid L s k out p cs e : compatible L c h -> pa L c h s k out p cs e -> s_valid (ep_active s) = e.
Proof.
  intros OK [H1 H2 H3 H4 H5 H6 H7|? ? H1 H2 H3 H4 H5 H6 H7|? ? ? ? H1 H2 H3 H4 H5 H6 H7 H8 H9|t0 t2 ? ? si H1 H2 H3 H4 H5]; auto. rewrite H5. cbn. apply (si_known _ _ _ OK _ _ _ H3).
Qed.
Lemma invx_step L x y : compatible L c h -> invx L x -> line_step L x y -> invx L y.
Proof.
  intros OK (ea & eb & I & X) S. destruct (inv_step L c h OK x y (ex_intro _ ea (ex_intro _ eb I)) S) as (ea' & eb' & I'). exists ea', eb'. split; [exact I'|]. intros ->.
  pose proof I as (SA & SB & PA & PB & TM & NW & LA & LB). pose proof I' as (_ & _ & PA' & _).
  pose proof (pa_valid _ _ _ _ _ _ _ OK PA) as V. pose proof (pa_valid _ _ _ _ _ _ _ OK PA') as V'.
  destruct S as [a' now' S|b' now' S]; cbn [l_a l_b l_now informed d_conf] in *; [|apply X; congruence].
  assert (CI : forall cl owed, stack (l_a x) = [] -> s_valid (ep_active (core (call_in (l_a x) cl owed))) = true -> settled (core (call_in (l_a x) cl owed)) (stack (call_in (l_a x) cl owed))).
  { intros cl owed K Va. destruct X as [X1 [X2|X2]]; [cbn in Va; congruence|split; auto|rewrite K in X2; destruct X2]. }
  destruct S as [K O|K B|K O W|cl K A T|s i rest inp t1 t2 s' pushed ev ms Hd TT TE HA HX FR LM]; auto.
  pose proof (sk_local _ _ _ _ SA) as HL. rewrite Hd in *. cbn [fst snd d_conf] in *. destruct (co_roles _ _ _ OK) as [Hr _].
  destruct ea.
  - pose proof (stack_head _ _ _ _ (lc_stack _ _ _ _ HL)) as Hi.
    eapply settled_exec; [exact Hr|exact HX|apply X; reflexivity|..].
    + intros ->. destruct Hi as [F|[[m F]|[_ [[F _]|[[F _]|[[F _]|(_ & _ & F & _)]]]]]]; discriminate || exact F.
    + intros ->. destruct Hi as [F|[[m F]|[_ [[F _]|[[F _]|[[F _]|(F & _)]]]]]]; discriminate || exact F.
    + intros z ->. destruct Hi as [F|[[m F]|[_ [[F _]|[[F _]|[[F _]|(F & _)]]]]]]; try discriminate. destruct z; cbn in F; tauto.
    + intros ->. destruct (co_limit _ _ _ OK) as [_ Hl]. inversion PA as [| | |t0 u2 y tail si E1 E2 E3 E4 E5]. rewrite E5. cbn [at_nonces s_tx_nonce s_rx_nonce set_tx_nonce set_rx_nonce].
      pose proof (sk_taken _ _ _ _ SA) as Ht. unfold processed in *. rewrite E1 in LA. cbn in LA. lia.
  - destruct (opening_exec _ _ _ _ _ _ _ _ Hr HX V V') as [Q1 Q2]. split; [exact Q1|]. right. apply in_or_app. auto.
Qed.
Lemma invx_calm L x y : compatible L c h -> invx L x -> line_calm L x y -> invx L y.
Proof. intros OK I S. eapply invx_step; eauto. apply calm_line, S. Qed.

(** ** The session timer expires *)
Definition ghost_side (s : endpoint) (k : list instr) : side := {| d_conf := (hide s, k); d_trace := []; d_out := []; d_taken := 0; d_owed := false |}.
Lemma begin_ok s k : undisturbed s -> ep_up s = false -> k = [] \/ (k = [IHandshakeRequired] /\ ep_state s = Idle) ->
  side_ok false {| d_conf := (s, k); d_trace := []; d_out := []; d_taken := 0; d_owed := false |} [] [].
Proof.
  intros (E1 & E2 & E3 & E4 & F1 & F2 & E5) U Hk.
  constructor; cbn [d_conf d_trace d_out d_taken d_owed fst snd]; try reflexivity; try discriminate.
  - constructor; rewrite ?F1, ?F2, ?E3, ?E4, ?E5; try reflexivity; try discriminate; try congruence; auto; try (cbn; tauto); try solve [constructor].
    + destruct Hk as [->|[-> Hs]]; [left; constructor|]. right. right. right. right. right. auto.
    + unfold held. rewrite E3. reflexivity.
  - intros W. destruct (W eq_refl).
  - intros m r X. destruct Hk as [->|[-> _]]; discriminate.
Qed.
Lemma rest_undisturbed est d out cs : side_ok est d out cs -> at_rest d -> undisturbed (core d).
Proof.
  intros HS (A1 & A2 & A3 & A4 & A5). pose proof (sk_local _ _ _ _ HS) as HL.
  assert (F1 : ep_remainder (core d) = []). { destruct (ep_remainder (core d)) eqn:Er; [reflexivity|]. destruct (lc_rem _ _ _ _ HL) as [X|X]; [congruence|congruence|]. rewrite A2 in X. destruct X. }
  assert (F2 : ep_transmitting (core d) = false). { destruct (ep_transmitting (core d)) eqn:Er; [|reflexivity]. pose proof (lc_trans _ _ _ _ HL Er). congruence. }
  assert (F3 : ep_proc (core d) = false). { destruct (ep_proc (core d)) eqn:Er; [|reflexivity]. pose proof (lc_proc _ _ _ _ HL Er). congruence. }
  pose proof (lc_req _ _ _ _ HL) as F4. unfold undisturbed. auto 10.
Qed.
Lemma ghost_start s k : undisturbed s -> k = [] \/ (k = [IHandshakeRequired] /\ ep_state s = Idle) -> side_ok false (ghost_side s k) [] [].
Proof. intros U Hk. apply (begin_ok (hide s)); [exact U|reflexivity|exact Hk]. Qed.

Lemma expire_due s : due s -> exists s', expire s = (s', [IHandshakeRequired]) /\ ep_state s' = Idle /\ (undisturbed s -> undisturbed s') /\ ep_up s' = ep_up s /\ ep_active s' = ep_active s.
Proof.
  unfold due, expire. destruct (ep_state s) eqn:Es; intros D; try contradiction; cbn [inject]; rewrite D; cbn [fire fst snd].
  - eexists. split; [reflexivity|]. eps. rewrite Es. auto.
  - unfold on_response_timeout. eps. rewrite Es. cbn [retry inject]. unfold retry, start_timer. eps. cbn [fire]. unfold on_retry_timeout. eps. eexists. split; [reflexivity|]. eps. auto.
  - unfold on_response_timeout. eps. rewrite Es. cbn [retry inject]. unfold retry, start_timer. eps. cbn [fire]. unfold on_retry_timeout. eps. eexists. split; [reflexivity|]. eps. auto.
  - unfold on_retry_timeout. eps. rewrite Es. eexists. split; [reflexivity|]. eps. auto.
Qed.
Lemma begin_inv L sa sb : undisturbed sa -> undisturbed sb -> ep_state sa = Idle -> without_session sa -> without_session sb ->
  inv_with L c h false false 0 {| d_conf := (sa, [IHandshakeRequired]); d_trace := []; d_out := []; d_taken := 0; d_owed := false |} {| d_conf := (sb, []); d_trace := []; d_out := []; d_taken := 0; d_owed := false |}.
Proof.
  intros UA UB S (A1 & A2) (B1 & B2). split; [apply begin_ok; auto|]. split; [apply begin_ok; auto|].
  split; [apply pa0; auto; cbn; apply UA|]. split; [apply pb0; auto|]. split; [constructor; try constructor; intros; discriminate|]. cbn. lia.
Qed.
Lemma hidden_none s : without_session (hide s).
Proof. split; reflexivity. Qed.

Record era_inv (L : net) (renewing : bool) (x : line) : Prop := {
  ei_ok : compatible L c h;
  ei_told : told (l_a x) /\ told (l_b x);
  ei_ghost : exists g Ha Hb, invx L g /\ linked Ha Hb x g /\ (renewing = false -> core (l_a g) = core (l_a x) /\ core (l_b g) = core (l_b x)) /\
    concat (offered Ha) = concat (read_data Hb) /\ concat (offered Hb) = concat (read_data Ha) /\ ~ In EvUpClose Ha /\ ~ In EvUpClose Hb /\
    (renewing = true -> 2 <= n_limit L -> room L (l_a g) /\ room L (l_b g)) }.

Lemma rest_same L x g Ha Hb : invx L g -> linked Ha Hb x g -> at_rest (l_a x) -> at_rest (l_b x) -> core (l_a g) = core (l_a x) /\ core (l_b g) = core (l_b x).
Proof.
  intros (ea & eb & I & _) [N RA RB] PA PB. pose proof (rel_rest _ _ _ RA PA) as GA. pose proof (rel_rest _ _ _ RB PB) as GB. destruct (established _ _ _ _ _ _ I GA GB) as [-> ->].
  destruct I as (SA & SB & _). split; (eapply rel_same; [eassumption|apply PA || apply PB|]).
  - pose proof (lc_up _ _ _ _ (sk_local _ _ _ _ SA)) as U. cbn in U. rewrite (proj1 (proj2 GA)) in U. destruct U as [U|[]]. exact U.
  - pose proof (lc_up _ _ _ _ (sk_local _ _ _ _ SB)) as U. cbn in U. rewrite (proj1 (proj2 GB)) in U. destruct U as [U|[]]. exact U.
Qed.
Lemma history_closed H d g est out cs : rel H d g -> side_ok est g out cs -> ~ In EvUpClose H -> ~ In EvUpClose (d_trace d).
Proof.
  intros [_ _ _ _ _ (D & R6 & R7)] HS N. rewrite R6, in_app_iff. intros [X|X]; [exact (N X)|]. exact (lc_closed _ _ _ _ (sk_local _ _ _ _ HS) (kept_closed _ _ R7 X)).
Qed.

Lemma era_start L : compatible L c h -> era_inv L false (new_line L).
Proof.
  intros OK. constructor; [exact OK|split; intros X; discriminate X|]. exists (new_line L), [], []. split; [exists false, false; split; [apply inv_new|discriminate]|].
  assert (R : forall C, rel [] (new_side C) (new_side C)) by (intros C; constructor; auto; [apply mk_same; reflexivity|exists []; auto]).
  split; [constructor; [reflexivity|apply R|apply R]|]. split; [auto|]. split; [reflexivity|]. split; [reflexivity|]. split; [intros []|]. split; [intros []|]. discriminate.
Qed.
Lemma era_line_step L x y : era_inv L false x -> line_step L x y -> era_inv L false y.
Proof.
  intros [OK [TA TB] (g & Ha & Hb & I & [N RA RB] & E & H1 & H2 & H3 & H4 & _)] S. destruct (E eq_refl) as [EA EB]. constructor; [exact OK|exact (told_line _ _ _ TA TB S)|].
  destruct S as [a' now' S|b' now' S]; cbn [l_a l_b l_now].
  - destruct (rel_step _ _ _ _ _ _ _ _ _ _ RA EA S) as (ga & S' & R' & E'). rewrite <- N, <- (re_out _ _ _ RB) in S'.
    pose proof (ls_a _ _ _ _ S') as LS. eexists. exists Ha, Hb. split; [exact (invx_step _ _ _ OK I LS)|]. cbn [l_a l_b l_now].
    split; [|split; [intros _; split; [exact E'|exact EB]|repeat (split; [assumption|]); discriminate]].
    constructor; cbn [l_a l_b l_now]; auto. rewrite (re_out _ _ _ RA), (re_out _ _ _ R'). apply rel_informed, RB.
  - destruct (rel_step _ _ _ _ _ _ _ _ _ _ RB EB S) as (gb & S' & R' & E'). rewrite <- N, <- (re_out _ _ _ RA) in S'.
    pose proof (ls_b _ _ _ _ S') as LS. eexists. exists Ha, Hb. split; [exact (invx_step _ _ _ OK I LS)|]. cbn [l_a l_b l_now].
    split; [|split; [intros _; split; [exact EA|exact E']|repeat (split; [assumption|]); discriminate]].
    constructor; cbn [l_a l_b l_now]; auto. rewrite (re_out _ _ _ RB), (re_out _ _ _ R'). apply rel_informed, RA.
Qed.
Lemma era_calm_step L b x y : era_inv L b x -> line_calm L x y -> b = true -> era_inv L b y.
Proof.
  intros [OK [TA TB] (g & Ha & Hb & I & K & E & H1 & H2 & H3 & H4 & RM)] S ->. constructor; [exact OK|exact (told_line _ _ _ TA TB (calm_line _ _ _ S))|].
  destruct (sim_line L c h OK _ _ _ _ _ (invx_inv _ _ I) K S) as (g' & S' & I' & K'). exists g', Ha, Hb. split; [exact (invx_calm _ _ _ OK I S')|]. split; [exact K'|]. split; [discriminate|].
  repeat (split; [assumption|]). intros _ X. destruct (RM eq_refl X) as [Ra Rb]. destruct S' as [a' now' Z|b' now' Z]; cbn [l_a l_b]; split; first [exact Ra|exact Rb|eapply room_calm; [|exact Z]; assumption].
Qed.
Lemma era_rest L b x : era_inv L b x -> at_rest (l_a x) -> at_rest (l_b x) -> era_inv L false x /\ given (l_a x) = got (l_b x) /\ given (l_b x) = got (l_a x) /\ told_open (l_a x) /\ told_open (l_b x) /\
  session_since L x /\ ep_session_timer (core (l_a x)) = true /\ ep_state (core (l_a x)) = Idle /\ exists g Ha Hb, linked Ha Hb x g /\ inv_with L c h true true (l_now g) (l_a g) (l_b g).
Proof.
  intros [OK [TA TB] (g & Ha & Hb & I & K & E & H1 & H2 & H3 & H4 & RM)] PA PB. destruct (rest_same _ _ _ _ _ I K PA PB) as [EA EB]. pose proof (lk_a _ _ _ _ K) as RA. pose proof (lk_b _ _ _ _ K) as RB.
  pose proof (rel_rest _ _ _ RA PA) as GA. pose proof (rel_rest _ _ _ RB PB) as GB.
  destruct (line_delivered L c h g (invx_inv _ _ I) GA GB) as ((D1 & D2) & _).
  destruct (rel_given _ _ _ RA) as [A1 A2]. destruct (rel_given _ _ _ RB) as [B1 B2].
  split; [constructor; [exact OK|auto|exists g, Ha, Hb; split; [exact I|]; split; [exact K|]; split; [auto|]; repeat (split; [assumption|]); discriminate]|].
  split; [congruence|]. split; [congruence|]. pose proof I as (ea & eb & J & X). destruct (established _ _ _ _ _ _ J GA GB) as [-> ->]. specialize (X eq_refl). pose proof J as (SA & SB & PPA & PPB & TM & _).
  assert (UA : ep_up (core (l_a x)) = true) by (pose proof (lc_up _ _ _ _ (sk_local _ _ _ _ SA)) as U; cbn in U; rewrite (proj1 (proj2 GA)), EA in U; destruct U as [U|[]]; exact U).
  assert (UB : ep_up (core (l_b x)) = true) by (pose proof (lc_up _ _ _ _ (sk_local _ _ _ _ SB)) as U; cbn in U; rewrite (proj1 (proj2 GB)), EB in U; destruct U as [U|[]]; exact U).
  split; [split; [exact (TA UA)|exact (history_closed _ _ _ _ _ _ RA SA H3)]|]. split; [split; [exact (TB UB)|exact (history_closed _ _ _ _ _ _ RB SB H4)]|].
  split.
  { inversion PPA as [| | |t0 t2 y tail si E1 E2 E3 E4 E5]. inversion PPB as [| |t1 z tailb sr B3 B4 B5 B6 B7]. unfold session_since. rewrite <- EA, <- EB, E5, B7. cbn [at_nonces s_valid s_param set_tx_nonce set_rx_nonce].
    destruct (si_known _ _ _ OK _ _ _ E3) as (V1 & _ & _ & _ & _ & _ & V2). destruct (sr_known _ _ _ OK _ _ B5) as (V3 & _ & _ & _ & _ & _ & V4).
    pose proof (tm_a _ _ _ _ TM) as Q1. pose proof (tm_b _ _ _ _ TM) as Q2. rewrite E1 in Q1. rewrite B3 in Q2. pose proof (Forall_inv Q1) as Q3. pose proof (Forall_inv Q2) as Q4. cbn in Q3, Q4. repeat split; auto; lia. }
  destruct X as [X1 X2]. rewrite EA in X1, X2. split; [exact X1|]. split; [destruct X2 as [X2|X2]; [exact X2|rewrite (proj1 (proj2 GA)) in X2; destruct X2]|]. exists g, Ha, Hb. auto.
Qed.
Lemma era_fire L x L' : era_inv L false x -> at_rest (l_a x) -> at_rest (l_b x) -> ep_session_timer (core (l_a x)) = true -> compatible L' c h -> era_inv L' true (renewing x).
Proof.
  intros EI PA PB TM OK'. pose proof EI as [OK [TA TB] _]. destruct (era_rest _ _ _ EI PA PB) as (_ & D1 & D2 & (T1 & N1) & (T2 & N2) & _ & _ & Hst & g & Ha & Hb & K & J).
  pose proof (lk_a _ _ _ _ K) as RA. pose proof (lk_b _ _ _ _ K) as RB. pose proof (rel_rest _ _ _ RA PA) as GA. pose proof (rel_rest _ _ _ RB PB) as GB.
  pose proof J as (SA & SB & _). pose proof (lc_up _ _ _ _ (sk_local _ _ _ _ SA)) as UA. pose proof (lc_up _ _ _ _ (sk_local _ _ _ _ SB)) as UB. cbn in UA, UB. rewrite (proj1 (proj2 GA)) in UA. rewrite (proj1 (proj2 GB)) in UB. destruct UA as [UA|[]]. destruct UB as [UB|[]].
  pose proof (rel_same _ _ _ RA (proj1 (proj2 PA)) UA) as EA. pose proof (rel_same _ _ _ RB (proj1 (proj2 PB)) UB) as EB. rewrite EA in UA. rewrite EB in UB.
  unfold renewing. cbn [inject]. rewrite TM. constructor; [exact OK'|split; intros X; cbn; assumption|].
  set (sa := set_session_timer (core (l_a x)) false).
  exists {| l_now := 0; l_a := ghost_side sa [IHandshakeRequired]; l_b := ghost_side (core (l_b x)) [] |}, (d_trace (l_a x)), (d_trace (l_b x)).
  assert (I : inv_with L' c h false false 0 (ghost_side sa [IHandshakeRequired]) (ghost_side (core (l_b x)) [])).
  { apply begin_inv; [|rewrite <- EB; exact (rest_undisturbed _ _ _ _ SB GB)|exact Hst|apply hidden_none|apply hidden_none]. pose proof (rest_undisturbed _ _ _ _ SA GA) as Q. rewrite EA in Q. exact Q. }
  split; [exists false, false; split; [exact I|discriminate]|]. cbn [l_a l_b l_now]. split.
  { destruct PA as (A1 & A2 & A3 & A4 & A5). destruct PB as (B1 & B2 & B3 & B4 & B5). constructor; cbn [l_a l_b l_now renew_side]; [reflexivity|constructor|constructor]; cbn [renew_side ghost_side d_conf d_trace d_out d_taken d_owed fst snd]; auto.
    - apply mk_old; [reflexivity|repeat constructor].
    - exists []. rewrite app_nil_r. auto.
    - rewrite B2. apply mk_old; [reflexivity|constructor].
    - exists []. rewrite app_nil_r. auto. }
  split; [discriminate|]. unfold given, got in D1, D2. split; [exact D1|]. split; [exact D2|]. split; [exact N1|]. split; [exact N2|]. intros _ X. unfold room. cbn. lia.
Qed.
Lemma era_again L sa sb : compatible L c h -> undisturbed sa -> undisturbed sb -> due sa -> era_inv L true (resumed sa sb).
Proof.
  intros OK UA UB D. destruct (expire_due sa D) as (s' & E & Hs & U & Hup & _). specialize (U UA). unfold resumed. rewrite E.
  constructor; [exact OK|split; unfold told, resume_side; cbn [l_a l_b d_conf d_trace fst]; intros ->; left; reflexivity|].
  exists {| l_now := 0; l_a := ghost_side s' [IHandshakeRequired]; l_b := ghost_side sb [] |}, (d_trace (resume_side (s', [IHandshakeRequired]))), (d_trace (resume_side (sb, []))).
  split; [exists false, false; split; [|discriminate]; apply begin_inv; auto using hidden_none|]. cbn [l_a l_b l_now]. split.
  { constructor; cbn [l_a l_b l_now]; [reflexivity|constructor|constructor]; cbn [resume_side ghost_side d_conf d_trace d_out d_taken d_owed fst snd]; auto.
    - apply mk_old; [reflexivity|repeat constructor].
    - exists []. rewrite app_nil_r. auto.
    - apply mk_old; [reflexivity|constructor].
    - exists []. rewrite app_nil_r. auto. }
  split; [discriminate|]. cbn [resume_side d_trace fst].
  assert (X : forall b : bool, concat (offered (if b then [EvUpOpen] else [])) = [] /\ concat (read_data (if b then [EvUpOpen] else [])) = [] /\ ~ In EvUpClose (if b then [EvUpOpen] else [])) by (intros []; cbn; intuition discriminate).
  destruct (X (ep_up s')) as (X1 & X2 & X3). destruct (X (ep_up sb)) as (X4 & X5 & X6). rewrite X1, X2, X4, X5. split; [auto|]. split; [auto|]. split; [auto|]. split; [auto|]. intros _ Y. unfold room. cbn. lia.
Qed.
Theorem era_invariant L b x : era c h L b x -> era_inv L b x.
Proof.
  induction 1.
  - apply era_start; assumption.
  - apply era_again; assumption.
  - eapply era_line_step; eauto.
  - eapply era_fire; eauto.
  - eapply era_calm_step; eauto.
  - eapply era_rest; eauto.
Qed.

Lemma era_prefix L b x : era_inv L b x -> (exists r, got (l_b x) ++ r = given (l_a x)) /\ (exists r, got (l_a x) ++ r = given (l_b x)).
Proof.
  intros [OK _ (g & Ha & Hb & I & [N RA RB] & _ & H1 & H2 & _)]. destruct (line_prefix L c h g (invx_inv _ _ I)) as [[r P] [q Q]].
  destruct (rel_given _ _ _ RA) as [A1 A2]. destruct (rel_given _ _ _ RB) as [B1 B2]. rewrite A1, A2, B1, B2. split; [exists r; rewrite H1, <- app_assoc, P; reflexivity|exists q; rewrite H2, <- app_assoc, Q; reflexivity].
Qed.
Lemma era_room H d g L : rel H d g -> room L d -> room L g.
Proof. intros R. destruct (rel_given _ _ _ R) as [A _]. unfold room. rewrite A, app_length, (re_stack _ _ _ R). lia. Qed.
Lemma era_inevitable L b x deadline : era_inv L b x -> enough L b x -> in_time L deadline x -> inevitable L (fun y => (deadline < l_now y)%Z \/ all_delivered y) x.
Proof.
  intros EI EN IT. pose proof EI as [OK [TA TB] (g & Ha & Hb & I & K & E & H1 & H2 & H3 & H4 & RM)].
  assert (RR : room L (l_a g) /\ room L (l_b g)). { destruct b; [apply RM; auto|]. destruct EN as [X Y]. destruct K as [_ RA RB]. eauto using era_room. }
  assert (IG : in_time L deadline g).
  { destruct IT as (I1 & I2 & I3 & I4). destruct K as [N RA RB]. unfold in_time, unprocessed in *. rewrite N, (re_out _ _ _ RA), (re_out _ _ _ RB), (re_taken _ _ _ RA), (re_taken _ _ _ RB), (re_stack _ _ _ RA), (re_stack _ _ _ RB). auto. }
  pose proof (line_inevitable L c h OK deadline g (invx_inv _ _ I) (proj1 RR) (proj2 RR) IG) as IV. clear RM RR IG IT EN EI E.
  set (Q := fun y => (deadline < l_now y)%Z \/ all_delivered y) in *.
  assert (TL : told (l_a x) /\ told (l_b x)) by auto. clear TA TB. revert x K TL I. induction IV as [g HQ|g HE HA IH]; intros x K TL I.
  - apply iv_now. destruct K as [N RA RB]. destruct HQ as [X|(X1 & X2 & X3 & X4 & (X5 & X6) & (X7 & X8))]; [left; congruence|]. right.
    assert (PA : at_rest (l_a x)). { destruct RA as [R1 R2 R3 R4 R5 _]. destruct (masked_fields _ _ _ R2) as (M1 & M2 & M3 & _). unfold at_rest in *. rewrite <- M1, <- M2, <- M3, <- R1, <- R5. exact X1. }
    assert (PB : at_rest (l_b x)). { destruct RB as [R1 R2 R3 R4 R5 _]. destruct (masked_fields _ _ _ R2) as (M1 & M2 & M3 & _). unfold at_rest in *. rewrite <- M1, <- M2, <- M3, <- R1, <- R5. exact X2. }
    assert (EI : era_inv L true x \/ era_inv L false x).
    { right. constructor; auto. exists g, Ha, Hb. split; [exact I|]. split; [constructor; auto|]. split; [intros _; eapply rest_same; eauto; constructor; eauto|]. repeat (split; [assumption|]). discriminate. }
    destruct EI as [EI|EI]; destruct (era_rest _ _ _ EI PA PB) as (_ & Y1 & Y2 & Y3 & Y4 & _); unfold all_delivered; auto 10.
  - apply iv_next; [destruct HE as [g' S]; eapply sim_progress; eauto using invx_inv|]. intros y S.
    destruct (sim_line L c h OK _ _ _ _ _ (invx_inv _ _ I) K S) as (g' & S' & I' & K'). apply (IH g' S'); auto; [exact (told_line _ _ _ (proj1 TL) (proj2 TL) (calm_line _ _ _ S))|exact (invx_calm _ _ _ OK I S')].
Qed.
End era.

(** ** An open connection after any history *)
Lemma history_due C c s : c_role C = Initiator c -> after_history C s -> undisturbed s -> ep_state s <> BadConfiguration -> due s.
Proof.
  intros Hr (ls & t & A & R) (U1 & U2 & _) Hs. destruct (hinv_quiescent _ (hinv_run _ _ _ _ _ Hr A R) eq_refl) as (_ & AL & _).
  specialize (AL U1). cbn [fst] in AL. unfold alive in AL. unfold due. destruct (ep_state s); auto. destruct AL as [X|[_ X]]; [exact X|congruence].
Qed.
Lemma resumed_inv L c h sa sb : undisturbed sa -> undisturbed sb -> due sa -> without_session sa -> without_session sb -> invariant_of L c h (resumed sa sb).
Proof.
  intros UA UB D [A1 A2] [B1 B2]. destruct (expire_due sa D) as (s' & E & Hs & U & Hup & Hact). unfold resumed, resume_side. rewrite E. cbn [fst]. rewrite Hup, A2, B2.
  exists false, false. apply begin_inv; auto; [split; congruence|split; assumption].
Qed.
Lemma resumed_reachable L c h sa sb x : compatible L c h -> undisturbed sa -> undisturbed sb -> due sa -> without_session sa -> without_session sb -> reachable_from L (resumed sa sb) x -> invariant_of L c h x.
Proof. intros OK UA UB D WA WB R. induction R as [|x y R IH S]; [apply resumed_inv; assumption|exact (inv_step L c h OK x y IH S)]. Qed.
Lemma era_strengthen c h L (P Q : line -> Prop) : (forall y, era c h L true y -> P y -> Q y) -> forall x, inevitable L P x -> era c h L true x -> inevitable L Q x.
Proof.
  intros HPQ. fix IH 2. intros x [HP|HE HA] E.
  - apply iv_now. auto.
  - apply iv_next; [exact HE|]. intros y S. apply (IH y (HA y S)). exact (era_quiet _ _ _ _ _ E S).
Qed.
