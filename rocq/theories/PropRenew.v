(** * C52: the session is renewed over a reliable line *)
From Verif Require Import Base BaseFacts Codec CodecSpec CodecFacts Link LinkLayer Primitives Session SessionSpec SessionFacts SessionMain
  Handshake HandshakeSpec HandshakeFacts HandshakeMain HandshakePair PropHandshake Endpoint EndpointSpec PairSpec Line LineSpec LineFacts LineLive LineRuns PropLine
  Renew RenewSpec RenewFacts.

(** However often the initiator has renewed the session, and at every point of every renewal: what an
    application has read since the connection exists is the beginning of what the other one gave to its
    endpoint, byte for byte.  Missing: the applications offer no data while a session is renewed (see
    C52_busy_renewal_refuted for what happens if the initiator's does). *)
Theorem C52_prefix_partial : forall c h L renewing x, era c h L renewing x ->
  (exists r, got (l_b x) ++ r = given (l_a x)) /\ (exists r, got (l_a x) ++ r = given (l_b x)).
Proof. intros c h L b x H. exact (era_prefix c h L b x (era_invariant c h L b x H)). Qed.
Print Assumptions C52_prefix_partial.

(** When there is nothing left to do for either side, each of the two applications has read exactly what
    the other one has given to its endpoint since the connection exists; both know that the layer is
    open and were never told that it closed; both sides use a session that was begun after the last
    renewal was; and the initiator is ready to renew it: its session timer runs, and no handshake does. *)
Theorem C52_all_delivered_partial : forall c h L renewing x, era c h L renewing x -> at_rest (l_a x) -> at_rest (l_b x) ->
  (given (l_a x) = got (l_b x) /\ given (l_b x) = got (l_a x)) /\ told_open (l_a x) /\ told_open (l_b x) /\ session_since L x /\
  ep_session_timer (fst (d_conf (l_a x))) = true /\ ep_state (fst (d_conf (l_a x))) = Idle.
Proof. intros c h L b x H PA PB. destruct (era_rest c h L b x (era_invariant c h L b x H) PA PB) as (_ & H1 & H2 & H3 & H4 & H5 & H6 & H7 & _). auto 10. Qed.
Print Assumptions C52_all_delivered_partial.

(** And that is how it ends: whichever steps are made and in whichever order, the renewal completes (and
    what was offered before is delivered), unless the steps take so long that a message gets too old. *)
Theorem C52_inevitable_partial : forall c h L renewing x deadline, era c h L renewing x -> enough L renewing x -> in_time L deadline x ->
  inevitable L (fun y => (deadline < l_now y)%Z \/ all_delivered y) x.
Proof. intros c h L b x deadline H. exact (era_inevitable c h L b x deadline (era_invariant c h L b x H)). Qed.
Print Assumptions C52_inevitable_partial.

(** ** Instances *)
(** The next session, with other random numbers and another quantum key *)
Definition rx_net (n : nat) : net :=
  {| n_ca := n_ca (lx_raw n); n_cb := n_cb (lx_raw n);
     n_ia := {| ia_random := repeat 5%N 32; ia_key := Some (78%N, repeat 8%N 32) |};
     n_ans := {| ans_random := repeat 6%N 32; ans_lookup := fun id => if (id =? 78)%N then Some (repeat 8%N 32) else None |};
     n_oa := 1000000; n_ob := 77; n_delay := 4000000000; n_limit := 900; n_end := 50000000000 |}.
Definition rx_c (n : nat) : iconf := {| ic_handshake := hx_hi n; ic_limits := hx_limits; ic_nonce_trigger := 900 |}.
Lemma rx_compatible n : n < 4 -> compatible (rx_net n) (rx_c n) (hx_hr n).
Proof.
  intros Hn. constructor; unfold rx_net, rx_c; cbn [n_ca n_cb n_ia n_ans n_oa n_ob n_delay n_limit n_end lx_raw lx_net c_env c_role c_payload_size c_supports ic_handshake ic_limits ic_nonce_trigger ia_random ans_random].
  - split; reflexivity.
  - split; [exact toy_ok|reflexivity].
  - cbn; lia.
  - split; (split; [apply Nat.leb_le; vm_compute; reflexivity|lia]).
  - repeat split; auto using hx_hi_ok, hx_hr_ok, hx_limits_ok; try apply hx_limits_ok; try reflexivity; apply hx_repeat; lia.
  - split.
    + destruct n as [|[|[|n]]]; cbn [hx_hi hx_hr].
      * constructor.
      * apply conf_qkd with 78%N (repeat 8%N 32); [reflexivity|lia|reflexivity].
      * apply conf_public; [reflexivity| |]; (apply hx_takes; [constructor|vm_compute; reflexivity]).
      * apply conf_public; [reflexivity| |]; (apply hx_takes; [apply all_bytes_ok; vm_compute; reflexivity|vm_compute; reflexivity]).
    + destruct n as [|[|[|n]]]; cbn [hx_hi hx_hr dh_works]; try exact I; (repeat split); eexists; reflexivity.
  - split; [|split; reflexivity]. destruct n as [|[|[|n]]]; reflexivity.
  - split.
    + intros me md i X. change (e_prims (hx_E FRaw)) with toy in X. unfold fits. destruct n as [|[|[|[|n]]]]; [..|lia]; vm_compute in X; injection X as <- <- _; vm_compute; discriminate.
    + unfold fits. destruct n as [|[|[|[|n]]]]; [..|lia]; vm_compute; discriminate.
  - cbn; lia.
  - cbn; lia.
  - cbn; lia.
Qed.

(** What [settle] does is what the two sides have to do *)
Lemma todo_calm L C off out now d a d' : e_kind (c_env C) = FRaw -> todo d = Some a -> side_act L C off out now d a = Some d' -> side_calm L C off out now d d' now.
Proof.
  intros K T H. pose proof (side_act_ok L C off out now d a d' K H) as S. unfold todo in T. destruct (snd (d_conf d)) as [|i rest] eqn:Ei.
  - destruct (ep_busy _) eqn:E1; [injection T as <-; cbn in H; unfold idle in H; rewrite Ei, E1 in H; injection H as <-; apply sc_sent; assumption|].
    destruct (ep_open _) eqn:E2; cbn in T; [|injection T as <-; cbn in H; unfold idle in H; rewrite Ei, E2 in H; injection H as <-; apply sc_open; assumption].
    destruct (d_owed d) eqn:E3; [injection T as <-; cbn in H; unfold idle in H; rewrite Ei, E2, E3 in H; injection H as <-; apply sc_arrived; assumption|].
    destruct (ep_payload _) eqn:E4; [|discriminate]. injection T as <-. cbn in H. unfold idle in H. rewrite Ei in H. injection H as <-. apply sc_read; congruence.
  - assert (exists calls, a = ARun calls /\ (calls = [] \/ calls = [StartRx])) as (calls & -> & HC) by (destruct i; injection T as <-; eauto).
    cbn [side_act] in H. destruct (d_conf d) as [s k] eqn:Ed. cbn in Ei. subst k.
    destruct (forallb app_call calls) eqn:E1; [|discriminate]. destruct (forallb typed_call calls) eqn:E2; [|discriminate]. destruct (now <=? n_end L)%Z eqn:E3; [|discriminate].
    cbn [andb] in H. destruct (match i with IProcess _ => _ | _ => true end) eqn:E4; [|discriminate].
    destruct (exec C s i _) as [[[s' pushed] ev]| |] eqn:Ee; try discriminate.
    destruct (_ <=? n_limit L) eqn:E5; [|discriminate]. injection H as <-.
    eapply sc_run with (t1 := now) (inp := act_input L off out now d calls); [exact Ed|lia| | |exact HC|exact Ee| |apply Nat.leb_le, E5].
    + apply Z.leb_le, E3.
    + constructor; cbn; try rewrite Ed; auto.
      * split; [exact E1|]. apply Forall_forall. intros x Hx. rewrite forallb_forall in E2. apply typed_call_ok, E2, Hx.
      * intros m ->. apply Z.leb_le, E4.
    + rewrite K. clear. induction (frames ev); constructor; auto.
Qed.
Lemma settle_era c h L b fuel x : e_kind (c_env (n_ca L)) = FRaw -> e_kind (c_env (n_cb L)) = FRaw -> era c h L b x -> era c h L b (settle L fuel x).
Proof.
  intros Ka Kb. revert x. induction fuel as [|f IH]; intros x Hx; cbn [settle]; [exact Hx|].
  destruct (todo (l_a x)) as [a|] eqn:T; [|destruct (todo (l_b x)) as [a|] eqn:T'; [|exact Hx]]; (destruct (line_act L x _ a) as [y|] eqn:E; [|exact Hx]); apply IH;
    (destruct b; [apply era_quiet with x|apply era_step with x; [exact Hx|eapply line_act_ok; eauto]]; [exact Hx|]).
  - unfold line_act in E. destruct (side_act _ _ _ _ _ _ _) eqn:F; [|discriminate]. injection E as <-. apply lc_a. eapply todo_calm; eauto.
  - unfold line_act in E. destruct (side_act _ _ _ _ _ _ _) eqn:F; [|discriminate]. injection E as <-. apply lc_b. eapply todo_calm; eauto.
Qed.
Lemma then_era c h L x who a : e_kind (c_env (n_ca L)) = FRaw -> e_kind (c_env (n_cb L)) = FRaw -> era c h L false x -> era c h L false (then_act L x who a).
Proof. intros Ka Kb H. unfold then_act. destruct (line_act L x who a) eqn:E; [eapply era_step; eauto using line_act_ok|exact H]. Qed.

(** The run of C48 (handshake, data both ways), then the session is renewed, then data again *)
Definition rx_next (L : net) (x : line) : line := settle L 200 (renewing x).
Definition rx_more (L : net) (x : line) : line := settle L 200 (then_act L x true (ACall (StartTx [9; 8; 7]%N))).
Definition rx_check0 (x : line) : bool := resting (l_a x) && resting (l_b x) && ep_session_timer (fst (d_conf (l_a x))) && (l_now x =? 0)%Z.
Definition rx_check1 (x : line) : bool := resting (l_a x) && resting (l_b x).
Definition rx_check2 (x : line) : bool := resting (l_a x) && resting (l_b x) && bytes_eqb (got (l_b x)) [1; 2; 3; 4; 5; 9; 8; 7]%N && (length (d_out (l_a x)) =? 3).
Lemma rx_before n : n < 4 -> era (rx_c n) (hx_hr n) (lx_raw n) false (lx_run n).
Proof.
  intros Hn. unfold lx_run. cbv zeta. repeat first [apply settle_era; [reflexivity|reflexivity|]|apply then_era; [reflexivity|reflexivity|]]. apply era_new. apply lx_compatible, Hn.
Qed.
Definition rx_checks (L : net) (x : line) : bool := let y := rx_next L x in let z := rx_more L y in rx_check0 x && rx_check1 y && rx_check2 z.
Lemma rx_checks_all L x : rx_checks L x = true -> rx_check0 x = true /\ rx_check1 (rx_next L x) = true /\ rx_check2 (rx_more L (rx_next L x)) = true.
Proof. unfold rx_checks. cbv zeta. intros X. apply andb_prop in X as [X X3]. apply andb_prop in X as [X1 X2]. auto. Qed.
Lemma rx_checked n : n < 4 -> rx_checks (rx_net n) (lx_run n) = true.
Proof. intros Hn. destruct n as [|[|[|[|n]]]]; [..|lia]; vm_compute; reflexivity. Qed.
Lemma rx_expired c h L L' x : era c h L false x -> rx_check0 x = true -> (l_now x = 0 -> follows L x L')%Z -> compatible L' c h -> era c h L' true (renewing x).
Proof.
  unfold rx_check0. intros E X F OK. apply andb_prop in X as [X X4]. apply andb_prop in X as [X X3]. apply andb_prop in X as [X1 X2]. apply Z.eqb_eq in X4.
  apply era_expired with L; auto using resting_ok.
Qed.
Lemma rx_follows n x : l_now x = 0%Z -> follows (lx_raw n) x (rx_net n).
Proof. intros E. unfold follows. rewrite E. repeat split; reflexivity. Qed.
Lemma rx_again c h L x : era c h L true x -> rx_check1 x = true -> era c h L false x.
Proof. unfold rx_check1. intros E X. apply andb_prop in X as [X1 X2]. apply era_renewed; auto using resting_ok. Qed.
Lemma rx_next_era c h L x : e_kind (c_env (n_ca L)) = FRaw -> e_kind (c_env (n_cb L)) = FRaw -> era c h L true (renewing x) -> rx_check1 (rx_next L x) = true -> era c h L false (rx_next L x).
Proof. intros Ka Kb E X. apply rx_again; [|exact X]. unfold rx_next. apply settle_era; assumption. Qed.
Lemma rx_more_era c h L x : e_kind (c_env (n_ca L)) = FRaw -> e_kind (c_env (n_cb L)) = FRaw -> era c h L false x -> era c h L false (rx_more L x).
Proof. intros Ka Kb E. unfold rx_more. apply settle_era; auto. apply then_era; auto. Qed.
Lemma rx_during n : n < 4 -> era (rx_c n) (hx_hr n) (rx_net n) true (renewing (lx_run n)).
Proof. intros Hn. exact (rx_expired _ _ _ _ _ (rx_before n Hn) (proj1 (rx_checks_all _ _ (rx_checked n Hn))) (rx_follows n (lx_run n)) (rx_compatible n Hn)). Qed.
Lemma rx_check2_ok x : rx_check2 x = true -> at_rest (l_a x) /\ at_rest (l_b x) /\ got (l_b x) = [1; 2; 3; 4; 5; 9; 8; 7]%N /\ length (d_out (l_a x)) = 3.
Proof.
  unfold rx_check2. intros X. apply andb_prop in X as [X X4]. apply andb_prop in X as [X X3]. apply andb_prop in X as [X1 X2].
  split; [apply resting_ok, X1|]. split; [apply resting_ok, X2|]. split; [apply bytes_eqb_eq, X3|apply Nat.eqb_eq, X4].
Qed.
Example C52_instance : forall n, n < 4 -> exists x, era (rx_c n) (hx_hr n) (rx_net n) false x /\ at_rest (l_a x) /\ at_rest (l_b x) /\
  got (l_b x) = [1; 2; 3; 4; 5; 9; 8; 7]%N /\ length (d_out (l_a x)) = 3.
Proof.
  intros n Hn. exists (rx_more (rx_net n) (rx_next (rx_net n) (lx_run n))). destruct (rx_checks_all _ _ (rx_checked n Hn)) as (_ & X1 & X2).
  split; [apply rx_more_era; [reflexivity|reflexivity|]; apply rx_next_era; [reflexivity|reflexivity|exact (rx_during n Hn)|exact X1]|exact (rx_check2_ok _ X2)].
Qed.
(** From the expiry of the timer on, the renewal completes within 4 seconds or takes longer than that *)
Example C52_inevitable_instance : forall n, n < 4 -> inevitable (rx_net n) (fun y => (4000000000 < l_now y)%Z \/ all_delivered y) (renewing (lx_run n)).
Proof.
  intros n Hn. eapply C52_inevitable_partial; [apply rx_during, Hn|apply Nat.leb_le; reflexivity|].
  split; [cbn; lia|]. split; [unfold renewing; cbn [l_now]; cbn; lia|]. unfold unprocessed, renewing. cbn [l_a l_b renew_side d_out d_taken]. rewrite !skipn_nil. split; constructor.
Qed.

(** ** What is lost if the initiator's application offers data while the session is renewed *)
Fixpoint settle_side (L : net) (who : bool) (fuel : nat) (x : line) : line :=
  match fuel with 0 => x | S f => match todo (if who then l_a x else l_b x) with Some a => settle_side L who f (then_act L x who a) | None => x end end.
Fixpoint all_acts (L : net) (x : line) (l : list (bool * act)) : line := match l with [] => x | (w, a) :: r => all_acts L (then_act L x w a) r end.
Lemma settle_side_ok L x0 who fuel : e_kind (c_env (n_ca L)) = FRaw -> e_kind (c_env (n_cb L)) = FRaw -> forall x, reachable_from L x0 x -> reachable_from L x0 (settle_side L who fuel x).
Proof. intros Ka Kb. induction fuel as [|f IH]; intros x H; cbn [settle_side]; [exact H|]. destruct (todo _); [|exact H]. apply IH, then_ok; auto. Qed.
Lemma all_acts_ok L x0 l : e_kind (c_env (n_ca L)) = FRaw -> e_kind (c_env (n_cb L)) = FRaw -> forall x, reachable_from L x0 x -> reachable_from L x0 (all_acts L x l).
Proof. intros Ka Kb. induction l as [|[w a] l IH]; intros x H; cbn [all_acts]; [exact H|]. apply IH, then_ok; auto. Qed.

Definition rx_first : line := settle (lx_raw 0) 200 (new_line (lx_raw 0)).
(** The request and the reply are exchanged; the initiator authenticates the session; before the
    responder's answer arrives its application offers a byte *)
Definition rx_busy (x : line) : line :=
  let y := settle_side (rx_net 0) false 50 (settle_side (rx_net 0) true 50 (renewing x)) in
  settle (rx_net 0) 100 (all_acts (rx_net 0) y [(true, AArrived); (true, ARun []); (true, ARun []); (true, ARun []); (true, ARun []); (true, ARun []); (true, ACall (StartTx [42]%N)); (true, ARun []); (true, ARun [])]).
Definition rx_later (y : line) : line := settle (rx_net 0) 100 (then_act (rx_net 0) y true (ACall (StartTx [43]%N))).
Definition rx_check3 (x : line) : bool := resting (l_a x) && resting (l_b x) && bytes_eqb (given (l_a x)) [42]%N && bytes_eqb (got (l_b x)) [].
Definition rx_check4 (x : line) : bool := resting (l_a x) && resting (l_b x) && bytes_eqb (given (l_a x)) [42; 43]%N && bytes_eqb (got (l_b x)) [43]%N.

Definition rx_lost (x : line) : bool := let y := rx_busy x in let z := rx_later y in rx_check0 x && bytes_eqb (given (l_a x)) [] && rx_check3 y && rx_check4 z.
Lemma rx_checks_ok x y z : (rx_check0 x && bytes_eqb (given (l_a x)) [] && rx_check3 y && rx_check4 z)%bool = true ->
  (at_rest (l_a x) /\ at_rest (l_b x) /\ ep_session_timer (fst (d_conf (l_a x))) = true /\ l_now x = 0%Z /\ given (l_a x) = []) /\
  (at_rest (l_a y) /\ at_rest (l_b y) /\ given (l_a y) = [42]%N /\ got (l_b y) = []) /\
  (at_rest (l_a z) /\ at_rest (l_b z) /\ given (l_a z) = [42; 43]%N /\ got (l_b z) = [43]%N).
Proof.
  intros X. apply andb_prop in X as [X X3]. apply andb_prop in X as [X X2]. apply andb_prop in X as [X1 X0]. apply bytes_eqb_eq in X0.
  unfold rx_check0 in X1. apply andb_prop in X1 as [X1 Y4]. apply andb_prop in X1 as [X1 Y3]. apply andb_prop in X1 as [Y1 Y2]. apply Z.eqb_eq in Y4.
  unfold rx_check3 in X2. apply andb_prop in X2 as [X2 Z4]. apply andb_prop in X2 as [X2 Z3]. apply andb_prop in X2 as [Z1 Z2].
  unfold rx_check4 in X3. apply andb_prop in X3 as [X3 W4]. apply andb_prop in X3 as [X3 W3]. apply andb_prop in X3 as [W1 W2].
  apply bytes_eqb_eq in Z3, Z4, W3, W4. repeat split; auto; apply resting_ok; assumption.
Qed.
Lemma rx_first_era : era (rx_c 0) (hx_hr 0) (lx_raw 0) false rx_first.
Proof. unfold rx_first. apply settle_era; [reflexivity|reflexivity|]. apply era_new. exact (lx_compatible FRaw FRaw 0 (Nat.lt_0_succ 3)). Qed.
Lemma rx_busy_reachable x : reachable_from (rx_net 0) (renewing x) (rx_busy x).
Proof. unfold rx_busy. cbv zeta. apply settle_ok; [reflexivity|reflexivity|]. apply all_acts_ok; [reflexivity|reflexivity|]. apply settle_side_ok; [reflexivity|reflexivity|]. apply settle_side_ok; [reflexivity|reflexivity|]. constructor. Qed.
Lemma rx_later_reachable x : reachable_from (rx_net 0) (renewing x) (rx_later (rx_busy x)).
Proof. unfold rx_later. apply settle_ok; [reflexivity|reflexivity|]. apply then_ok; [reflexivity|reflexivity|]. apply rx_busy_reachable. Qed.
Lemma rx_facts : rx_lost rx_first = true.
Proof. vm_compute. reflexivity. Qed.
Lemma rx_lost_ok x : rx_lost x = true -> (rx_check0 x && bytes_eqb (given (l_a x)) [] && rx_check3 (rx_busy x) && rx_check4 (rx_later (rx_busy x)))%bool = true.
Proof. intros H. exact H. Qed.

(** The data is accepted and lost, though the line loses nothing: the initiator sends it under the old
    session (it uses the new one only when the responder has authenticated it), the responder uses the
    new session since the authentication message and takes it for a message that was modified.  There is
    nothing left to do for either side and both applications know that the layer is open.  Later data arrives. *)
Theorem C52_busy_renewal_refuted : exists c h L x L' y z,
  era c h L false x /\ at_rest (l_a x) /\ at_rest (l_b x) /\ ep_session_timer (fst (d_conf (l_a x))) = true /\ follows L x L' /\ compatible L' c h /\
  given (l_a x) = [] /\
  reachable_from L' (renewing x) y /\ at_rest (l_a y) /\ at_rest (l_b y) /\ given (l_a y) = [42]%N /\ got (l_b y) = [] /\
  reachable_from L' (renewing x) z /\ at_rest (l_a z) /\ at_rest (l_b z) /\ given (l_a z) = [42; 43]%N /\ got (l_b z) = [43]%N.
Proof.
  exists (rx_c 0), (hx_hr 0), (lx_raw 0), rx_first, (rx_net 0), (rx_busy rx_first), (rx_later (rx_busy rx_first)).
  destruct (rx_checks_ok _ _ _ (rx_lost_ok _ rx_facts)) as ((X1 & X2 & X3 & X4 & X5) & (Y1 & Y2 & Y3 & Y4) & Z1 & Z2 & Z3 & Z4).
  split; [exact rx_first_era|]. split; [exact X1|]. split; [exact X2|]. split; [exact X3|]. split; [exact (rx_follows 0 rx_first X4)|]. split; [exact (rx_compatible 0 (Nat.lt_0_succ 3))|]. split; [exact X5|].
  split; [exact (rx_busy_reachable _)|]. split; [exact Y1|]. split; [exact Y2|]. split; [exact Y3|]. split; [exact Y4|].
  split; [exact (rx_later_reachable _)|]. split; [exact Z1|]. split; [exact Z2|]. split; [exact Z3|exact Z4].
Qed.
Print Assumptions C52_busy_renewal_refuted.
