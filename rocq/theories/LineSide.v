(** * LineSide: one side of a reliable line, with the messages that wait for it *)
From Verif Require Import Base BaseFacts Codec CodecSpec CodecFacts Link LinkLayer Primitives Session SessionSpec SessionFacts SessionMain
  Handshake HandshakeSpec HandshakeFacts HandshakeMain HandshakePair Endpoint EndpointSpec EndpointFacts EndpointMain EndpointRx EndpointTx EndpointNonce PairSpec Line LineSpec LineMsgs LineHandshake LineLocal.

Definition at_head (k : list instr) : nat := match k with IProcess _ :: _ => 1 | _ => 0 end.
(** The messages a side has finished with *)
Definition processed (d : side) : nat := d_taken d - at_head (snd (d_conf d)).
Lemma no_process_head k : no_process k -> at_head k = 0.
Proof. destruct k as [|[] ?]; cbn; tauto. Qed.

Record side_ok (est : bool) (d : side) (out : list (Z * list N)) (cs : list (list N)) : Prop := {
  sk_local : local est (fst (d_conf d)) (snd (d_conf d)) (d_trace d);
  sk_wake : wake (waiting out d <> []) (d_owed d) (fst (d_conf d)) (snd (d_conf d));
  sk_taken : d_taken d <= length out;
  sk_head : forall m rest, snd (d_conf d) = IProcess m :: rest -> 0 < d_taken d /\ exists x, nth_error out (pred (d_taken d)) = Some x /\ snd x = m;
  sk_acc : accepted (d_trace d) = firstn (pred (processed d)) cs;
  sk_open : est = true -> ep_open (fst (d_conf d)) = true }.

Lemma skipn_cons_nth {A} (l : list A) n x r : skipn n l = x :: r -> nth_error l n = Some x /\ n < length l.
Proof.
  intros H. split.
  - rewrite <- (firstn_skipn n l), H at 1. assert (length (firstn n l) = n). { rewrite firstn_length. assert (n < length l); [|lia]. destruct (Nat.lt_ge_cases n (length l)); auto. rewrite skipn_all2 in H by lia. discriminate. }
    rewrite nth_error_app2 by lia. rewrite H0, Nat.sub_diag. reflexivity.
  - destruct (Nat.lt_ge_cases n (length l)); auto. rewrite skipn_all2 in H by lia. discriminate.
Qed.

Definition stepped (d : side) (s' : endpoint) (k' : list instr) (ev : list event) (ms : list (Z * list N)) : side :=
  {| d_conf := (s', k'); d_trace := d_trace d ++ ev; d_out := d_out d ++ ms; d_taken := d_taken d + takes ev; d_owed := d_owed d |}.

Record side_quiet (est : bool) (d d' : side) (out : list (Z * list N)) (cs : list (list N)) (ev : list event) : Prop := {
  sq_ok : side_ok est d' out cs;
  sq_core : same_core est (fst (d_conf d)) (fst (d_conf d'));
  sq_frames : frames ev = [];
  sq_chunks : chunks ev = [];
  sq_opened : ep_open (fst (d_conf d')) = ep_open (fst (d_conf d));
  sq_processed : processed d' = processed d;
  sq_busy : ep_busy (fst (d_conf d)) = false -> ep_busy (fst (d_conf d')) = false }.

Lemma waiting_more out d n d' : d_taken d' = d_taken d + n -> waiting out d' <> [] -> waiting out d <> [].
Proof. unfold waiting. intros H X Y. apply X. rewrite H. assert (length out <= d_taken d). { destruct (Nat.le_gt_cases (length out) (d_taken d)); auto. apply (f_equal (@length _)) in Y. rewrite skipn_length in Y. cbn in Y. lia. } apply skipn_all2. lia. Qed.

Lemma finish_quiet est d s rest out cs s' pushed ev i : side_ok est d out cs -> d_conf d = (s, i :: rest) -> at_head (i :: rest) = 0 ->
  quiet est s rest (d_trace d) s' pushed ev (waiting out (stepped d s' (pushed ++ rest) ev []) <> []) (d_owed d) ->
  side_quiet est d (stepped d s' (pushed ++ rest) ev []) out cs ev.
Proof.
  intros HS Hd Hi (Q & Q1 & Q2 & Q3 & Q4). destruct HS. destruct Q. unfold processed in *. rewrite Hd in *. cbn [fst snd] in *.
  constructor; cbn [stepped d_conf fst snd d_taken]; auto; [constructor; cbn [stepped d_conf fst snd d_taken d_trace d_owed]; auto| | | |].
  - lia.
  - intros m r X. unfold no_process in Q3. rewrite X in Q3. destruct Q3.
  - unfold processed. cbn [stepped d_conf fst snd d_taken]. rewrite (proj2 (proj2 (proj2 (traces_app _ _)))), qr_accepted, app_nil_r, sk_acc0, Q2, Hi, (no_process_head _ Q3), Nat.add_0_r. reflexivity.
  - rewrite Q1. exact sk_open0.
  - rewrite Hd. exact qr_core.
  - rewrite Hd. exact Q1.
  - unfold processed. rewrite Hd. cbn [stepped d_conf fst snd d_taken]. rewrite Q2, Hi, (no_process_head _ Q3). lia.
  - rewrite Hd. exact Q4.
Qed.

Lemma stack_head est s i rest : stack_ok est s (i :: rest) -> fine est i \/ (exists m, i = IProcess m) \/
  (rest = [] /\ ((i = ICall LowerOpen /\ ep_open s = false) \/ (i = ICall LowerTxReady /\ ep_busy s = true) \/ (i = ICall LowerRxReady /\ ep_open s = true) \/ (i = IHandshakeRequired /\ ep_open s = true /\ est = false /\ ep_state s = Idle))).
Proof.
  intros [H|[(m & r & H & _)|[[H X]|[[H X]|[[H X]|[H X]]]]]].
  - inversion H; auto.
  - injection H as -> ->. right; left; eauto.
  - injection H as -> ->. right; right. auto 10.
  - injection H as -> ->. right; right. auto 10.
  - injection H as -> ->. right; right. auto 10.
  - injection H as -> ->. right; right. auto 10.
Qed.

Lemma side_run L C off out d s i rest inp t1 t2 s' pushed ev est cs : side_ok est d out cs -> d_conf d = (s, i :: rest) -> answers_step L off out d i inp t1 t2 ->
  exec C s i inp = Ok (s', pushed, ev) -> (forall x, In x out -> snd x <> []) ->
  (forall c, c_role C = Initiator c -> i = INonceChange -> est = true -> (N.max (s_tx_nonce (ep_active s)) (s_rx_nonce (ep_active s)) < ic_nonce_trigger c)%N) ->
  (est = false -> s_valid (ep_active s) = false) -> (forall m, i <> IProcess m) -> i <> IHandshakeRequired -> i <> ICall LowerOpen ->
  (i = ICheckTransmit -> ep_busy s = true \/ ep_transmitting s = true \/ ep_remainder s = [] \/ est = false) ->
  side_quiet est d (stepped d s' (pushed ++ rest) ev []) out cs ev.
Proof.
  intros HS Hd HA HX Hne Hnt Hv N1 N2 N3 Hck. destruct (HS) as [HL HW HT HH HAc HO]. rewrite Hd in HL, HW, HO. cbn [fst snd] in HL, HW, HO.
  destruct HA as [A1 A2 A3 [A4 A5] A6 A7 A8]. rewrite Hd in A1, A2, A3. cbn [fst] in A1, A2, A3.
  assert (W : forall k', waiting out (stepped d s' k' ev []) <> [] -> waiting out d <> []) by (intros k'; apply (waiting_more _ _ (takes ev)); reflexivity).
  pose proof (stack_head _ _ _ _ (lc_stack _ _ _ _ HL)) as Hi.
  assert (Huo : ep_up s = true -> ep_open s = true) by (intros U; destruct est; [auto|pose proof (lc_up _ _ _ _ HL); congruence]).
  destruct Hi as [F|[[m ->]|[-> Hi]]]; [| |].
  - assert (N4 : at_head (i :: rest) = 0) by (destruct i; cbn in F; tauto || reflexivity).
    destruct i as [c0| | | | | | | | | | |p|h0|]; cbn in F; try contradiction.
    + destruct c0; try contradiction; eapply finish_quiet; eauto; [eapply quiet_start_tx; eauto|eapply quiet_start_rx; eauto].
    + destruct (quiet_try C est s rest (d_trace d) inp s' pushed ev (waiting out d <> []) (waiting out (stepped d s' (pushed ++ rest) ev []) <> []) (d_owed d) HX HL HW A1 (W _)) as (Q & Q1 & Q2).
      * intros Ho. rewrite Ho in A3. exact A3.
      * intros Ho Hm. rewrite Ho in A3. rewrite A3 in Hm. destruct (waiting out d) as [|[z m] r] eqn:Ew; [congruence|]. exfalso. apply (Hne (z, m)); [|exact Hm].
        unfold waiting in Ew. rewrite <- (firstn_skipn (d_taken d) out), Ew. apply in_or_app. right. apply in_eq.
      * destruct Q2 as [[Q2 Q3]|(Q2 & Q3 & Q4 & r & Q5)].
        { eapply finish_quiet; eauto. split; [exact Q|]. split; [exact Q1|]. split; [exact Q2|]. split; [exact Q3|].
          intros B. clear - HX B A1. cbn [exec] in HX. unfold try_read_one, asked in HX. rewrite A1, B in HX. cbn [negb] in HX. ocases HX; eps; rewrite ?A1, ?B; reflexivity. }
        rewrite Q4 in A3. destruct (waiting out d) as [|[z m] r0] eqn:Ew.
        { exfalso. clear - HX A3 Q2. exec_cases HX; try congruence; try discriminate Q2. }
        destruct (skipn_cons_nth _ _ _ _ Ew) as [K1 K2]. destruct Q.
        constructor; cbn [stepped d_conf fst snd d_taken]; auto; [constructor; cbn [stepped d_conf fst snd d_taken d_trace d_owed]; auto| | | |].
        -- lia.
        -- intros m0 r1 X. rewrite Q5 in X. cbn [app] in X. injection X as X _. split; [lia|]. exists (z, m). rewrite Q2. replace (pred (d_taken d + 1)) with (d_taken d) by lia. split; [exact K1|]. cbn. congruence.
        -- unfold processed in *. rewrite Hd in HAc. cbn [stepped d_conf fst snd d_taken at_head] in *. rewrite (proj2 (proj2 (proj2 (traces_app _ _)))), qr_accepted, app_nil_r, HAc, Q2, Q5. cbn [app at_head]. f_equal. lia.
        -- rewrite Q1. exact HO.
        -- rewrite Hd. exact qr_core.
        -- rewrite Hd. exact Q1.
        -- unfold processed. rewrite Hd. cbn [stepped d_conf fst snd d_taken at_head]. rewrite Q2, Q5. cbn [app at_head]. lia.
        -- rewrite Hd. cbn [fst]. intros B. clear - HX B A1. cbn [exec] in HX. unfold try_read_one, asked in HX. rewrite A1, B in HX. cbn [negb] in HX. ocases HX; eps; rewrite ?A1, ?B; reflexivity.
    + eapply finish_quiet; eauto; [eapply quiet_check; eauto].
    + eapply finish_quiet; eauto; [eapply quiet_up_open; eauto].
    + eapply finish_quiet; eauto; [eapply quiet_up_ready; eauto].
    + eapply finish_quiet; eauto; [eapply quiet_up_ready; eauto].
    + eapply finish_quiet; eauto; [eapply quiet_misc; eauto].
    + eapply finish_quiet; eauto; [eapply quiet_misc; eauto; intros; congruence].
    + destruct p; [contradiction|]. eapply finish_quiet; eauto; [eapply quiet_misc; eauto; intros; congruence].
    + destruct h0; try contradiction. eapply finish_quiet; eauto; [eapply quiet_misc; eauto 6; intros; congruence].
  - destruct (N1 m eq_refl).
  - destruct Hi as [[-> _]|[[-> Hb]|[[-> Ho]|[-> _]]]]; try congruence.
    + eapply finish_quiet; eauto. eapply quiet_tx_ready; eauto.
    + eapply finish_quiet; eauto. eapply quiet_rx_ready; eauto.
Qed.

(** ** A call enters *)
Lemma side_call est d out cs c owed : side_ok est d out cs -> snd (d_conf d) = [] ->
  (app_call c = true /\ call_typed c /\ owed = d_owed d) \/ (c = LowerOpen /\ ep_open (fst (d_conf d)) = false /\ owed = d_owed d) \/
  (c = LowerTxReady /\ ep_busy (fst (d_conf d)) = true /\ owed = d_owed d) \/ (c = LowerRxReady /\ ep_open (fst (d_conf d)) = true) ->
  side_ok est (call_in d c owed) out cs /\ processed (call_in d c owed) = processed d.
Proof.
  intros HS Hk Hc. destruct HS as [HL HW HT HH HA HO]. rewrite Hk in *.
  assert (Hp : processed (call_in d c owed) = processed d) by (unfold processed; rewrite Hk; reflexivity). split; [|exact Hp]. constructor; rewrite ?Hp; cbn [call_in d_conf fst snd d_trace d_taken d_owed]; auto.
  - pose proof (lc_up _ _ _ _ HL) as U1. pose proof (lc_rem _ _ _ _ HL) as U2. destruct HL. constructor; auto.
    + destruct Hc as [(H1 & H2 & _)|[(-> & H1 & _)|[(-> & H1 & _)|(-> & H1)]]].
      * left. constructor; [|constructor]. destruct c; cbn in *; auto; discriminate.
      * right; right; left. auto.
      * right; right; right; left. auto.
      * right; right; right; right; left. auto.
    + destruct est; auto. destruct U1 as [?|[]]; auto.
    + intros X. destruct (U2 X) as [?|[]]; auto.
  - intros W. change (waiting out (call_in d c owed)) with (waiting out d) in W. specialize (HW W). destruct (ep_open (fst (d_conf d))) eqn:Ho.
    + destruct HW as [H|[H|[H|[[]|[]]]]]; auto. destruct Hc as [(_ & _ & ->)|[(_ & _ & ->)|[(_ & _ & ->)|(-> & _)]]]; auto. right; right; right; right. cbn; auto.
    + destruct Hc as [(_ & _ & ->)|[(_ & _ & ->)|[(_ & _ & ->)|(_ & X)]]]; auto. discriminate.
  - intros m rest X. discriminate.
Qed.

(** ** The other side sends *)
Lemma side_grow est d out cs more mcs : side_ok est d out cs -> length cs = pred (length out) -> side_ok est (informed out (out ++ more) d) (out ++ more) (cs ++ mcs) /\ processed (informed out (out ++ more) d) = processed d.
Proof.
  intros [HL HW HT HH HA HO] Hl. split; [|reflexivity]. constructor; cbn [informed d_conf fst snd d_trace d_taken d_owed]; auto.
  - destruct more as [|x more].
    + rewrite app_nil_r, Nat.eqb_refl, orb_false_r. exact HW.
    + intros _. replace (length out =? length (out ++ x :: more)) with false by (symmetry; apply Nat.eqb_neq; rewrite app_length; cbn; lia). rewrite orb_true_r. destruct (ep_open (fst (d_conf d))); auto.
  - rewrite app_length. lia.
  - intros m rest X. destruct (HH m rest X) as (H1 & x & H2 & H3). split; [exact H1|]. exists x. split; [|exact H3]. rewrite nth_error_app1; [exact H2|]. apply nth_error_Some. congruence.
  - change (processed (informed out (out ++ more) d)) with (processed d). rewrite HA, firstn_app. unfold processed. replace (pred (d_taken d - at_head (snd (d_conf d))) - length cs) with 0 by lia. cbn [firstn]. rewrite app_nil_r. reflexivity.
Qed.
Lemma side_grow0 est d out cs : side_ok est d out cs -> side_ok est (informed out out d) out cs /\ processed (informed out out d) = processed d.
Proof.
  intros [HL HW HT HH HA HO]. split; [|reflexivity]. constructor; cbn [informed d_conf fst snd d_trace d_taken d_owed]; auto. rewrite Nat.eqb_refl, orb_false_r. exact HW.
Qed.

(** ** A message was processed *)
Lemma firstn_snoc {A} (l : list A) n x : nth_error l n = Some x -> firstn (S n) l = firstn n l ++ [x].
Proof. revert n; induction l as [|a l IH]; intros [|n] H; cbn in *; try discriminate; [congruence|]. rewrite (IH n H). reflexivity. Qed.

Lemma side_process est est' d s m rest out cs s' pushed ev ms : side_ok est d out cs -> d_conf d = (s, IProcess m :: rest) ->
  local est' s' (pushed ++ rest) (d_trace d ++ ev) -> wake (waiting out d <> []) (d_owed d) s' (pushed ++ rest) -> takes ev = 0 -> Forall (fine est') pushed -> (est' = true -> ep_open s' = true) ->
  (accepted ev = [] /\ processed d = 0) \/ (exists ck, accepted ev = [ck] /\ 0 < processed d /\ nth_error cs (pred (processed d)) = Some ck) ->
  side_ok est' (stepped d s' (pushed ++ rest) ev ms) out cs /\ processed (stepped d s' (pushed ++ rest) ev ms) = S (processed d).
Proof.
  intros [HL HW HT HH HA HO] Hd HL' HW' Ht HF HO' Hacc. rewrite Hd in *. cbn [fst snd] in *. destruct (HH m rest eq_refl) as (Hpos & _).
  assert (Hn : no_process (pushed ++ rest)). { pose proof (stack_fine _ _ _ _ (lc_stack _ _ _ _ HL)) as X. apply (fine_no_process true). apply Forall_app. split; [destruct est'; [exact HF|eapply Forall_impl; [apply fine_mono|exact HF]]|]. destruct est; [exact X|eapply Forall_impl; [apply fine_mono|exact X]]. }
  assert (Hp : processed (stepped d s' (pushed ++ rest) ev ms) = S (processed d)).
  { unfold processed. rewrite Hd. cbn [stepped d_taken d_conf snd at_head]. rewrite Ht, (no_process_head _ Hn). lia. }
  split; [|exact Hp]. constructor; rewrite ?Hp; cbn [stepped d_conf fst snd d_trace d_taken d_owed]; auto.
  - unfold waiting in *. cbn [stepped d_taken]. rewrite Ht, Nat.add_0_r. exact HW'.
  - lia.
  - intros m0 r X. unfold no_process in Hn. rewrite X in Hn. destruct Hn.
  - rewrite (proj2 (proj2 (proj2 (traces_app _ _)))), HA. cbn [pred]. destruct Hacc as [[A1 A2]|(ck & A1 & A2 & A3)].
    + rewrite A1, A2, app_nil_r. reflexivity.
    + rewrite A1, <- (firstn_snoc _ _ _ A3). f_equal. lia.
Qed.

(** ** A step that does not process a message *)
Lemma side_send est d s i rest out cs s' pushed ev ms : side_ok est d out cs -> d_conf d = (s, i :: rest) -> (forall m, i <> IProcess m) ->
  local est s' (pushed ++ rest) (d_trace d ++ ev) -> wake (waiting out d <> []) (d_owed d) s' (pushed ++ rest) -> takes ev = 0 -> Forall (fine est) pushed -> (est = true -> ep_open s' = true) ->
  accepted ev = [] ->
  side_ok est (stepped d s' (pushed ++ rest) ev ms) out cs /\ processed (stepped d s' (pushed ++ rest) ev ms) = processed d.
Proof.
  intros [HL HW HT HH HA HO] Hd Hi HL' HW' Ht HF HO' Hacc. rewrite Hd in *. cbn [fst snd] in *.
  assert (Hn : no_process (pushed ++ rest)). { pose proof (stack_fine _ _ _ _ (lc_stack _ _ _ _ HL)) as X. apply (fine_no_process est). apply Forall_app. auto. }
  assert (Hp : processed (stepped d s' (pushed ++ rest) ev ms) = processed d).
  { unfold processed. rewrite Hd. cbn [stepped d_taken d_conf snd]. rewrite Ht, (no_process_head _ Hn). destruct i; cbn [at_head]; try lia. destruct (Hi message eq_refl). }
  split; [|exact Hp]. constructor; rewrite ?Hp; cbn [stepped d_conf fst snd d_trace d_taken d_owed]; auto.
  - unfold waiting in *. cbn [stepped d_taken]. rewrite Ht, Nat.add_0_r. exact HW'.
  - lia.
  - intros m0 r X. unfold no_process in Hn. rewrite X in Hn. destruct Hn.
  - rewrite (proj2 (proj2 (proj2 (traces_app _ _)))), HA, Hacc, app_nil_r. reflexivity.
Qed.
