(** * LinkLayerFacts: proofs about the link layer *)
From Verif Require Import Base BaseFacts Crc CrcFacts CrcMain Codec Link LinkSpec LinkFacts LinkMain LinkLayer LinkLayerSpec.
Ltac Zify.zify_post_hook ::= Z.div_mod_to_equations.
Opaque crc32.

Definition psc (p : link_parser) : pstate * context := (lp_state p, lp_context p).
Lemma mkp_psc p : mkp (psc p) = p. Proof. destruct p; reflexivity. Qed.

Lemma crun_app r a : forall sc b, is_wait_read (fst (fst (crun r sc a))) = false ->
  crun r sc (a ++ b) = crun r (fst (crun r sc a)) b.
Proof.
  induction a as [|x a IH]; intros sc b H; [rewrite crun_nil; reflexivity|].
  cbn [app crun] in *. destruct (is_wait_read (fst sc)) eqn:E; [cbn [fst] in H; congruence|]. apply IH. exact H.
Qed.
Lemma crun_used r a : forall sc, is_wait_read (fst sc) = false -> exists used,
  a = used ++ snd (crun r sc a) /\ crun r sc used = (fst (crun r sc a), []).
Proof.
  induction a as [|x a IH]; intros sc H; [exists []; rewrite crun_nil; auto|].
  cbn [crun]. rewrite H. destruct (is_wait_read (fst (cstep_with r sc x))) eqn:E.
  - exists [x]. cbn [crun]. rewrite H. destruct (cstep_with r sc x) as [s c]. rewrite crun_read by exact E.
    split; [reflexivity|]. rewrite E. reflexivity.
  - destruct (IH _ E) as (u & E1 & E2). exists (x :: u). cbn [app crun]. rewrite H. split; [f_equal; exact E1|exact E2].
Qed.

(** What get_frame does: it runs the parser over a prefix of the bytes available. *)
Record gf_rel (l l' : link_layer) : Prop := {
  gf_local : ll_local l' = ll_local l; gf_remote : ll_remote l' = ll_remote l;
  gf_open : ll_open l' = ll_open l; gf_proc : ll_processing l' = ll_processing l;
  gf_used : exists used, ll_remainder l ++ concat (ll_rx_queue l) = used ++ ll_remainder l' ++ concat (ll_rx_queue l') /\
    crun retry1 (psc (ll_parser l)) used = (psc (ll_parser l'), []);
  gf_all : Forall (fun ch => ch <> []) (ll_rx_queue l) -> has_result (ll_parser l') = false ->
    ll_remainder l' = [] /\ ll_rx_queue l' = [];
  gf_ne : Forall (fun ch => ch <> []) (ll_rx_queue l) -> Forall (fun ch => ch <> []) (ll_rx_queue l')
}.

Lemma read_loop_spec : forall k l, cinv (lp_state (ll_parser l)) (lp_context (ll_parser l)) ->
  has_result (ll_parser l) = false ->
  2 * length (ll_rx_queue l) + match ll_remainder l with [] => 1 | _ => 2 end <= k ->
  exists l', read_loop k l = Ok l' /\ gf_rel l l'.
Proof.
  induction k as [|k IH]; intros l Hi Hr Hk; [destruct (ll_remainder l); lia|].
  cbn [read_loop]. unfold read_frame_one_iteration.
  destruct (ll_remainder l) as [|b rem] eqn:Er.
  - destruct (ll_rx_queue l) as [|ch q] eqn:Eq; cbn [obind].
    + exists l. split; [reflexivity|]. constructor; auto.
      exists []. split; [reflexivity|]. rewrite crun_nil. reflexivity.
    + destruct ch as [|x ch]; cbn [length Nat.eqb negb].
      * eexists. split; [reflexivity|]. constructor; cbn [set_rx ll_local ll_remote ll_open ll_processing ll_remainder ll_parser ll_rx_queue]; auto.
        -- exists []. rewrite Er, Eq. cbn [app concat]. split; [reflexivity|]. rewrite crun_nil. reflexivity.
        -- rewrite Eq. intros H. inversion H; congruence.
        -- rewrite Eq. intros H. inversion H; assumption.
      * destruct (IH (set_rx l (x :: ch) (ll_parser l) q)) as (l' & E & G); cbn [set_rx ll_remainder ll_parser ll_rx_queue length] in *; auto; try lia.
        exists l'. split; [exact E|]. destruct G as [G1 G2 G3 G4 G5 G6 G7].
        cbn [set_rx ll_local ll_remote ll_open ll_processing ll_remainder ll_parser ll_rx_queue] in *.
        constructor; auto.
        -- rewrite Er, Eq. exact G5.
        -- rewrite Eq. intros H. inversion H. auto.
        -- rewrite Eq. intros H. inversion H. auto.
  - rewrite <- Er in *. rewrite (link_parse_spec (ll_parser l) (ll_remainder l) Hi). cbn [obind].
    change (lp_state (ll_parser l), lp_context (ll_parser l)) with (psc (ll_parser l)).
    destruct (crun_used retry1 (ll_remainder l) (psc (ll_parser l)) Hr) as (used & E1 & E2).
    destruct (crun_rest retry1 (ll_remainder l) (psc (ll_parser l)) Hr) as (C1 & C2 & _).
    pose proof (crun_inv retry1 good_retry1 (ll_remainder l) _ _ Hi) as Hi'.
    change (lp_state (ll_parser l), lp_context (ll_parser l)) with (psc (ll_parser l)) in Hi'.
    destruct (crun retry1 (psc (ll_parser l)) (ll_remainder l)) as [[s' c'] rest]. cbn [fst snd] in *.
    destruct (is_wait_read s') eqn:Es; cbn [negb].
    + eexists. split; [reflexivity|]. constructor; cbn [set_rx ll_local ll_remote ll_open ll_processing ll_remainder ll_parser ll_rx_queue]; auto.
      * exists used. split; [rewrite app_assoc; f_equal; exact E1|]. rewrite E2. reflexivity.
      * unfold has_result. cbn [mkp lp_state fst]. congruence.
    + specialize (C1 eq_refl). subst rest. rewrite app_nil_r in E1.
      destruct (IH (set_rx l [] (mkp (s', c')) (ll_rx_queue l))) as (l' & E & G).
      { exact Hi'. }
      { exact Es. }
      { cbn [set_rx ll_remainder ll_rx_queue]. lia. }
      exists l'. split; [exact E|]. destruct G as [G1 G2 G3 G4 G5 G6 G7].
      cbn [set_rx ll_local ll_remote ll_open ll_processing ll_remainder ll_parser ll_rx_queue] in *.
      constructor; auto. destruct G5 as (u2 & U1 & U2). cbn [app] in U1.
      exists (used ++ u2). split; [rewrite E1, U1; now rewrite app_assoc|].
      rewrite crun_app; [|rewrite E2; exact Es]. rewrite E2. cbn [fst]. exact U2.
Qed.

Lemma get_frame_spec l : cinv (lp_state (ll_parser l)) (lp_context (ll_parser l)) ->
  exists l', get_frame l = Ok (has_result (ll_parser l'), l') /\ gf_rel l l'.
Proof.
  intros Hi. unfold get_frame. destruct (has_result (ll_parser l)) eqn:Hr.
  - exists l. rewrite Hr. split; [reflexivity|]. constructor; auto; [|congruence].
    exists []. split; [reflexivity|]. rewrite crun_nil. reflexivity.
  - destruct (read_loop_spec (2 * length (ll_rx_queue l) + 3) l Hi Hr) as (l' & E & G); [destruct (ll_remainder l); lia|].
    rewrite E. cbn [obind]. eauto.
Qed.

(** ** C07: the invariant *)

Definition LI (local : N) (arr : list N) (gs : list frame) (l : link_layer) : Prop :=
  ll_local l = local /\ pinv (lp_state (ll_parser l)) (lp_context (ll_parser l)) /\
  max_payload_length (lp_context (ll_parser l)) = 4092%N /\
  bytes_ok (ll_remainder l ++ concat (ll_rx_queue l)) /\
  exists A B, arr = A ++ B ++ ll_remainder l ++ concat (ll_rx_queue l) /\ frames_in 4092 gs A /\
    ((ll_processing l = true /\ has_result (ll_parser l) = true) \/
     exists g, B = g ++ pend (lp_state (ll_parser l)) (lp_context (ll_parser l))).

Lemma pinv_idle s c : pinv s c -> pinv wait_sync1 c.
Proof. intros H. split; [apply (cinv_sync1 s); apply H|split; [constructor|exact I]]. Qed.

Lemma LI_get_frame local arr gs l l' : LI local arr gs l -> gf_rel l l' -> LI local arr gs l'.
Proof.
  intros (L1 & L2 & L3 & L4 & A & B & L5 & L6 & L7) [G1 G2 G3 G4 (used & U1 & U2) _ _].
  assert (Hok : bytes_ok used) by (rewrite U1 in L4; apply bytes_ok_app in L4; tauto).
  destruct (crun_pinv retry1 suffix_retry1 good_retry1 used _ _ L2 Hok) as (P1 & P2 & P3 & u & P4 & g & P5).
  change (lp_state (ll_parser l), lp_context (ll_parser l)) with (psc (ll_parser l)) in *. rewrite U2 in *.
  cbn [psc fst snd] in *. rewrite app_nil_r in P4. subst u.
  split; [congruence|]. split; [exact P1|]. split; [congruence|].
  split; [rewrite U1 in L4; apply bytes_ok_app in L4; tauto|].
  exists A, (B ++ used). split; [rewrite L5, U1; now rewrite <- !app_assoc|]. split; [exact L6|].
  destruct L7 as [[L7 L8]|[g' L7]].
  - left. rewrite G4. split; [exact L7|]. unfold has_result in *.
    change (psc (ll_parser l)) with (lp_state (ll_parser l), lp_context (ll_parser l)) in U2.
    rewrite crun_read in U2 by exact L8. injection U2 as Es _ _. rewrite <- Es. exact L8.
  - right. exists (g' ++ g). rewrite L7, <- !app_assoc. f_equal. exact P5.
Qed.

Lemma frames_in_app max gs A : frames_in max gs A -> forall w, frames_in max gs (A ++ w).
Proof.
  induction 1 as [w0|f fs gap w0 Hf Hfs IH]; intros w; [constructor|].
  rewrite <- !app_assoc. constructor; [exact Hf|]. apply IH.
Qed.
Lemma frames_in_snoc max gs A : frames_in max gs A -> forall f g, frame_ok max f ->
  frames_in max (gs ++ [f]) (A ++ g ++ frame_bytes f).
Proof.
  induction 1 as [w0|f0 fs gap w0 Hf Hfs IH]; intros f g Hok.
  - cbn [app]. rewrite app_assoc. rewrite <- (app_nil_r (frame_bytes f)). constructor; [exact Hok|constructor].
  - cbn [app]. rewrite <- !app_assoc. constructor; [exact Hf|]. apply IH. exact Hok.
Qed.

Lemma LI_discard local arr gs l b : LI local arr gs l -> LI local arr gs (set_processing (ll_discard l) b).
Proof.
  intros (L1 & L2 & L3 & L4 & A & B & L5 & L6 & L7). unfold ll_discard, set_processing, set_rx.
  cbn. split; [exact L1|]. split; [apply (pinv_idle (lp_state (ll_parser l))); exact L2|]. split; [exact L3|].
  split; [exact L4|]. exists A, B. split; [exact L5|]. split; [exact L6|]. right. exists B. cbn. now rewrite app_nil_r.
Qed.
Lemma LI_idle_flag local arr gs l : LI local arr gs l -> ll_processing l = false ->
  has_result (ll_parser l) = true -> exists A g, arr = A ++ g ++ frame_bytes (rd (lp_context (ll_parser l))) ++
     ll_remainder l ++ concat (ll_rx_queue l) /\ frames_in 4092 gs A /\ frame_ok 4092 (rd (lp_context (ll_parser l))).
Proof.
  intros (L1 & L2 & L3 & L4 & A & B & L5 & L6 & L7) Hf Hr. unfold has_result in Hr.
  destruct L7 as [[L7 _]|[g L7]]; [congruence|].
  destruct (lp_state (ll_parser l)) as [| | | |n]; try discriminate.
  destruct L2 as (_ & _ & _ & Q & Qok). rewrite Q in L7. rewrite L3 in Qok.
  exists A, g. rewrite L5, L7. rewrite <- !app_assoc. auto.
Qed.

Lemma ll_start_rx_spec local arr gs l : LI local arr gs l ->
  exists l' ret, ll_start_rx l = Ok (ret, l') /\ ll_open l' = ll_open l /\
  ((ret = [] /\ LI local arr gs l') \/
   (ret <> [] /\ exists f, f_destination f = local /\ f_payload f = ret /\ LI local arr (gs ++ [f]) l')).
Proof.
  intros HL. unfold ll_start_rx.
  set (l1 := if ll_processing l then set_processing (ll_discard l) false else l).
  assert (HL1 : LI local arr gs l1 /\ ll_processing l1 = false /\ ll_open l1 = ll_open l).
  { unfold l1. destruct (ll_processing l) eqn:E; [|auto]. split; [apply LI_discard; exact HL|]. split; reflexivity. }
  destruct HL1 as (HL1 & Hp1 & Ho1). clearbody l1.
  unfold ll_start_rx_impl.
  destruct (get_frame_spec l1) as (l2 & E & G); [apply HL1|].
  rewrite E. cbn [obind]. pose proof (LI_get_frame _ _ _ _ _ HL1 G) as HL2.
  assert (Ho2 : ll_open l2 = ll_open l) by (rewrite (gf_open _ _ G); exact Ho1).
  destruct (has_result (ll_parser l2)) eqn:Hr.
  - unfold link_read. rewrite Hr. cbn [f_destination f_payload].
    assert (Hloc : ll_local l2 = local) by apply HL2.
    destruct (N.eqb_spec (res_destination (lp_context (ll_parser l2))) (ll_local l2)) as [Ed|Ed]; cbn [obind].
    + change (slice _ _ _) with (f_payload (rd (lp_context (ll_parser l2)))).
      destruct (f_payload (rd (lp_context (ll_parser l2)))) as [|x pl] eqn:Ep.
      * eexists _, _. split; [reflexivity|]. split; [exact Ho2|]. left. auto.
      * eexists _, _. split; [reflexivity|]. split; [exact Ho2|]. right. split; [discriminate|].
        exists (rd (lp_context (ll_parser l2))). split; [cbn; congruence|]. split; [exact Ep|].
        destruct (LI_idle_flag _ _ _ _ HL2) as (A & g & H1 & H2 & H3); [rewrite (gf_proc _ _ G); exact Hp1|exact Hr|].
        destruct HL2 as (L1 & L2 & L3 & L4 & _). unfold set_processing. cbn.
        split; [exact L1|]. split; [exact L2|]. split; [exact L3|]. split; [exact L4|].
        exists (A ++ g ++ frame_bytes (rd (lp_context (ll_parser l2)))), [].
        split; [rewrite H1; now rewrite <- !app_assoc|]. split; [apply frames_in_snoc; assumption|].
        left. auto.
    + eexists _, _. split; [reflexivity|]. split; [exact Ho2|]. left. auto.
  - cbn [obind]. eexists _, _. split; [reflexivity|]. split; [exact Ho2|]. left. auto.
Qed.

Lemma LI_extend local arr gs l ch : LI local arr gs l -> bytes_ok ch ->
  LI local (arr ++ ch) gs {| ll_local := ll_local l; ll_remote := ll_remote l; ll_open := ll_open l;
             ll_processing := ll_processing l; ll_remainder := ll_remainder l;
             ll_parser := ll_parser l; ll_rx_queue := ll_rx_queue l ++ [ch] |}.
Proof.
  intros (L1 & L2 & L3 & L4 & A & B & L5 & L6 & L7) Hok. unfold LI.
  cbn [ll_local ll_parser ll_remainder ll_rx_queue ll_processing].
  split; [exact L1|]. split; [exact L2|]. split; [exact L3|].
  rewrite concat_app. cbn [concat]. rewrite app_nil_r. split.
  - rewrite app_assoc. apply bytes_ok_app. auto.
  - exists A, B. split; [rewrite L5; now rewrite <- !app_assoc|]. auto.
Qed.


Lemma ll_run_inv local : forall ops l arr gs, LI local arr gs l -> Forall op_ok ops ->
  exists l' out gs', ll_run l ops = Ok (l', out) /\ LI local (arr ++ arrivals ops) (gs ++ gs') l' /\
    map f_payload gs' = deliveries out /\ Forall (fun f => f_destination f = local) gs' /\
    Forall (fun d => d <> []) (deliveries out).
Proof.
  induction ops as [|o ops IH]; intros l arr gs HL Hok.
  - exists l, [], []. cbn. rewrite !app_nil_r. auto.
  - inversion Hok as [|x y Ho Hok']; subst. cbn [ll_run].
    assert (Step : exists l1 out1 gs1, ll_step l o = Ok (l1, out1) /\
       LI local (arr ++ match o with LArrive ch => ch | _ => [] end) (gs ++ gs1) l1 /\
       map f_payload gs1 = deliveries out1 /\ Forall (fun f => f_destination f = local) gs1 /\
       Forall (fun d => d <> []) (deliveries out1)).
    { assert (Simple : forall l1 out1, LI local arr gs l1 -> deliveries out1 = [] ->
        ll_step l o = Ok (l1, out1) -> (match o with LArrive ch => ch | _ => [] end) = [] ->
        exists l1 out1 gs1, ll_step l o = Ok (l1, out1) /\
       LI local (arr ++ match o with LArrive ch => ch | _ => [] end) (gs ++ gs1) l1 /\
       map f_payload gs1 = deliveries out1 /\ Forall (fun f => f_destination f = local) gs1 /\
       Forall (fun d => d <> []) (deliveries out1)).
      { intros l1 out1 H1 H2 H3 H4. exists l1, out1, []. rewrite H3, H4, !app_nil_r, H2. auto. }
      destruct o as [| | | |ch| |d]; cbn [ll_step] in *.
      - destruct (ll_open l); (eapply Simple; [| |reflexivity|reflexivity]; [|reflexivity]; exact HL).
      - destruct (ll_open l); (eapply Simple; [| |reflexivity|reflexivity]; [|reflexivity]); [|exact HL].
        exact (LI_discard local arr gs (set_open l false) (ll_processing l) HL).
      - destruct (ll_open l); (eapply Simple; [| |reflexivity|reflexivity]; [|reflexivity]; exact HL).
      - destruct (ll_open l); [|eapply Simple; [| |reflexivity|reflexivity]; [|reflexivity]; exact HL].
        destruct (get_frame_spec l) as (l2 & E & G); [apply HL|]. rewrite E in *. cbn [obind] in *.
        pose proof (LI_get_frame _ _ _ _ _ HL G) as HL2.
        eapply Simple; [exact HL2| |reflexivity|reflexivity]. destruct (has_result _); reflexivity.
      - exists {| ll_local := ll_local l; ll_remote := ll_remote l; ll_open := ll_open l;
             ll_processing := ll_processing l; ll_remainder := ll_remainder l;
             ll_parser := ll_parser l; ll_rx_queue := ll_rx_queue l ++ [ch] |}, [], [].
        split; [reflexivity|]. rewrite app_nil_r. split; [apply LI_extend; [exact HL|exact Ho]|]. cbn. auto.
      - destruct (ll_start_rx_spec local arr gs l HL) as (l' & ret & E & _ & [[-> H]|[Hne (f & F1 & F2 & F3)]]); rewrite E in *; cbn [obind] in *.
        + eapply Simple; [exact H| |reflexivity|reflexivity]. reflexivity.
        + destruct ret as [|x ret]; [congruence|]. exists l', [Data (x :: ret)], [f].
          split; [reflexivity|]. rewrite app_nil_r. split; [exact F3|]. cbn. rewrite F2. split; [reflexivity|].
          split; constructor; auto; discriminate.
      - eapply Simple; [exact HL| |reflexivity|reflexivity]. reflexivity. }
    destruct Step as (l1 & out1 & gs1 & E1 & H1 & H2 & H3 & H4). rewrite E1. cbn [obind].
    destruct (IH l1 _ _ H1 Hok') as (l2 & out2 & gs2 & E2 & J1 & J2 & J3 & J4). rewrite E2. cbn [obind].
    exists l2, (out1 ++ out2), (gs1 ++ gs2). split; [reflexivity|].
    unfold arrivals, deliveries in *. cbn [flat_map]. rewrite flat_map_app, map_app. rewrite !app_assoc.
    split; [exact J1|]. split; [congruence|]. split; apply Forall_app; auto.
Qed.

Lemma LI_new local remote : LI local [] [] (new_link_layer local remote).
Proof.
  unfold LI, new_link_layer. cbn [ll_local ll_parser ll_remainder ll_rx_queue ll_processing].
  split; [reflexivity|]. split; [apply new_pinv|]. split; [reflexivity|]. split; [constructor|].
  exists [], []. split; [reflexivity|]. split; [constructor|]. right. exists []. reflexivity.
Qed.

Lemma ll_deliveries local remote ops : Forall op_ok ops ->
  exists l out gs, ll_run (new_link_layer local remote) ops = Ok (l, out) /\
    deliveries out = map f_payload gs /\ Forall (fun f => f_destination f = local /\ f_payload f <> []) gs /\
    frames_in 4092 gs (arrivals ops).
Proof.
  intros Hok. destruct (ll_run_inv local ops _ _ _ (LI_new local remote) Hok) as (l & out & gs & E & H1 & H2 & H3 & H4).
  exists l, out, gs. split; [exact E|]. split; [congruence|]. split.
  - rewrite <- H2 in H4. clear - H3 H4. induction gs as [|f gs IH]; constructor; inversion H3; inversion H4; auto.
  - destruct H1 as (_ & _ & _ & _ & A & B & H5 & H6 & _). cbn [app] in *. rewrite H5. apply frames_in_app. exact H6.
Qed.

(** ** Progress when every frame is for this station and not empty *)
Lemma crun_stop r a : forall sc sc', crun r sc a = (sc', []) -> is_wait_read (fst sc') = true ->
  forall b, crun r sc (a ++ b) = (sc', b).
Proof.
  induction a as [|x a IH]; intros sc sc' E H b.
  - rewrite crun_nil in E. injection E as <-. cbn [app]. destruct sc as [s c]. apply crun_read. exact H.
  - cbn [app crun] in *. destruct (is_wait_read (fst sc)); [discriminate|]. apply IH; assumption.
Qed.

Lemma get_frame_frame l f T : lp_state (ll_parser l) = wait_sync1 ->
  cinv wait_sync1 (lp_context (ll_parser l)) -> max_payload_length (lp_context (ll_parser l)) = 4092%N ->
  Forall (fun ch => ch <> []) (ll_rx_queue l) -> frame_ok 4092 f ->
  ll_remainder l ++ concat (ll_rx_queue l) = frame_bytes f ++ T ->
  exists l', get_frame l = Ok (true, l') /\ has_result (ll_parser l') = true /\ rd (lp_context (ll_parser l')) = f /\
    ll_remainder l' ++ concat (ll_rx_queue l') = T /\ Forall (fun ch => ch <> []) (ll_rx_queue l') /\
    cinv wait_sync1 (lp_context (ll_parser l')) /\ max_payload_length (lp_context (ll_parser l')) = 4092%N /\
    ll_local l' = ll_local l /\ ll_processing l' = ll_processing l /\ ll_open l' = ll_open l.
Proof.
  intros Hs Hi Hm Hne Hf HT.
  destruct (get_frame_spec l) as (l' & E & G); [rewrite Hs; exact Hi|].
  destruct (crun_frame retry1 (lp_context (ll_parser l)) f T Hi) as (c' & E1 & R1 & M1 & B1); [rewrite Hm; exact Hf|rewrite Hm; lia|].
  destruct G as [G1 G2 G3 G4 (used & U1 & U2) G6 G7].
  unfold psc in U2. rewrite Hs in U2.
  assert (Hc' : cinv wait_sync1 c') by (destruct Hi; split; [rewrite M1, B1; assumption|exact I]).
  destruct (has_result (ll_parser l')) eqn:Hr.
  - pose proof (crun_stop retry1 used _ _ U2 Hr (ll_remainder l' ++ concat (ll_rx_queue l'))) as X.
    rewrite <- U1, HT, E1 in X. injection X as X1 X2 X3.
    exists l'. rewrite E. rewrite <- X2. rewrite <- X3. repeat (split; [auto; congruence|]). auto.
  - exfalso. destruct (G6 Hne eq_refl) as [H1 H2]. rewrite H1, H2 in U1. cbn in U1. rewrite app_nil_r in U1.
    rewrite <- U1, HT, E1 in U2. injection U2 as X1 X2. unfold has_result in Hr. rewrite <- X1 in Hr. discriminate.
Qed.

Definition ready (l : link_layer) (T : list N) : Prop :=
  (lp_state (ll_parser l) = wait_sync1 /\ ll_processing l = false \/
   ll_processing l = true) /\
  cinv wait_sync1 (lp_context (ll_parser l)) /\ max_payload_length (lp_context (ll_parser l)) = 4092%N /\
  Forall (fun ch => ch <> []) (ll_rx_queue l) /\ ll_remainder l ++ concat (ll_rx_queue l) = T.

Lemma ready_start_rx l f T : ready l (frame_bytes f ++ T) -> frame_ok 4092 f ->
  f_destination f = ll_local l -> f_payload f <> [] ->
  exists l', ll_start_rx l = Ok (f_payload f, l') /\ ready l' T /\ ll_local l' = ll_local l.
Proof.
  intros (Hst & Hi & Hm & Hne & HT) Hf Hd Hp. unfold ll_start_rx.
  set (l1 := if ll_processing l then set_processing (ll_discard l) false else l).
  assert (H1 : lp_state (ll_parser l1) = wait_sync1 /\ ll_processing l1 = false /\
     lp_context (ll_parser l1) = lp_context (ll_parser l) /\ ll_rx_queue l1 = ll_rx_queue l /\
     ll_remainder l1 = ll_remainder l /\ ll_local l1 = ll_local l).
  { unfold l1. destruct Hst as [[H2 H3]|H3]; rewrite H3; auto 10. }
  destruct H1 as (H1 & H2 & H3 & H4 & H5 & H6). clearbody l1.
  unfold ll_start_rx_impl.
  destruct (get_frame_frame l1 f T) as (l' & E & Hr & R & T' & N' & I' & M' & L' & P' & O'); try (rewrite ?H3, ?H4, ?H5; assumption).
  rewrite E. cbn [obind]. unfold link_read. rewrite Hr.
  fold (rd (lp_context (ll_parser l'))). rewrite R. rewrite L', H6, Hd, N.eqb_refl. cbn [obind].
  destruct (f_payload f) as [|x pl]; [congruence|].
  eexists. split; [reflexivity|]. split; [|cbn; congruence].
  split; [right; reflexivity|]. cbn. auto.
Qed.

Lemma ready_run fs : forall l T, ready l (flat_map frame_bytes fs ++ T) ->
  Forall (fun f => frame_ok 4092 f /\ f_destination f = ll_local l /\ f_payload f <> []) fs ->
  exists l', ll_run l (repeat LStartRx (length fs)) = Ok (l', map (fun f => Data (f_payload f)) fs) /\ ready l' T.
Proof.
  induction fs as [|f fs IH]; intros l T HR Hf; [exists l; auto|].
  inversion Hf as [|x y (F1 & F2 & F3) Hf']; subst. cbn [flat_map] in HR. rewrite <- app_assoc in HR.
  destruct (ready_start_rx l f _ HR F1 F2 F3) as (l1 & E & R & L).
  cbn [length repeat ll_run ll_step]. rewrite E. cbn [obind].
  destruct (IH l1 T R) as (l2 & E2 & R2).
  { eapply Forall_impl; [|exact Hf']. cbn. rewrite L. auto. }
  rewrite E2. cbn [obind]. exists l2. split; [|exact R2]. cbn [map]. destruct (f_payload f) eqn:Ep; [congruence|]. reflexivity.
Qed.

Lemma ll_run_app a : forall l b, ll_run l (a ++ b) =
  let* (l1, o1) := ll_run l a in let* (l2, o2) := ll_run l1 b in Ok (l2, o1 ++ o2).
Proof.
  induction a as [|o a IH]; intros l b; cbn [app ll_run].
  - cbn [obind]. destruct (ll_run l b) as [[? ?]| |]; reflexivity.
  - destruct (ll_step l o) as [[l1 o1]| |]; cbn [obind]; try reflexivity. rewrite IH.
    destruct (ll_run l1 a) as [[l2 o2]| |]; cbn [obind]; try reflexivity.
    destruct (ll_run l2 b) as [[l3 o3]| |]; cbn [obind]; try reflexivity. now rewrite app_assoc.
Qed.

Lemma arrive_run chunks : forall l, exists l', ll_run l (map LArrive chunks) = Ok (l', []) /\
  ll_rx_queue l' = ll_rx_queue l ++ chunks /\ ll_parser l' = ll_parser l /\ ll_remainder l' = ll_remainder l /\
  ll_processing l' = ll_processing l /\ ll_local l' = ll_local l /\ ll_open l' = ll_open l.
Proof.
  induction chunks as [|ch chunks IH]; intros l; cbn [map ll_run].
  - exists l. rewrite app_nil_r. auto 10.
  - cbn [ll_step obind].
    match goal with |- context [ll_run ?x _] => destruct (IH x) as (l' & E & H1 & H2 & H3 & H4 & H5 & H6) end.
    rewrite E. cbn [obind]. exists l'. split; [reflexivity|]. cbn in *. rewrite H1, <- app_assoc. auto 10.
Qed.

Lemma ll_progress local remote fs chunks :
  Forall (fun f => frame_ok 4092 f /\ f_destination f = local /\ f_payload f <> []) fs ->
  Forall (fun ch => ch <> []) chunks -> concat chunks = flat_map frame_bytes fs ->
  exists l, ll_run (new_link_layer local remote) (LOpen :: map LArrive chunks ++ repeat LStartRx (length fs)) =
    Ok (l, UpOpen :: map (fun f => Data (f_payload f)) fs).
Proof.
  intros Hf Hne Hc. cbn [ll_run ll_step new_link_layer ll_open obind].
  rewrite ll_run_app.
  match goal with |- context [ll_run ?x (map LArrive chunks)] => destruct (arrive_run chunks x) as (l1 & E1 & Q & P & R & F & L & O) end.
  rewrite E1. cbn [obind]. cbn in Q, P, R, F, L.
  destruct (ready_run fs l1 []) as (l2 & E2 & _).
  - split; [left; rewrite P, F; auto|]. rewrite P. split; [apply (new_pinv 4092)|]. split; [reflexivity|].
    rewrite Q, R. split; [exact Hne|]. cbn [app]. now rewrite app_nil_r.
  - rewrite L. exact Hf.
  - rewrite E2. cbn [obind app]. eauto.
Qed.

Definition max_retry (r : context -> pstate * context) : Prop :=
  forall c, max_payload_length (snd (r c)) = max_payload_length c.
Lemma cstep_max r sc b : max_retry r -> max_payload_length (snd (cstep_with r sc b)) = max_payload_length (snd sc).
Proof.
  intros Hr. destruct sc as [[| |n|n|n] c]; cbn [cstep_with snd].
  - destruct (_ =? _)%N; reflexivity.
  - destruct (_ =? _)%N; reflexivity.
  - destruct (_ =? _); [|reflexivity]. unfold header_done. destruct (negb _); [rewrite Hr; reflexivity|].
    destruct (_ <? _)%N; reflexivity.
  - destruct (_ =? _); [|reflexivity]. unfold body_done. destruct (negb _); reflexivity.
  - reflexivity.
Qed.
Lemma crun_max r l : forall sc, max_retry r -> max_payload_length (snd (fst (crun r sc l))) = max_payload_length (snd sc).
Proof.
  induction l as [|b l IH]; intros sc Hr; [rewrite crun_nil; reflexivity|].
  cbn [crun]. destruct (is_wait_read (fst sc)); [reflexivity|]. rewrite IH by exact Hr. apply cstep_max. exact Hr.
Qed.
Lemma max_retry1 : max_retry retry1.
Proof. intros c. unfold retry1. rewrite crun_max by (intros ?; reflexivity). reflexivity. Qed.

(** Progress for every schedule without a close. *)
Definition chunk_ok (o : ll_op) : Prop := match o with LArrive ch => ch <> [] | _ => True end.
Definition mine (local : N) (f : frame) : Prop := frame_ok 4092 f /\ f_destination f = local /\ f_payload f <> [].
Definition PI (local : N) (future : list N) (rest : list frame) (l : link_layer) : Prop :=
  ll_local l = local /\ Forall (fun ch => ch <> []) (ll_rx_queue l) /\
  cinv (lp_state (ll_parser l)) (lp_context (ll_parser l)) /\
  max_payload_length (lp_context (ll_parser l)) = 4092%N /\
  ((ll_processing l = true /\ has_result (ll_parser l) = true /\
    ll_remainder l ++ concat (ll_rx_queue l) ++ future = flat_map frame_bytes rest) \/
   (ll_processing l = false /\ exists c0 used, cinv wait_sync1 c0 /\ max_payload_length c0 = 4092%N /\
     crun retry1 (wait_sync1, c0) used = (psc (ll_parser l), []) /\
     used ++ ll_remainder l ++ concat (ll_rx_queue l) ++ future = flat_map frame_bytes rest)).

Lemma PI_get_frame local future rest l l' : PI local future rest l -> gf_rel l l' -> PI local future rest l'.
Proof.
  intros (H1 & H2 & H3 & H4 & H5) [G1 G2 G3 G4 (used & U1 & U2) _ G7].
  pose proof (crun_inv retry1 good_retry1 used _ _ H3) as I'.
  assert (M' : max_payload_length (lp_context (ll_parser l')) = 4092%N).
  { pose proof (crun_max retry1 used (psc (ll_parser l)) max_retry1) as X. rewrite U2 in X. cbn in X. congruence. }
  change (lp_state (ll_parser l), lp_context (ll_parser l)) with (psc (ll_parser l)) in I'. rewrite U2 in I'.
  cbn [psc fst snd] in I'.
  split; [congruence|]. split; [auto|]. split; [exact I'|]. split; [exact M'|].
  destruct H5 as [(A & B & C)|(A & c0 & u & B & C & D & F)].
  - left. rewrite G4. split; [exact A|].
    change (psc (ll_parser l)) with (lp_state (ll_parser l), lp_context (ll_parser l)) in U2.
    unfold has_result in *. pose proof U2 as U3. rewrite crun_read in U3 by exact B. injection U3 as Es Ec Eu.
    split; [rewrite <- Es; exact B|]. subst used. rewrite app_assoc, U1 in C. rewrite <- !app_assoc in C. exact C.
  - right. rewrite G4. split; [exact A|]. exists c0.
    destruct (is_wait_read (lp_state (ll_parser l))) eqn:Er.
    + change (psc (ll_parser l)) with (lp_state (ll_parser l), lp_context (ll_parser l)) in U2.
      pose proof U2 as U3. rewrite crun_read in U3 by exact Er. injection U3 as Es Ec Eu. subst used.
      exists u. split; [exact B|]. split; [exact C|]. split; [rewrite D; unfold psc; congruence|].
      rewrite <- F. rewrite (app_assoc (ll_remainder l)), U1. cbn [app]. now rewrite <- !app_assoc.
    + exists (u ++ used). split; [exact B|]. split; [exact C|]. split.
      * rewrite crun_app; rewrite D; [exact U2|exact Er].
      * rewrite <- F. rewrite (app_assoc (ll_remainder l)), U1. now rewrite <- !app_assoc.
Qed.

Lemma PI_first local future rest l : PI local future rest l -> Forall (mine local) rest -> ll_processing l = false ->
  has_result (ll_parser l) = true -> exists f rest', rest = f :: rest' /\ rd (lp_context (ll_parser l)) = f /\
    ll_remainder l ++ concat (ll_rx_queue l) ++ future = flat_map frame_bytes rest'.
Proof.
  intros (H1 & H2 & H3 & H4 & [(A & B & C)|(A & c0 & u & B & C & D & F)]) Hm Hp Hr; [congruence|].
  destruct rest as [|f rest].
  - cbn in F. apply app_eq_nil in F as [F _]. subst u. rewrite crun_nil in D. unfold psc in D. injection D as D _.
    unfold has_result in Hr. rewrite <- D in Hr. discriminate.
  - inversion Hm as [|x y [M1 M2] M3]; subst x y. cbn [flat_map] in F.
    destruct (crun_frame retry1 c0 f (flat_map frame_bytes rest) B) as (c' & E1 & R1 & _); [rewrite C; exact M1|rewrite C; lia|].
    pose proof (crun_stop retry1 u _ _ D Hr (ll_remainder l ++ concat (ll_rx_queue l) ++ future)) as X.
    rewrite F, E1 in X. injection X as X1 X2 X3. exists f, rest. split; [reflexivity|]. rewrite <- X2. auto.
Qed.

Lemma PI_discard local future rest l : PI local future rest l -> ll_processing l = true ->
  PI local future rest (set_processing (ll_discard l) false).
Proof.
  intros (H1 & H2 & H3 & H4 & [(A & B & C)|(A & _)]) Hp; [|congruence].
  pose proof (cinv_sync1 _ _ H3) as H0.
  split; [exact H1|]. split; [exact H2|]. split; [exact H0|]. split; [exact H4|].
  right. split; [reflexivity|]. exists (lp_context (ll_parser l)), []. rewrite crun_nil. auto.
Qed.

Lemma PI_start_rx local future rest l : PI local future rest l -> Forall (mine local) rest ->
  exists l' ret, ll_start_rx l = Ok (ret, l') /\ ll_open l' = ll_open l /\
  ((ret = [] /\ PI local future rest l' /\ (future = [] -> rest = [])) \/
   (exists f rest', rest = f :: rest' /\ f_payload f = ret /\ ret <> [] /\ PI local future rest' l')).
Proof.
  intros HP Hm. unfold ll_start_rx.
  set (l1 := if ll_processing l then set_processing (ll_discard l) false else l).
  assert (H1 : PI local future rest l1 /\ ll_processing l1 = false /\ ll_open l1 = ll_open l).
  { unfold l1. destruct (ll_processing l) eqn:E; [|auto]. split; [apply PI_discard; assumption|auto]. }
  destruct H1 as (HP1 & Hp1 & Ho1). clearbody l1.
  unfold ll_start_rx_impl.
  destruct (get_frame_spec l1) as (l2 & E & G); [apply HP1|].
  rewrite E. cbn [obind]. pose proof (PI_get_frame _ _ _ _ _ HP1 G) as HP2.
  assert (Ho2 : ll_open l2 = ll_open l) by (rewrite (gf_open _ _ G); exact Ho1).
  assert (Hp2 : ll_processing l2 = false) by (rewrite (gf_proc _ _ G); exact Hp1).
  destruct (has_result (ll_parser l2)) eqn:Hr.
  - destruct (PI_first _ _ _ _ HP2 Hm Hp2 Hr) as (f & rest' & -> & R & F).
    inversion Hm as [|x y (M1 & M2 & M3) M4]; subst x y.
    unfold link_read. rewrite Hr. fold (rd (lp_context (ll_parser l2))). rewrite R.
    destruct HP2 as (L & Q & I2 & M & _). rewrite L, M2, N.eqb_refl. cbn [obind].
    destruct (f_payload f) as [|x pl] eqn:Ep; [congruence|].
    eexists _, _. split; [reflexivity|]. split; [exact Ho2|]. right. exists f, rest'. split; [reflexivity|].
    split; [exact Ep|]. split; [discriminate|]. unfold PI, set_processing. cbn. auto 10.
  - cbn [obind]. eexists _, _. split; [reflexivity|]. split; [exact Ho2|]. left. split; [reflexivity|]. split; [exact HP2|].
    intros ->. destruct rest as [|f rest]; [reflexivity|exfalso].
    destruct HP1 as (_ & Q1 & _). destruct (gf_all _ _ G Q1 Hr) as [R1 R2].
    destruct HP2 as (_ & _ & _ & _ & [(A & _)|(A & c0 & u & B & C & D & F)]); [congruence|].
    rewrite R1, R2 in F. cbn [concat app flat_map] in F. rewrite app_nil_r in F.
    inversion Hm as [|x y (M1 & M2) M4]; subst x y.
    destruct (crun_frame retry1 c0 f (flat_map frame_bytes rest) B) as (c' & E1 & _); [rewrite C; exact M1|rewrite C; lia|].
    cbn [flat_map] in F; rewrite F in D; unfold psc in D; rewrite E1 in D. injection D as D _. unfold has_result in Hr. rewrite <- D in Hr. discriminate.
Qed.

Lemma PI_run local : forall ops l rest future, PI local (arrivals ops ++ future) rest l -> Forall (mine local) rest ->
  Forall chunk_ok ops -> ~ In LClose ops ->
  exists l' out d rest', ll_run l ops = Ok (l', out) /\ rest = d ++ rest' /\ deliveries out = map f_payload d /\
    PI local future rest' l'.
Proof.
  induction ops as [|o ops IH]; intros l rest future HP Hm Hc Hn; cbn [ll_run].
  - exists l, [], [], rest. auto.
  - inversion Hc as [|x y Ho Hc']; subst x y.
    assert (Hn' : ~ In LClose ops) by (intros H; apply Hn; right; exact H).
    assert (Simple : forall l1 out1, ll_step l o = Ok (l1, out1) -> deliveries out1 = [] ->
      PI local (arrivals ops ++ future) rest l1 ->
      exists l' out d rest', (let* (l1, out1) := ll_step l o in let* (l2, out2) := ll_run l1 ops in Ok (l2, out1 ++ out2)) = Ok (l', out) /\
        rest = d ++ rest' /\ deliveries out = map f_payload d /\ PI local future rest' l').
    { intros l1 out1 E1 D1 P1. rewrite E1. cbn [obind].
      destruct (IH l1 rest future P1 Hm Hc' Hn') as (l2 & o2 & d & rest' & E2 & R & D & P2). rewrite E2. cbn [obind].
      exists l2, (out1 ++ o2), d, rest'. split; [reflexivity|]. split; [exact R|].
      unfold deliveries in *. rewrite flat_map_app, D1. auto. }
    destruct o as [| | | |ch| |dd]; cbn [ll_step] in *.
    + destruct (ll_open l); (eapply Simple; [reflexivity|reflexivity|exact HP]).
    + exfalso. apply Hn. left. reflexivity.
    + destruct (ll_open l); (eapply Simple; [reflexivity|reflexivity|exact HP]).
    + destruct (ll_open l); [|eapply Simple; [reflexivity|reflexivity|exact HP]].
      destruct (get_frame_spec l) as (l2 & E & G); [apply HP|]. rewrite E in *. cbn [obind] in *.
      eapply Simple; [reflexivity| |exact (PI_get_frame _ _ _ _ _ HP G)]. destruct (has_result _); reflexivity.
    + eapply Simple; [reflexivity|reflexivity|]. destruct HP as (H1 & H2 & H3 & H4 & H5).
      unfold PI. cbn [ll_local ll_parser ll_remainder ll_rx_queue ll_processing].
      split; [exact H1|]. split; [apply Forall_app; split; [exact H2|repeat constructor; exact Ho]|].
      split; [exact H3|]. split; [exact H4|]. rewrite concat_app. cbn [concat]. rewrite app_nil_r.
      unfold arrivals in *. cbn [flat_map] in H5.
      destruct H5 as [(A & B & C)|(A & c0 & u & B & C & D & F)].
      * left. rewrite <- !app_assoc in *. auto.
      * right. split; [exact A|]. exists c0, u. rewrite <- !app_assoc in *. auto.
    + destruct (PI_start_rx local _ rest l HP Hm) as (l1 & ret & E & _ & [(-> & P1 & _)|(f & rest1 & -> & <- & Hne & P1)]);
        rewrite E in *; cbn [obind] in *.
      * eapply Simple; [reflexivity|reflexivity|exact P1].
      * inversion Hm; subst.
        destruct (IH l1 rest1 future P1) as (l2 & o2 & d & rest' & E2 & R & D & P2); try assumption.
        rewrite E2. cbn [obind]. eexists _, _, (f :: d), rest'. split; [reflexivity|].
        split; [rewrite R; reflexivity|]. split; [|exact P2].
        destruct (f_payload f) eqn:Ep; [congruence|]. unfold deliveries in *. cbn [flat_map app map]. rewrite D, Ep. reflexivity.
    + eapply Simple; [reflexivity|reflexivity|exact HP].
Qed.

Lemma PI_drain local : forall rest l n, PI local [] rest l -> Forall (mine local) rest -> length rest <= n ->
  exists l' out, ll_run l (repeat LStartRx n) = Ok (l', out) /\ deliveries out = map f_payload rest.
Proof.
  intros rest l n. revert rest l. induction n as [|n IH]; intros rest l HP Hm Hl; cbn [repeat ll_run].
  - destruct rest; [|cbn in Hl; lia]. exists l, []. auto.
  - cbn [ll_step]. destruct (PI_start_rx local _ rest l HP Hm) as (l1 & ret & E & _ & [(-> & P1 & Hz)|(f & rest1 & -> & <- & Hne & P1)]);
      rewrite E; cbn [obind].
    + specialize (Hz eq_refl). subst rest. destruct (IH [] l1 P1 Hm) as (l2 & o2 & E2 & D2); [cbn; lia|].
      rewrite E2. cbn [obind]. eexists _, _. split; [reflexivity|]. exact D2.
    + inversion Hm; subst. destruct (IH rest1 l1 P1) as (l2 & o2 & E2 & D2); [assumption|cbn in Hl; lia|].
      rewrite E2. cbn [obind]. eexists _, _. split; [reflexivity|].
      destruct (f_payload f) eqn:Ep; [congruence|]. unfold deliveries in *. cbn [flat_map app map]. rewrite D2, Ep. reflexivity.
Qed.

Lemma ll_progress_any local remote fs ops n :
  Forall (mine local) fs -> Forall chunk_ok ops -> ~ In LClose ops -> arrivals ops = flat_map frame_bytes fs ->
  length fs <= n ->
  exists l out, ll_run (new_link_layer local remote) (ops ++ repeat LStartRx n) = Ok (l, out) /\
    deliveries out = map f_payload fs.
Proof.
  intros Hm Hc Hn Ha Hl.
  assert (HP : PI local (arrivals ops ++ []) fs (new_link_layer local remote)).
  { unfold PI, new_link_layer. cbn [ll_local ll_parser ll_remainder ll_rx_queue ll_processing].
    split; [reflexivity|]. split; [constructor|]. split; [apply (new_pinv 4092)|]. split; [reflexivity|].
    right. split; [reflexivity|]. exists (new_context max_config_payload_size), []. rewrite crun_nil.
    split; [apply (new_pinv 4092)|]. split; [reflexivity|]. split; [reflexivity|]. cbn [app concat]. rewrite app_nil_r. exact Ha. }
  destruct (PI_run local ops _ fs [] HP Hm Hc Hn) as (l1 & o1 & d & rest & E1 & R & D & P1).
  subst fs. apply Forall_app in Hm as [_ Hm].
  destruct (PI_drain local rest l1 n P1 Hm) as (l2 & o2 & E2 & D2); [rewrite app_length in Hl; lia|].
  exists l2, (o1 ++ o2). rewrite ll_run_app, E1. cbn [obind]. rewrite E2. cbn [obind]. split; [reflexivity|].
  unfold deliveries in *. rewrite flat_map_app, map_app. congruence.
Qed.

(** ** The wedge *)
Definition wedged (l : link_layer) : Prop :=
  ll_processing l = false /\ has_result (ll_parser l) = true /\
  (res_destination (lp_context (ll_parser l)) <> ll_local l \/ f_payload (rd (lp_context (ll_parser l))) = []).

Lemma wedged_step l o : wedged l -> o <> LClose ->
  exists l' out, ll_step l o = Ok (l', out) /\ wedged l' /\ deliveries out = [].
Proof.
  intros (W1 & W2 & W3) Ho. destruct o as [| | | |ch| |d]; cbn [ll_step]; try congruence.
  - destruct (ll_open l); eexists _, _; (split; [reflexivity|]); split; try reflexivity; repeat split; assumption.
  - destruct (ll_open l); eexists _, _; (split; [reflexivity|]); split; try reflexivity; repeat split; assumption.
  - destruct (ll_open l); [|eexists _, _; (split; [reflexivity|]); split; try reflexivity; repeat split; assumption].
    unfold get_frame. rewrite W2. cbn [obind]. eexists _, _. split; [reflexivity|]. split; [repeat split; assumption|reflexivity].
  - eexists _, _. split; [reflexivity|]. split; [repeat split; assumption|reflexivity].
  - unfold ll_start_rx. rewrite W1. unfold ll_start_rx_impl, get_frame. rewrite W2. cbn [obind].
    unfold link_read. rewrite W2. cbn [f_destination f_payload].
    destruct (N.eqb_spec (res_destination (lp_context (ll_parser l))) (ll_local l)) as [E|E]; cbn [obind].
    + destruct W3 as [W3|W3]; [congruence|]. cbn [rd f_payload] in W3. rewrite W3.
      eexists _, _. split; [reflexivity|]. split; [repeat split; auto|reflexivity].
    + eexists _, _. split; [reflexivity|]. split; [repeat split; auto|reflexivity].
  - eexists _, _. split; [reflexivity|]. split; [repeat split; assumption|reflexivity].
Qed.
Lemma wedged_run ops : forall l, wedged l -> ~ In LClose ops ->
  exists l' out, ll_run l ops = Ok (l', out) /\ wedged l' /\ deliveries out = [].
Proof.
  induction ops as [|o ops IH]; intros l W Hn; cbn [ll_run]; [exists l, []; auto|].
  destruct (wedged_step l o W) as (l1 & o1 & E1 & W1 & D1); [intros ->; apply Hn; left; reflexivity|].
  rewrite E1. cbn [obind]. destruct (IH l1 W1) as (l2 & o2 & E2 & W2 & D2); [intros H; apply Hn; right; exact H|].
  rewrite E2. cbn [obind]. exists l2, (o1 ++ o2). split; [reflexivity|]. split; [exact W2|].
  unfold deliveries in *. rewrite flat_map_app, D1, D2. reflexivity.
Qed.

Lemma ll_wedge local remote f ops : frame_ok 4092 f -> (f_destination f <> local \/ f_payload f = []) ->
  ~ In LClose ops ->
  exists l out, ll_run (new_link_layer local remote) (LOpen :: LArrive (frame_bytes f) :: LStartRx :: ops) = Ok (l, out) /\
    deliveries out = [].
Proof.
  intros Hf Hw Hn. cbn [ll_run ll_step new_link_layer ll_open obind]. cbn [set_open ll_local ll_remote ll_open ll_processing ll_remainder ll_parser ll_rx_queue app].
  unfold ll_start_rx. cbn [ll_processing]. unfold ll_start_rx_impl.
  assert (Hne : frame_bytes f <> []) by (unfold frame_bytes; rewrite frame_header_hdr; destruct (hdr_of_split (f_destination f) (f_source f) (N.of_nat (length (f_payload f)))) as (t & -> & _); discriminate).
  match goal with |- context [get_frame ?x] => destruct (get_frame_frame x f []) as (l' & E & Hr & R & _ & _ & _ & _ & L & P & O) end;
    try reflexivity; try assumption; try apply (new_pinv 4092).
  { constructor; [exact Hne|constructor]. }
  rewrite E. cbn [obind]. unfold link_read. rewrite Hr. fold (rd (lp_context (ll_parser l'))).
  cbn in L, P.
  assert (W : wedged l').
  { split; [exact P|]. split; [exact Hr|]. rewrite L. pose proof (f_equal f_destination R) as R1. cbn in R1. rewrite R1, R. exact Hw. }
  assert (X : (if (f_destination (rd (lp_context (ll_parser l'))) =? ll_local l')%N
     then @Ok (list N * link_layer) (f_payload (rd (lp_context (ll_parser l'))), l') else Ok ([], l')) = Ok ([], l')).
  { destruct (N.eqb_spec (f_destination (rd (lp_context (ll_parser l')))) (ll_local l')) as [e|e]; [|reflexivity].
    destruct Hw as [Hw|Hw]; [rewrite R, L in e; congruence|]. rewrite R, Hw. reflexivity. }
  rewrite X. cbn [obind].
  destruct (wedged_run ops l' W Hn) as (l2 & o2 & E2 & _ & D2). rewrite E2. cbn [obind].
  eexists _, _. split; [reflexivity|]. cbn. exact D2.
Qed.

(** ** Behaviour does not depend on stale buffer contents *)
Definition csim (s : pstate) (c c' : context) : Prop :=
  max_payload_length c = max_payload_length c' /\ True /\
  pend s c = pend s c' /\
  match s with
  | wait_body n => payload_length c = payload_length c' /\ res_destination c = res_destination c' /\ res_source c = res_source c'
  | wait_read n => rd c = rd c'
  | _ => True
  end.
Definition retry_sim (r : context -> pstate * context) : Prop :=
  forall c c', cinv wait_sync1 c -> cinv wait_sync1 c' ->
  max_payload_length c = max_payload_length c' -> True ->
  firstn 12 (buffer c) = firstn 12 (buffer c') ->
  fst (r c) = fst (r c') /\ csim (fst (r c)) (snd (r c)) (snd (r c')).

Lemma header_done_sim r c c' : retry_sim r -> cinv wait_sync1 c -> cinv wait_sync1 c' ->
  max_payload_length c = max_payload_length c' -> True ->
  firstn 12 (buffer c) = firstn 12 (buffer c') ->
  fst (header_done r c) = fst (header_done r c') /\
  csim (fst (header_done r c)) (snd (header_done r c)) (snd (header_done r c')).
Proof.
  intros Hr H1 H2 Hm Hl Hf. unfold header_done. cbn [set_result_header buffer max_payload_length].
  rewrite !(slice_firstn (buffer c) 12), !(slice_firstn (buffer c') 12) by lia.
  replace (firstn 8 (buffer c)) with (firstn 8 (firstn 12 (buffer c))) by (rewrite firstn_firstn; reflexivity).
  replace (firstn 8 (buffer c')) with (firstn 8 (firstn 12 (buffer c'))) by (rewrite firstn_firstn; reflexivity).
  rewrite Hf, Hm. destruct (negb _).
  - apply Hr; assumption.
  - destruct (_ <? _)%N; cbn [fst snd]; (split; [reflexivity|]); split; try exact Hm; (split; [exact Hl|]).
    + split; reflexivity.
    + split; [exact Hf|]. repeat split; reflexivity.
Qed.

Lemma body_done_sim c c' : cinv wait_sync1 c -> cinv wait_sync1 c' ->
  max_payload_length c = max_payload_length c' -> True ->
  payload_length c = payload_length c' -> res_destination c = res_destination c' -> res_source c = res_source c' ->
  firstn (16 + N.to_nat (payload_length c)) (buffer c) = firstn (16 + N.to_nat (payload_length c)) (buffer c') ->
  fst (body_done c) = fst (body_done c') /\ csim (fst (body_done c)) (snd (body_done c)) (snd (body_done c')).
Proof.
  intros H1 H2 Hm Hl Hp Hd Hs Hf. unfold body_done. rewrite <- Hp. cbn [set_result_payload buffer].
  set (n := N.to_nat (payload_length c)) in *.
  rewrite !(slice_firstn (buffer c) (16 + n)), !(slice_firstn (buffer c') (16 + n)) by lia. rewrite Hf.
  destruct (negb _); cbn [fst snd]; (split; [reflexivity|]); split; try exact Hm; (split; [exact Hl|]).
  - split; reflexivity.
  - split; [unfold pend; cbn [num_buffered buffer set_result_payload]; replace (12 + n + 4) with (16 + n) by lia; exact Hf|].
    unfold rd. cbn [set_result_payload res_destination res_source res_payload buffer fst snd]. rewrite Hd, Hs.
    rewrite !(slice_firstn (buffer c) (16 + n)), !(slice_firstn (buffer c') (16 + n)) by lia. now rewrite Hf.
Qed.

Lemma cstep_sim r s c c' b : retry_sim r -> cinv s c -> cinv s c' -> csim s c c' ->
  fst (cstep_with r (s, c) b) = fst (cstep_with r (s, c') b) /\
  csim (fst (cstep_with r (s, c) b)) (snd (cstep_with r (s, c) b)) (snd (cstep_with r (s, c') b)).
Proof.
  intros Hr Hi Hi' (S1 & S2 & S3 & S4).
  pose proof (cinv_sync1 _ _ Hi) as H0. pose proof (cinv_sync1 _ _ Hi') as H0'.
  pose proof (proj1 Hi) as Hb. pose proof (proj1 Hi') as Hb'.
  assert (Drop : wait_sync1 = wait_sync1 /\ csim wait_sync1 c c') by (split; [reflexivity|]; split; [exact S1|split; [exact S2|split; reflexivity]]).
  assert (Put : forall n s', num_buffered s = n -> num_buffered s' = S n -> n + 1 <= length (buffer c) -> n + 1 <= length (buffer c') ->
    pend s' (cput c n [b]) = pend s' (cput c' n [b]) /\ True).
  { intros n s' E1 E2 Hn Hn'. rewrite !(pend_put s _ n [b] s') by (cbn [length]; lia). rewrite S3. split; [reflexivity|exact I]. }
  destruct s as [| |n|n|n]; cbn [cstep_with].
  - destruct (b =? sync1)%N; cbn [fst snd]; [|exact Drop]. destruct (Put 0 wait_sync2 eq_refl eq_refl ltac:(lia) ltac:(lia)) as [P1 P2].
    split; [reflexivity|]. split; [exact S1|]. split; [exact P2|]. split; [exact P1|exact I].
  - destruct (b =? sync2)%N; cbn [fst snd]; [|exact Drop]. destruct (Put 1 (wait_header 2) eq_refl eq_refl ltac:(lia) ltac:(lia)) as [P1 P2].
    split; [reflexivity|]. split; [exact S1|]. split; [exact P2|]. split; [exact P1|exact I].
  - destruct Hi as [_ Hn]. destruct (Put n (wait_header (S n)) eq_refl eq_refl ltac:(lia) ltac:(lia)) as [P1 P2].
    destruct (Nat.eqb_spec (S n) 12) as [E|E].
    + apply header_done_sim; try assumption.
      * apply (cinv_put wait_sync1); [cbn [length]; lia|exact H0].
      * apply (cinv_put wait_sync1); [cbn [length]; lia|exact H0'].
      * unfold pend in P1. cbn [num_buffered] in P1. rewrite E in P1. exact P1.
    + cbn [fst snd]. split; [reflexivity|]. split; [exact S1|]. split; [exact P2|]. split; [exact P1|exact I].
  - destruct S4 as (S4 & S5 & S6). destruct Hi as [_ [Hn Hp]]. destruct Hi' as [_ [Hn' Hp']]. destruct (Put n (wait_body (S n)) eq_refl eq_refl ltac:(lia) ltac:(lia)) as [P1 P2].
    rewrite <- S4. destruct (Nat.eqb_spec (S n) (12 + N.to_nat (payload_length c) + 4)) as [E|E].
    + apply body_done_sim; try assumption.
      * apply (cinv_put wait_sync1); [cbn [length]; lia|exact H0].
      * apply (cinv_put wait_sync1); [cbn [length]; lia|exact H0'].
      * change (payload_length (cput c n [b])) with (payload_length c).
        unfold pend in P1. cbn [num_buffered] in P1. replace (16 + N.to_nat (payload_length c)) with (S n) by lia. exact P1.
    + cbn [fst snd]. split; [reflexivity|]. split; [exact S1|]. split; [exact P2|]. split; [exact P1|auto].
  - cbn [fst snd]. split; [reflexivity|]. split; [exact S1|]. split; [exact S2|]. split; [exact S3|exact S4].
Qed.
Lemma crun_sim r : retry_sim r -> good_retry r -> forall l s c c', cinv s c -> cinv s c' -> csim s c c' ->
  fst (fst (crun r (s, c) l)) = fst (fst (crun r (s, c') l)) /\ snd (crun r (s, c) l) = snd (crun r (s, c') l) /\
  csim (fst (fst (crun r (s, c) l))) (snd (fst (crun r (s, c) l))) (snd (fst (crun r (s, c') l))).
Proof.
  intros Hr Hg. induction l as [|b l IH]; intros s c c' Hi Hi' Hs; [rewrite !crun_nil; auto|].
  cbn [crun fst]. destruct (is_wait_read s); [auto|].
  destruct (cstep_sim r s c c' b Hr Hi Hi' Hs) as [E1 E2].
  pose proof (cstep_inv r s c b Hg Hi) as J. pose proof (cstep_inv r s c' b Hg Hi') as J'.
  destruct (cstep_with r (s, c) b) as [s1 c1]. destruct (cstep_with r (s, c') b) as [s1' c1'].
  cbn [fst snd] in *. subst s1'. apply IH; assumption.
Qed.
Lemma retry_sim0 : retry_sim retry0.
Proof. intros c c' _ _ H1 H2 _. split; [reflexivity|]. split; [exact H1|]. split; [exact H2|]. split; [reflexivity|exact I]. Qed.
Lemma retry_sim1 : retry_sim retry1.
Proof.
  intros c c' I1 I2 H1 H2 H3. unfold retry1.
  rewrite (slice_firstn (buffer c) 12), (slice_firstn (buffer c') 12), H3 by lia.
  destruct (crun_sim retry0 retry_sim0 good_retry0 (slice (firstn 12 (buffer c')) 2 10) wait_sync1 c c' I1 I2) as (E1 & _ & E2).
  - split; [exact H1|]. split; [exact H2|]. split; [reflexivity|exact I].
  - auto.
Qed.

Definition lsim (l l' : link_layer) : Prop :=
  ll_local l = ll_local l' /\ ll_open l = ll_open l' /\ ll_processing l = ll_processing l' /\
  ll_remainder l = ll_remainder l' /\ ll_rx_queue l = ll_rx_queue l' /\
  lp_state (ll_parser l) = lp_state (ll_parser l') /\
  cinv (lp_state (ll_parser l)) (lp_context (ll_parser l)) /\
  cinv (lp_state (ll_parser l)) (lp_context (ll_parser l')) /\
  csim (lp_state (ll_parser l)) (lp_context (ll_parser l)) (lp_context (ll_parser l')).

Lemma iteration_sim l l' : lsim l l' -> exists k k' b,
  read_frame_one_iteration l = Ok (b, k) /\ read_frame_one_iteration l' = Ok (b, k') /\ lsim k k'.
Proof.
  intros (H1 & H2 & H3 & H4 & H5 & H6 & H7 & H8 & H9). unfold read_frame_one_iteration. rewrite <- H4, <- H5.
  destruct (ll_remainder l) as [|x rem] eqn:Er.
  - destruct (ll_rx_queue l) as [|ch q] eqn:Eq.
    + exists l, l', false. split; [reflexivity|]. split; [reflexivity|]. unfold lsim. rewrite Er, Eq. auto 10.
    + eexists _, _, _. split; [reflexivity|]. split; [reflexivity|]. unfold lsim, set_rx. cbn. auto 10.
  - rewrite (link_parse_spec (ll_parser l)) by exact H7. rewrite (link_parse_spec (ll_parser l')) by (rewrite <- H6; exact H8).
    cbn [obind]. rewrite <- H6.
    destruct (crun_sim retry1 retry_sim1 good_retry1 (x :: rem) _ _ _ H7 H8 H9) as (E1 & E2 & E3).
    pose proof (crun_inv retry1 good_retry1 (x :: rem) _ _ H7) as J. pose proof (crun_inv retry1 good_retry1 (x :: rem) _ _ H8) as J'.
    destruct (crun retry1 (lp_state (ll_parser l), lp_context (ll_parser l)) (x :: rem)) as [[s c] rest].
    destruct (crun retry1 (lp_state (ll_parser l), lp_context (ll_parser l')) (x :: rem)) as [[s' c'] rest'].
    cbn [fst snd] in *. subst s' rest'. eexists _, _, _. split; [reflexivity|]. split; [reflexivity|].
    unfold lsim, set_rx. cbn. auto 10.
Qed.
Lemma read_loop_sim : forall n l l', lsim l l' ->
  (exists k k', read_loop n l = Ok k /\ read_loop n l' = Ok k' /\ lsim k k') \/
  (read_loop n l = NoFuel /\ read_loop n l' = NoFuel).
Proof.
  induction n as [|n IH]; intros l l' H; [right; auto|]. cbn [read_loop].
  destruct (iteration_sim l l' H) as (k & k' & b & E & E' & H'). rewrite E, E'. cbn [obind].
  destruct b; [apply IH; exact H'|left; eauto].
Qed.
Lemma get_frame_sim l l' : lsim l l' -> exists k k' b, get_frame l = Ok (b, k) /\ get_frame l' = Ok (b, k') /\ lsim k k' /\
  b = has_result (ll_parser k).
Proof.
  intros H. pose proof H as (H1 & H2 & H3 & H4 & H5 & H6 & H7 & H8 & H9).
  destruct (get_frame_spec l H7) as (k & E & _). unfold get_frame in *. unfold has_result in *. rewrite <- H6.
  destruct (is_wait_read (lp_state (ll_parser l))) eqn:Er.
  - exists l, l', true. auto.
  - rewrite <- H5. destruct (read_loop_sim (2 * length (ll_rx_queue l) + 3) l l' H) as [(k1 & k' & E1 & E2 & S)|[E1 E2]].
    + rewrite E1, E2 in *. cbn [obind] in *. clear E. exists k1, k', (is_wait_read (lp_state (ll_parser k1))).
      split; [reflexivity|]. split; [|auto]. destruct S as (_ & _ & _ & _ & _ & S6 & _). rewrite S6. reflexivity.
    + rewrite E1 in E. discriminate.
Qed.
Lemma lsim_discard l l' b : lsim l l' -> lsim (set_processing (ll_discard l) b) (set_processing (ll_discard l') b).
Proof.
  intros (H1 & H2 & H3 & H4 & H5 & H6 & H7 & H8 & H9). unfold lsim, set_processing, ll_discard, set_rx. cbn.
  repeat (split; [first [assumption | reflexivity | eapply cinv_sync1; eassumption]|]).
  destruct H9 as (S1 & S2 & _). split; [exact S1|]. split; [exact S2|]. split; [reflexivity|exact I].
Qed.

Lemma step_sim l l' o : lsim l l' -> exists k k' out, ll_step l o = Ok (k, out) /\ ll_step l' o = Ok (k', out) /\ lsim k k'.
Proof.
  intros H. pose proof H as (H1 & H2 & H3 & H4 & H5 & H6 & H7 & H8 & H9).
  destruct o as [| | | |ch| |d]; cbn [ll_step].
  - rewrite <- H2. destruct (ll_open l); eexists _, _, _; (split; [reflexivity|]); (split; [reflexivity|]); [exact H|].
    unfold lsim, set_open. cbn. auto 10.
  - rewrite <- H2. destruct (ll_open l); eexists _, _, _; (split; [reflexivity|]); (split; [reflexivity|]); [|exact H].
    assert (X : lsim (set_open l false) (set_open l' false)) by (unfold lsim, set_open; cbn; auto 10).
    pose proof (lsim_discard _ _ (ll_processing l) X) as Y. unfold set_processing, ll_discard, set_rx, set_open in *. cbn in *.
    rewrite <- H3. exact Y.
  - rewrite <- H2. destruct (ll_open l); eexists _, _, _; (split; [reflexivity|]); (split; [reflexivity|]); exact H.
  - rewrite <- H2. destruct (ll_open l).
    + destruct (get_frame_sim l l' H) as (k & k' & b & E & E' & S & _). rewrite E, E'. cbn [obind].
      eexists _, _, _. split; [reflexivity|]. split; [reflexivity|exact S].
    + eexists _, _, _. split; [reflexivity|]. split; [reflexivity|exact H].
  - eexists _, _, _. split; [reflexivity|]. split; [reflexivity|]. unfold lsim. cbn. rewrite H5. auto 10.
  - unfold ll_start_rx. rewrite <- H3.
    set (m := if ll_processing l then set_processing (ll_discard l) false else l).
    set (m' := if ll_processing l then set_processing (ll_discard l') false else l').
    assert (HM : lsim m m') by (unfold m, m'; destruct (ll_processing l); [apply lsim_discard; exact H|exact H]).
    clearbody m m'. unfold ll_start_rx_impl.
    destruct (get_frame_sim m m' HM) as (k & k' & b & E & E' & S & Hb). rewrite E, E'. cbn [obind].
    pose proof S as (S1 & S2 & S3 & S4 & S5 & S6 & S7 & S8 & S9).
    destruct b.
    + unfold link_read. unfold has_result in *. rewrite <- S6, <- Hb. fold (rd (lp_context (ll_parser k))). fold (rd (lp_context (ll_parser k'))).
      assert (R : rd (lp_context (ll_parser k)) = rd (lp_context (ll_parser k'))).
      { destruct S9 as (_ & _ & _ & S9). destruct (lp_state (ll_parser k)); try discriminate. exact S9. }
      rewrite <- R, <- S1. destruct (_ =? _)%N; cbn [obind].
      * destruct (f_payload (rd (lp_context (ll_parser k)))); eexists _, _, _; (split; [reflexivity|]); (split; [reflexivity|]); [exact S|].
        unfold lsim, set_processing. cbn. auto 10.
      * eexists _, _, _. split; [reflexivity|]. split; [reflexivity|exact S].
    + cbn [obind]. eexists _, _, _. split; [reflexivity|]. split; [reflexivity|exact S].
  - eexists _, _, _. split; [reflexivity|]. split; [reflexivity|exact H].
Qed.
Lemma run_sim ops : forall l l', lsim l l' -> exists k k' out, ll_run l ops = Ok (k, out) /\ ll_run l' ops = Ok (k', out) /\ lsim k k'.
Proof.
  induction ops as [|o ops IH]; intros l l' H; cbn [ll_run]; [exists l, l', []; auto|].
  destruct (step_sim l l' o H) as (k & k' & out & E & E' & S). rewrite E, E'. cbn [obind].
  destruct (IH k k' S) as (j & j' & out2 & E2 & E2' & S2). rewrite E2, E2'. cbn [obind]. eauto 10.
Qed.

(** After a close that was effective, with nothing of the old connection left over, the layer
    behaves like a new one. *)
Lemma isolation local remote before l out l0 out0 after :
  Forall op_ok before ->
  ll_run (new_link_layer local remote) before = Ok (l0, out0) -> ll_open l0 = true ->
  ll_remainder l0 = [] -> ll_rx_queue l0 = [] -> ll_processing l0 = false ->
  ll_run (new_link_layer local remote) (before ++ [LClose]) = Ok (l, out) ->
  exists k k' out2, ll_run l after = Ok (k, out2) /\ ll_run (new_link_layer local remote) after = Ok (k', out2).
Proof.
  intros Hok E0 Ho Hr Hq Hp E.
  destruct (ll_run_inv local before _ _ _ (LI_new local remote) Hok) as (l1 & o1 & gs & E1 & HL & _).
  rewrite E0 in E1. injection E1 as <- <-.
  rewrite ll_run_app, E0 in E. cbn [obind ll_run ll_step] in E. rewrite Ho in E. cbn [obind] in E. injection E as <- <-.
  destruct HL as (L1 & L2 & L3 & _).
  assert (S : lsim (ll_discard (set_open l0 false)) (new_link_layer local remote)).
  { unfold lsim, ll_discard, set_rx, set_open, new_link_layer. cbn [ll_local ll_open ll_processing ll_remainder ll_rx_queue ll_parser].
    split; [exact L1|]. split; [reflexivity|]. split; [exact Hp|]. split; [exact Hr|]. split; [exact Hq|].
    split; [reflexivity|].
    pose proof (cinv_sync1 _ _ (proj1 L2)) as C0. pose proof (proj1 (new_pinv 4092)) as C1.
    split; [exact C0|]. split; [exact C1|].
    split; [exact L3|]. split; [exact I|split; [reflexivity|exact I]]. }
  destruct (run_sim after _ _ S) as (k & k' & out2 & A & B & _). eauto.
Qed.

Lemma start_rx_open_local l ret l' : cinv (lp_state (ll_parser l)) (lp_context (ll_parser l)) ->
  ll_start_rx l = Ok (ret, l') -> ll_open l' = ll_open l /\
  (Forall (fun ch => ch <> []) (ll_rx_queue l) -> Forall (fun ch => ch <> []) (ll_rx_queue l')) /\
  (ret = [] -> ll_processing l' = false) /\ cinv (lp_state (ll_parser l')) (lp_context (ll_parser l')).
Proof.
  intros Hi. unfold ll_start_rx.
  set (l1 := if ll_processing l then set_processing (ll_discard l) false else l).
  assert (H1 : cinv (lp_state (ll_parser l1)) (lp_context (ll_parser l1)) /\ ll_processing l1 = false /\ ll_open l1 = ll_open l /\ ll_rx_queue l1 = ll_rx_queue l).
  { unfold l1. destruct (ll_processing l) eqn:E; [|auto]. split; [exact (cinv_sync1 _ _ Hi)|auto]. }
  destruct H1 as (Hi1 & Hp1 & Ho1 & Hq1). clearbody l1. unfold ll_start_rx_impl.
  destruct (get_frame_spec l1 Hi1) as (l2 & E & G). rewrite E. cbn [obind].
  assert (Ho2 : ll_open l2 = ll_open l) by (rewrite (gf_open _ _ G); exact Ho1).
  assert (Hp2 : ll_processing l2 = false) by (rewrite (gf_proc _ _ G); exact Hp1).
  pose proof (gf_ne _ _ G) as Hne. rewrite Hq1 in Hne.
  destruct G as [_ _ _ _ (used & _ & U2) _ _].
  pose proof (crun_inv retry1 good_retry1 used _ _ Hi1) as I'.
  change (lp_state (ll_parser l1), lp_context (ll_parser l1)) with (psc (ll_parser l1)) in I'. rewrite U2 in I'. cbn [psc fst snd] in I'.
  assert (Fin : forall r, Ok (r, match r with [] => l2 | _ :: _ => set_processing l2 true end) = Ok (ret, l') ->
    ll_open l' = ll_open l /\
  (Forall (fun ch => ch <> []) (ll_rx_queue l) -> Forall (fun ch => ch <> []) (ll_rx_queue l')) /\
  (ret = [] -> ll_processing l' = false) /\ cinv (lp_state (ll_parser l')) (lp_context (ll_parser l'))).
  { intros r X. injection X as <- <-. destruct r; cbn [set_processing ll_open ll_rx_queue ll_processing ll_parser]; (split; [exact Ho2|split; [exact Hne|]]).
    - split; [auto|exact I'].
    - split; [discriminate|exact I']. }
  destruct (has_result (ll_parser l2)).
  - destruct (link_read (ll_parser l2)) as [r|]; [|discriminate]. destruct (_ =? _)%N; cbn [obind]; apply Fin.
  - cbn [obind]. apply Fin.
Qed.

Lemma ne_run local : forall ops l arr gs l' out, LI local arr gs l -> Forall op_ok ops -> Forall chunk_ok ops ->
  ll_run l ops = Ok (l', out) -> Forall (fun ch => ch <> []) (ll_rx_queue l) -> Forall (fun ch => ch <> []) (ll_rx_queue l').
Proof.
  induction ops as [|o ops IH]; intros l arr gs l' out HL Hok Hc E Hq; cbn [ll_run] in E; [injection E as <- _; exact Hq|].
  inversion Hok as [|x y Ho Hok']; subst x y. inversion Hc as [|x y Hco Hc']; subst x y.
  destruct (ll_run_inv local [o] l arr gs HL) as (l1 & o1 & gs1 & E1 & HL1 & _); [repeat constructor; exact Ho|].
  cbn [ll_run] in E1. destruct (ll_step l o) as [[l2 o2]| |] eqn:Es; cbn [obind] in E1, E; try discriminate.
  injection E1 as E1 _. subst l2.
  destruct (ll_run l1 ops) as [[l3 o3]| |] eqn:E2; cbn [obind] in E; try discriminate. injection E as <- _.
  refine (IH l1 _ _ l3 o3 HL1 Hok' Hc' E2 _).
  pose proof (proj1 (proj1 (proj2 HL))) as Hi0.
  assert (Hi : cinv (lp_state (ll_parser l)) (lp_context (ll_parser l))) by apply HL.
  destruct o as [| | | |ch| |d]; cbn [ll_step] in Es.
  - destruct (ll_open l); injection Es as <- _; exact Hq.
  - destruct (ll_open l); injection Es as <- _; exact Hq.
  - destruct (ll_open l); injection Es as <- _; exact Hq.
  - destruct (ll_open l); [|injection Es as <- _; exact Hq].
    destruct (get_frame_spec l Hi) as (l2 & Eg & G). rewrite Eg in Es. cbn [obind] in Es. injection Es as <- _.
    exact (gf_ne _ _ G Hq).
  - injection Es as <- _. cbn. apply Forall_app. split; [exact Hq|repeat constructor; exact Hco].
  - destruct (ll_start_rx l) as [[ret l2]| |] eqn:Er; cbn [obind] in Es; try discriminate. injection Es as <- _.
    apply (start_rx_open_local l ret l2 Hi Er). exact Hq.
  - injection Es as <- _. exact Hq.
Qed.

Lemma isolation_drained local remote pre l0 out0 l1 :
  Forall op_ok pre -> Forall chunk_ok pre ->
  ll_run (new_link_layer local remote) pre = Ok (l0, out0) -> ll_open l0 = true ->
  ll_run l0 [LStartRx; LRxReady] = Ok (l1, []) ->
  exists l2, ll_run l1 [LClose] = Ok (l2, [UpClose]) /\
    forall after, exists k k' out, ll_run l2 after = Ok (k, out) /\ ll_run (new_link_layer local remote) after = Ok (k', out).
Proof.
  intros Hok Hc E0 Ho E1.
  destruct (ll_run_inv local pre _ _ _ (LI_new local remote) Hok) as (l0' & o0' & gs & E0' & HL & _).
  rewrite E0 in E0'. injection E0' as <- <-.
  pose proof (ne_run local pre _ _ _ _ _ (LI_new local remote) Hok Hc E0 (Forall_nil _)) as Hne.
  assert (Hi : cinv (lp_state (ll_parser l0)) (lp_context (ll_parser l0))) by apply HL.
  cbn [ll_run ll_step] in E1.
  destruct (ll_start_rx l0) as [[ret la]| |] eqn:Ea; cbn [obind] in E1; try discriminate.
  destruct (start_rx_open_local l0 ret la Hi Ea) as (Oa & Na & Pa & Ia). specialize (Na Hne).
  rewrite Oa, Ho in E1.
  destruct (get_frame_spec la Ia) as (lb & Eb & G). rewrite Eb in E1. cbn [obind] in E1.
  destruct ret as [|x ret]; [|discriminate]. specialize (Pa eq_refl).
  destruct (has_result (ll_parser lb)) eqn:Hr; [discriminate|]. cbn [app] in E1. injection E1 as <-.
  destruct (gf_all _ _ G Na Hr) as [R1 R2].
  assert (Ob : ll_open lb = true) by (rewrite (gf_open _ _ G), Oa; exact Ho).
  exists (ll_discard (set_open lb false)). split; [cbn [ll_run ll_step]; rewrite Ob; reflexivity|].
  intros after.
  assert (E2 : ll_run (new_link_layer local remote) (pre ++ [LStartRx; LRxReady]) = Ok (lb, out0 ++ [])).
  { rewrite ll_run_app, E0. cbn [obind ll_run ll_step]. rewrite Ea. cbn [obind]. rewrite Oa, Ho, Eb. cbn [obind]. reflexivity. }
  assert (Hok2 : Forall op_ok (pre ++ [LStartRx; LRxReady])) by (apply Forall_app; split; [exact Hok|repeat constructor]).
  refine (isolation local remote (pre ++ [LStartRx; LRxReady]) _ (out0 ++ [UpClose]) lb _ after Hok2 E2 Ob R1 R2 _ _).
  - rewrite (gf_proc _ _ G). exact Pa.
  - rewrite ll_run_app, E2. cbn [obind ll_run ll_step]. rewrite Ob. cbn [obind]. now rewrite app_nil_r.
Qed.

(** ** Two stacks with mirrored addresses *)
Lemma write_mine a b w bytes payload : (a_destination a < 65536)%N -> (a_source a < 65536)%N ->
  stack_write a w = Some (bytes, payload) -> bytes_ok payload -> payload <> [] -> a_source b = a_destination a ->
  let f := {| f_destination := a_destination a; f_source := a_source a; f_payload := payload |} in
  bytes = frame_bytes f /\ mine (a_source b) f.
Proof.
  intros Hd Hs Hw Hb Hne Hm. destruct (link_write_bytes _ _ _ _ _ _ Hw) as (H1 & H2 & H3). cbn zeta.
  split; [exact H1|]. split; [|cbn; auto]. repeat split; assumption.
Qed.
