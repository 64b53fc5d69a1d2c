(** * StackFacts: a run of the complete stack is a run of its link layer and a run of its crypto layer *)
From Verif Require Import Base BaseFacts Codec CodecSpec Link LinkSpec LinkFacts LinkMain LinkLayer LinkLayerSpec LinkLayerFacts Primitives Session SessionSpec
  Handshake Endpoint EndpointSpec EndpointFacts EndpointMain EndpointRx EndpointTx PairSpec Stack StackSpec.
Local Open Scope nat_scope.

Definition in_sync (s : stack) : Prop := ll_open (st_link s) = st_open s /\ ep_open (st_crypto s) = st_open s.

(** What is known about the messages of a step *)
Definition from_link (k : config) (l : label) : Prop :=
  match l with Run inp => bytes_ok (in_message inp) /\ (in_message inp <> [] -> hd_error (snd k) = Some ITryRead) | Ext _ => True end.
Definition any_message (Q : config -> label -> Prop) : Prop := forall k inp m, Q k (Run inp) -> Q k (Run (with_message inp m)).

Record related (Q : config -> label -> Prop) (local : N) (k : sconfig) (ke : config) : Prop := {
  re_sync : in_sync (fst k);
  re_crypto : fst ke = st_crypto (fst k);
  re_calls : calls_ok (snd k);
  re_stack : (snd ke = snd k /\ hd_error (snd k) <> Some (ICall LowerRxReady)) \/
             (snd k = [ICall LowerRxReady] /\ snd ke = [] /\ Q ke (Ext (Enter LowerRxReady)) /\ from_outside ke (Ext (Enter LowerRxReady)));
  re_link : exists arr gs, LI local arr gs (st_link (fst k)) }.

Lemma exec_open C s i inp s' pushed e : exec C s i inp = Ok (s', pushed, e) ->
  ep_open s' = match i with ICall LowerOpen => true | ICall LowerClose => false | _ => ep_open s end.
Proof. intros H. destruct i as [[]| | | | | | | | | | | | |]; exec_cases H; splits; try reflexivity; congruence. Qed.
Lemma messages_app a b : messages (a ++ b) = messages a ++ messages b. Proof. apply flat_map_app. Qed.
(** Only reading takes a message *)
Lemma exec_messages C s i inp s' pushed e : exec C s i inp = Ok (s', pushed, e) ->
  messages e = match i with ITryRead => if reads_link s inp then match in_message inp with [] => [] | m => [m] end else [] | _ => [] end.
Proof.
  unfold reads_link. intros H. destruct (in_ready inp) eqn:R, (ep_payload s) eqn:P; cbn [andb].
  all: destruct i as [[]| | | | | | | | | | | | |]; exec_cases H; splits; try reflexivity; try congruence; try (rewrite P in *; congruence).
  all: try (rewrite ?R, ?P in *; discriminate).
  all: match goal with H : in_message _ = _ |- _ => rewrite H end; reflexivity.
Qed.
Lemma deliveries_app a b : deliveries (a ++ b) = deliveries a ++ deliveries b. Proof. apply flat_map_app. Qed.

Definition full (Q : config -> label -> Prop) (k : config) (l : label) : Prop := Q k l /\ from_outside k l /\ from_link k l.

(** Nothing else happens at the link layer *)
Definition tracks (ops : list ll_op) (ls : list slabel) (e : list event) : Prop :=
  (forall ch, In (LArrive ch) ops -> In (SArrive ch) ls) /\ (In LClose ops -> In EvClosed e).
Lemma tracks_app a b ls1 ls2 e1 e2 : tracks a ls1 e1 -> tracks b ls2 e2 -> tracks (a ++ b) (ls1 ++ ls2) (e1 ++ e2).
Proof. intros [A1 A2] [B1 B2]. split; [intros ch H|intros H]; apply in_app_or in H; apply in_or_app; destruct H; auto. Qed.
Ltac trk := match goal with |- tracks _ _ _ => split; [intros ? HH; cbn in HH; intuition congruence|intros HH; cbn in HH; intuition congruence] end.
Definition simulated (Q : config -> label -> Prop) (C : econf) (local : N) (s : stack) (ke : config) (ls0 : list slabel) (k' : sconfig) (e : list event) : Prop :=
  exists ls ke' ops out, run C ke ls = Ok (ke', e) /\ along (full Q) C ke ls /\ related Q local k' ke' /\
    ll_run (st_link s) ops = Ok (st_link (fst k'), out) /\ deliveries out = messages e /\ arrivals ops = wire_in ls0 /\ tracks ops ls0 e.

Lemma LI_step local arr gs l o l' out : LI local arr gs l -> op_ok o -> ll_step l o = Ok (l', out) -> exists arr' gs', LI local arr' gs' l'.
Proof.
  intros H Ho Hs. destruct (ll_run_inv local [o] l arr gs H) as (l1 & out1 & gs1 & E & L & _); [constructor; auto|].
  cbn [ll_run] in E. rewrite Hs in E. cbn [obind] in E. injection E as <- <-. eauto.
Qed.
Lemma one_op l o l' out : ll_step l o = Ok (l', out) -> ll_run l [o] = Ok (l', out).
Proof. intros H. cbn [ll_run]. rewrite H. cbn [obind]. now rewrite app_nil_r. Qed.
Lemma one_step C k l k' e : step C k l = Ok (k', e) -> run C k [l] = Ok (k', e).
Proof. intros H. cbn [run]. rewrite H. cbn [obind]. now rewrite app_nil_r. Qed.
Lemma ll_open_step l o l' out : ll_step l o = Ok (l', out) -> (exists arr gs local, LI local arr gs l) ->
  ll_open l' = match o with LOpen => true | LClose => false | _ => ll_open l end.
Proof.
  intros H (arr & gs & local & HL). destruct o as [| | | |ch| |d]; cbn [ll_step] in H.
  - destruct (ll_open l) eqn:O; injection H as <- <-; auto.
  - destruct (ll_open l) eqn:O; injection H as <- <-; auto.
  - destruct (ll_open l) eqn:O; injection H as <- <-; auto.
  - destruct (ll_open l) eqn:O; [|injection H as <- <-; auto]. destruct (get_frame_spec l) as (l2 & E & G); [apply HL|]. rewrite E in H. cbn [obind] in H. injection H as <- <-. rewrite (gf_open _ _ G). exact O.
  - injection H as <- <-. reflexivity.
  - destruct (ll_start_rx_spec local arr gs l HL) as (l2 & ret & E & O & _). rewrite E in H. cbn [obind] in H. injection H as <- <-. exact O.
  - injection H as <- <-. reflexivity.
Qed.
Lemma calls_hd stk c : calls_ok stk -> hd_error stk = Some (ICall c) -> is_lower (ICall c) = true -> stk = [ICall c].
Proof. intros [H|[c' ->]] E L; [|cbn in E; congruence]. destruct stk as [|i r]; [discriminate|]. cbn in E. injection E as ->. apply none_cons in H. destruct H. congruence. Qed.

(** A step of the crypto layer on the message [m] *)
Lemma crypto_sim Q C local s i rest inp m l' open c' pushed e : any_message Q ->
  related Q local (s, i :: rest) (st_crypto s, i :: rest) -> Q (st_crypto s, i :: rest) (Run inp) -> from_outside (st_crypto s, i :: rest) (Run inp) ->
  exec C (st_crypto s) i (with_message inp m) = Ok (c', pushed, e) -> bytes_ok m -> (m <> [] -> i = ITryRead) ->
  in_sync {| st_open := open; st_link := l'; st_crypto := c' |} -> (exists arr gs, LI local arr gs l') ->
  exists ls ke', run C (st_crypto s, i :: rest) ls = Ok (ke', e) /\ along (full Q) C (st_crypto s, i :: rest) ls /\
    related Q local ({| st_open := open; st_link := l'; st_crypto := c' |}, pushed ++ rest) ke'.
Proof.
  intros QM R HQ HF X B M S L. exists [Run (with_message inp m)], (c', pushed ++ rest).
  assert (St : step C (st_crypto s, i :: rest) (Run (with_message inp m)) = Ok ((c', pushed ++ rest), e)) by (cbn [step snd fst]; rewrite X; reflexivity).
  split; [apply one_step; exact St|]. split.
  - cbn [along]. rewrite St. split; [|exact I]. split; [apply QM; exact HQ|]. split; [exact HF|]. cbn [from_link with_message in_message hd_error snd]. split; [exact B|]. intros Hm. now rewrite (M Hm).
  - assert (CO : calls_ok (pushed ++ rest)) by (eapply calls_pushed; [exact X|exact HF|apply (re_calls _ _ _ _ R)]).
    constructor; cbn [fst snd]; auto. left. split; [reflexivity|]. intros Hh. pose proof (calls_hd _ _ CO Hh eq_refl) as E.
    assert (none_of is_lower (pushed ++ rest)) as N.
    { assert (N1 : none_of is_lower rest). { destruct (re_calls _ _ _ _ R) as [Hr|[c Hr]]; cbn [snd] in Hr; [apply none_cons in Hr; tauto|]. injection Hr as _ ->. reflexivity. }
      apply none_app. split; [|exact N1]. assert (N3 : none_of is_lower (map ICall (in_calls inp))).
      { cbn in HF. revert HF. induction (in_calls inp) as [|c cs IH]; cbn; [reflexivity|]. rewrite Bool.andb_true_iff. intros [Hc1 Hc2]. apply none_cons. split; auto. destruct c; auto; discriminate. }
      destruct i; exec_cases X; splits; auto; reflexivity. }
    rewrite E in N. discriminate N.
Qed.

Lemma LI_bytes local arr gs l l' m : LI local arr gs l -> ll_start_rx l = Ok (m, l') -> bytes_ok m /\ (exists arr' gs', LI local arr' gs' l') /\ ll_open l' = ll_open l.
Proof.
  intros H E. destruct (ll_start_rx_spec local arr gs l H) as (l1 & ret & E1 & O & [[-> H1]|[Hne (f & F1 & F2 & F3)]]); rewrite E in E1; injection E1 as -> ->.
  - split; [constructor|]. eauto.
  - split; [|eauto]. destruct F3 as (_ & _ & _ & _ & A & B & _ & HF & _). rewrite <- F2.
    assert (forall gs A, frames_in 4092 gs A -> Forall (frame_ok 4092) gs) as X by (induction 1; constructor; auto).
    apply X in HF. rewrite Forall_forall in HF. apply (HF f). apply in_or_app. right. now left.
Qed.
Lemma not_rxready c : (forall x, c = ICall LowerRxReady -> x) -> hd_error [c] <> Some (ICall LowerRxReady).
Proof. intros H E. injection E as E. exact (H False E). Qed.

Lemma sim_step Q C local k ke l k' e : any_message Q -> related Q local k ke -> arrival_ok l ->
  match l with SLab l0 => Q (st_crypto (fst k), snd k) l0 /\ from_outside (st_crypto (fst k), snd k) l0 | _ => True end ->
  stack_step C k l = Ok (k', e) -> simulated Q C local (fst k) ke [l] k' e.
Proof.
  intros QM R HA HQ H. destruct k as [s stk]. destruct ke as [c kstk]. destruct R as [[S1 S2] Rc Rk Rs (arr & gs & RL)]. cbn [fst snd] in *. subst c.
  assert (Idle : forall ls0, wire_in ls0 = [] -> simulated Q C local s (st_crypto s, kstk) ls0 (s, stk) []).
  { intros ls0 W. exists [], (st_crypto s, kstk), [], []. repeat split; cbn; auto; eauto; cbn; tauto. }
  destruct l as [ch|[x|inp]]; unfold stack_step in H; cbn [fst snd] in H.
  - assert (k' = ({| st_open := st_open s; st_link := arrive_link (st_link s) ch; st_crypto := st_crypto s |}, stk) /\ e = []) as [-> ->] by (destruct stk; injection H as <- <-; auto).
    exists [], (st_crypto s, kstk), [LArrive ch], []. repeat split; cbn; auto; try (intuition congruence).
    exists (arr ++ ch), gs. apply LI_extend; auto.
  - destruct stk as [|i rest]; [|injection H as <- <-; apply Idle; reflexivity].
    assert (kstk = []) as -> by (destruct Rs as [[-> _]|[X _]]; [reflexivity|discriminate]).
    destruct (inject (st_crypto s) x) as [c1 stk1] eqn:EI. injection H as <- <-. destruct HQ as [HQ HF].
    pose proof (inject_rx (st_crypto s) x) as HX. rewrite EI in HX. cbn [fst] in HX. destruct HX as (_ & _ & _ & _ & HO).
    pose proof (inject_stack (st_crypto s) x) as HS. rewrite EI in HS. cbn [snd] in HS.
    assert (CO : calls_ok stk1). { destruct HS as [->|[->|[c ->]]]; [left; reflexivity|left; reflexivity|right; eauto]. }
    assert (D : x = Enter LowerRxReady \/ hd_error stk1 <> Some (ICall LowerRxReady)).
    { destruct HS as [->|[->|[c ->]]]; [right; discriminate|right; discriminate|]. destruct x as [c0| |n| |]; cbn in EI.
      - injection EI as _ <-. destruct c0; auto; right; discriminate.
      - right. destruct (ep_timer (st_crypto s)) as [[]|]; cbn in EI; congruence.
      - right. destruct (nth_error _ _) as [[]|]; cbn in EI; congruence.
      - right. destruct (ep_session_timer _); congruence.
      - right. destruct (ep_session_stale _); congruence. }
    destruct D as [->|D].
    + cbn in EI. injection EI as <- <-. exists [], (st_crypto s, []), [], []. repeat split; cbn; auto; eauto; cbn; tauto.
    + exists [Ext x], (c1, stk1), [], []. repeat split; cbn; rewrite ?EI; cbn; auto; eauto; try congruence; try tauto.
  - destruct stk as [|i rest]; [injection H as <- <-; apply Idle; reflexivity|]. destruct HQ as [HQ HF].
    destruct (stack_exec C s i inp) as [[[s' pushed] e1]| |] eqn:X; cbn [obind] in H; try discriminate H. injection H as <- <-.
    destruct Rs as [[-> Hh]|(Es & -> & HQ' & HF')].
    + assert (R : related Q local (s, i :: rest) (st_crypto s, i :: rest)) by (constructor; cbn; auto; [split; auto|eauto]).
      assert (Own : forall m l' open c' ops out, exec C (st_crypto s) i (with_message inp m) = Ok (c', pushed, e1) -> bytes_ok m -> (m <> [] -> i = ITryRead) ->
        s' = {| st_open := open; st_link := l'; st_crypto := c' |} -> ll_run (st_link s) ops = Ok (l', out) -> Forall op_ok ops -> arrivals ops = [] -> tracks ops [SLab (Run inp)] e1 ->
        deliveries out = messages e1 -> ll_open l' = open -> ep_open c' = open -> simulated Q C local s (st_crypto s, i :: rest) [SLab (Run inp)] (s', pushed ++ rest) e1).
      { intros m l' open c' ops out X1 B M Es X2 X3 X4 XT X5 O1 O2. subst s'.
        destruct (ll_run_inv local ops (st_link s) arr gs RL X3) as (l1 & out1 & gs1 & E1 & L1 & _). rewrite X2 in E1. injection E1 as -> ->.
        destruct (crypto_sim Q C local s i rest inp m l1 open c' pushed e1 QM R HQ HF X1 B M) as (ls & ke' & Y1 & Y2 & Y3); [split; auto|eauto|].
        exists ls, ke', ops, out1. repeat split; auto; first [apply Y3|apply XT]. }
      assert (Silent : forall i0 inp0 c' p0 e0, exec C (st_crypto s) i0 inp0 = Ok (c', p0, e0) -> i0 <> ITryRead -> messages e0 = []).
      { intros i0 inp0 c' p0 e0 E N. rewrite (exec_messages _ _ _ _ _ _ _ E). destruct i0; congruence. }
      assert (Plain : (forall c, i <> ICall c \/ c = StartRx \/ exists d, c = StartTx d) -> i <> ITryRead ->
        crypto_step C (st_open s) (st_link s) (st_crypto s) i (with_message inp []) = Ok (s', pushed, e1) -> simulated Q C local s (st_crypto s, i :: rest) [SLab (Run inp)] (s', pushed ++ rest) e1).
      { intros N1 N2 E. unfold crypto_step in E. destruct (exec C (st_crypto s) i (with_message inp [])) as [[[c' p0] e0]| |] eqn:E1; cbn [obind] in E; try discriminate. injection E as <- -> ->.
        eapply (Own [] (st_link s) (st_open s) c' [] []); eauto; [constructor|congruence|trk|symmetry; eapply Silent; eauto|].
        rewrite (exec_open _ _ _ _ _ _ _ E1). destruct i; auto. destruct (N1 c) as [N|[->|[d ->]]]; auto; congruence. }
      assert (Pass : forall o c, i = ICall c -> (o = LOpen /\ c = LowerOpen /\ st_open s = false \/ o = LClose /\ c = LowerClose /\ st_open s = true \/ o = LTxReady /\ c = LowerTxReady /\ st_open s = true) ->
        through_link C (match c with LowerClose => false | _ => true end) s o c inp = Ok (s', pushed, e1) -> simulated Q C local s (st_crypto s, i :: rest) [SLab (Run inp)] (s', pushed ++ rest) e1).
      { intros o c -> D E. unfold through_link in E.
        assert (Nm : ICall c <> ITryRead) by discriminate.
        destruct (ll_step (st_link s) o) as [[l1 out1]| |] eqn:E1; cbn [obind] in E; try discriminate.
        assert (out1 <> [] /\ deliveries out1 = [] /\ op_ok o /\ arrivals [o] = [] /\ ll_open l1 = match c with LowerClose => false | _ => true end) as (D1 & D2 & D3 & D4 & D5).
        { destruct D as [(-> & -> & D)|[(-> & -> & D)|(-> & -> & D)]]; cbn [ll_step] in E1; rewrite S1, D in E1; injection E1 as <- <-; repeat split; try discriminate; cbn; auto. congruence. }
        destruct out1 as [|y ys]; [congruence|]. unfold crypto_step in E.
        destruct (exec C (st_crypto s) (ICall c) inp) as [[[c' p0] e0]| |] eqn:E2; cbn [obind] in E; try discriminate. injection E as <- -> ->.
        assert (E3 : exec C (st_crypto s) (ICall c) (with_message inp []) = Ok (c', pushed, e1)) by (rewrite <- E2; reflexivity).
        eapply (Own [] l1 _ c' [o] (y :: ys)); eauto.
        - constructor. - congruence. - apply one_op. exact E1.
        - split; [intros ch HH; cbn in HH; destruct D as [(-> & _)|[(-> & _)|(-> & _)]]; intuition congruence|]. intros HH. destruct D as [(-> & _)|[(_ & -> & D)|(-> & _)]]; cbn in HH; [intuition congruence| |intuition congruence].
          cbn [exec enter] in E2. rewrite S2, D in E2. injection E2 as <- <- <-. left. reflexivity.
        - rewrite D2. symmetry. eapply Silent; eauto.
        - rewrite (exec_open _ _ _ _ _ _ _ E3). destruct D as [(_ & -> & D)|[(_ & -> & D)|(_ & -> & D)]]; auto. congruence. }
      destruct i as [[d| | | | |]| | | | | | | | | | | | |]; cbn [stack_exec] in X;
        try (apply Plain; [intros c; left; discriminate|discriminate|exact X]); try (apply Plain; [|discriminate|exact X]).
      * intros c. destruct c; eauto; left; discriminate.
      * intros c. destruct c; eauto; left; discriminate.
      * destruct (st_open s) eqn:O; [|eapply (Pass LOpen LowerOpen); eauto].
        injection X as <- <- <-. apply (Own [] (st_link s) (st_open s) (st_crypto s) [] []); auto; try congruence; try trk; try (destruct s; reflexivity); try constructor.
        cbn [exec enter]. now rewrite S2.
      * destruct (st_open s) eqn:O; [eapply (Pass LClose LowerClose); eauto 6|].
        injection X as <- <- <-. apply (Own [] (st_link s) (st_open s) (st_crypto s) [] []); auto; try congruence; try trk; try (destruct s; reflexivity); try constructor.
        cbn [exec enter]. now rewrite S2.
      * destruct (st_open s) eqn:O; [eapply (Pass LTxReady LowerTxReady); eauto 7|].
        injection X as <- <- <-. apply (Own [] (st_link s) false (set_busy (st_crypto s) false) [] []); auto; try congruence; try trk; try constructor.
        cbn [exec enter]. cbn. now rewrite S2.
      * destruct (st_open s) eqn:O; exfalso; apply Hh; reflexivity.
      * destruct (reads_link (st_crypto s) inp) eqn:RL1.
        -- destruct (ll_start_rx (st_link s)) as [[m l1]| |] eqn:E1; cbn [obind] in X; try discriminate. unfold crypto_step in X.
           destruct (exec C (st_crypto s) ITryRead (with_message inp m)) as [[[c' p0] e0]| |] eqn:E2; cbn [obind] in X; try discriminate. injection X as <- -> ->.
           destruct (LI_bytes _ _ _ _ _ _ RL E1) as (B1 & B2 & B3).
           assert (ES : ll_step (st_link s) LStartRx = Ok (l1, match m with [] => [] | _ => [Data m] end)) by (cbn [ll_step]; rewrite E1; reflexivity).
           eapply (Own m l1 (st_open s) c' [LStartRx]); try apply one_op; try exact ES; auto; try congruence; try trk.
           ++ pose proof (exec_messages _ _ _ _ _ _ _ E2) as EM. cbn [with_message in_message] in EM.
              change (reads_link (st_crypto s) (with_message inp m)) with (reads_link (st_crypto s) inp) in EM. rewrite RL1 in EM. rewrite EM. destruct m; reflexivity.
           ++ rewrite (exec_open _ _ _ _ _ _ _ E2). exact S2.
        -- unfold crypto_step in X. destruct (exec C (st_crypto s) ITryRead (with_message inp [])) as [[[c' p0] e0]| |] eqn:E2; cbn [obind] in X; try discriminate. injection X as <- -> ->.
           eapply (Own [] (st_link s) (st_open s) c' [] []); auto; try trk; try constructor.
           ++ pose proof (exec_messages _ _ _ _ _ _ _ E2) as EM. cbn [with_message in_message] in EM.
              change (reads_link (st_crypto s) (with_message inp [])) with (reads_link (st_crypto s) inp) in EM. rewrite RL1 in EM. now rewrite EM.
           ++ rewrite (exec_open _ _ _ _ _ _ _ E2). exact S2.
    + injection Es as -> ->. cbn [stack_exec] in X. destruct (st_open s) eqn:O.
      * unfold through_link in X. destruct (ll_step (st_link s) LRxReady) as [[l1 out1]| |] eqn:E1; cbn [obind] in X; try discriminate.
        pose proof (LI_step _ _ _ _ LRxReady _ _ RL I E1) as L1. pose proof (ll_open_step _ _ _ _ E1 (ex_intro _ arr (ex_intro _ gs (ex_intro _ local RL)))) as O1.
        assert (D : deliveries out1 = []). { cbn [ll_step] in E1. destruct (ll_open (st_link s)); [|injection E1 as <- <-; reflexivity]. destruct (get_frame _) as [[[] ?]| |]; cbn [obind] in E1; try discriminate; injection E1 as <- <-; reflexivity. }
        destruct out1 as [|y ys].
        -- injection X as <- <- <-. exists [], (st_crypto s, []), [LRxReady], []. repeat split; cbn [fst snd st_link st_open st_crypto app]; auto; try congruence.
           all: first [apply one_op; exact E1|left; reflexivity|left; split; [reflexivity|discriminate]|cbn; intuition congruence|idtac].
        -- unfold crypto_step in X. destruct (exec C (st_crypto s) (ICall LowerRxReady) inp) as [[[c' p0] e0]| |] eqn:E2; cbn [obind] in X; try discriminate. injection X as <- -> ->.
           assert (E3 : exec C (st_crypto s) (ICall LowerRxReady) (with_message inp []) = Ok (c', pushed, e1)) by (rewrite <- E2; reflexivity).
           cbn [exec enter] in E2. rewrite S2 in E2. injection E2 as <- <- <-.
           exists [Ext (Enter LowerRxReady); Run (with_message inp [])], (st_crypto s, [ITryRead]), [LRxReady], (y :: ys).
           split; [cbn [run step inject fst snd obind exec enter]; rewrite S2; reflexivity|].
           split. { cbn. rewrite S2. repeat split; auto; try (now constructor). intros X. now elim X. }
           split. { constructor; cbn [fst snd st_crypto app]; auto; [split; cbn; congruence|left; reflexivity|left; split; [reflexivity|discriminate]]. }
           split; [apply one_op; exact E1|]. split; [rewrite D; reflexivity|]. split; [reflexivity|trk].
      * injection X as <- <- <-. exists [], (st_crypto s, []), [], []. repeat split; cbn; auto; try congruence; eauto.
        all: first [left; reflexivity|left; split; [reflexivity|discriminate]|cbn; tauto|idtac].
Qed.

Lemma along_join Q C : forall ls1 k ls2 k1 e1, along Q C k ls1 -> run C k ls1 = Ok (k1, e1) -> along Q C k1 ls2 -> along Q C k (ls1 ++ ls2).
Proof.
  induction ls1 as [|l ls1 IH]; intros k ls2 k1 e1 H1 H2 H3; cbn in *; [injection H2 as <- <-; exact H3|]. destruct H1 as [H0 H1]. split; [exact H0|].
  destruct (step C k l) as [[k2 e2]| |]; cbn [obind] in *; auto. destruct (run C k2 ls1) as [[k3 e3]| |] eqn:E; cbn [obind] in *; try discriminate. injection H2 as <- <-. eauto.
Qed.
Lemma sim_run Q C local : any_message Q -> forall ls k ke k' t, related Q local k ke -> Forall arrival_ok ls ->
  salong (fun k l => Q k l /\ from_outside k l) C k ls -> stack_run C k ls = Ok (k', t) -> simulated Q C local (fst k) ke ls k' t.
Proof.
  intros QM. induction ls as [|l ls IH]; intros k ke k' t R HA HQ H; cbn [stack_run] in H.
  - injection H as <- <-. exists [], ke, [], []. repeat split; cbn; auto; try apply R; tauto.
  - destruct (stack_step C k l) as [[k1 e1]| |] eqn:S; cbn [obind] in H; try discriminate.
    destruct (stack_run C k1 ls) as [[k2 e2]| |] eqn:H2; cbn [obind] in H; try discriminate. injection H as <- <-.
    inversion HA as [|x y HA1 HA2]; subst. cbn [salong] in HQ. rewrite S in HQ. destruct HQ as [HQ1 HQ2].
    destruct (sim_step Q C local k ke l k1 e1 QM R HA1 HQ1 S) as (ls1 & ke1 & ops1 & out1 & A1 & A2 & A3 & A4 & A5 & A6 & A7).
    destruct (IH k1 ke1 k2 e2 A3 HA2 HQ2 H2) as (ls2 & ke2 & ops2 & out2 & B1 & B2 & B3 & B4 & B5 & B6 & B7).
    exists (ls1 ++ ls2), ke2, (ops1 ++ ops2), (out1 ++ out2). repeat split; try apply B3.
    + rewrite run_app, A1. cbn [obind]. rewrite B1. reflexivity.
    + eapply along_join; eauto.
    + rewrite ll_run_app, A4. cbn [obind]. rewrite B4. reflexivity.
    + rewrite deliveries_app, messages_app. congruence.
    + unfold arrivals, wire_in in *. rewrite flat_map_app. cbn [flat_map] in *. rewrite A6, B6. now rewrite app_nil_r.
    + exact (proj1 (tracks_app _ _ [l] ls _ _ A7 B7)).
    + exact (proj2 (tracks_app _ _ [l] ls _ _ A7 B7)).
Qed.
Lemma new_related Q C a : related Q (a_source a) (new_stack C a, []) (new_endpoint C, []).
Proof.
  constructor; cbn; auto; [split; reflexivity|left; reflexivity|left; split; [reflexivity|discriminate]|].
  exists [], []. apply LI_new.
Qed.
Theorem stack_refines Q C a ls k t : any_message Q -> Forall arrival_ok ls -> salong (fun k l => Q k l /\ from_outside k l) C (new_stack C a, []) ls ->
  stack_run C (new_stack C a, []) ls = Ok (k, t) ->
  exists les ke ops out, run C (new_endpoint C, []) les = Ok (ke, t) /\ along (full Q) C (new_endpoint C, []) les /\ related Q (a_source a) k ke /\
    ll_run (stack_link a) ops = Ok (st_link (fst k), out) /\ deliveries out = messages t /\ arrivals ops = wire_in ls /\ tracks ops ls t.
Proof. intros QM HA HQ H. exact (sim_run Q C (a_source a) QM ls _ _ _ _ (new_related Q C a) HA HQ H). Qed.

(** ** The crypto layer takes nothing while the connection is closed *)
Definition reading (i : instr) : bool := match i with ITryRead | ICall StartRx | IProcess _ => true | _ => false end.
Definition any_lower (i : instr) : bool := match i with ICall (LowerOpen | LowerClose | LowerTxReady | LowerRxReady) => true | _ => false end.
Record qinv (k : config) : Prop := {
  q_calls : none_of any_lower (snd k) \/ exists c, snd k = [ICall c];
  q_closed : ep_open (fst k) = false -> none_of reading (snd k) }.
Lemma none_map (f : instr -> bool) (g : call -> bool) l : (forall c, g c = true -> f (ICall c) = false) -> forallb g l = true -> none_of f (map ICall l).
Proof.
  intros H. induction l as [|c l IH]; cbn; intros X; [reflexivity|]. apply Bool.andb_true_iff in X. destruct X. apply none_cons. auto.
Qed.
Lemma qinv_exec C s i rest inp s' pushed e : qinv (s, i :: rest) -> closes_outside (s, i :: rest) (Run inp) -> exec C s i inp = Ok (s', pushed, e) -> qinv (s', pushed ++ rest).
Proof.
  intros [I1 I2] [Q1 Q2] H. cbn [fst snd] in *.
  assert (N1 : none_of any_lower rest). { destruct I1 as [Hr|[c Hr]]; [apply none_cons in Hr; tauto|]. injection Hr as _ ->. reflexivity. }
  assert (L1 : any_lower i = true -> rest = []). { destruct I1 as [Hr|[c Hr]]; [apply none_cons in Hr; destruct Hr; congruence|]. injection Hr as _ ->. reflexivity. }
  assert (N3 : none_of any_lower (map ICall (in_calls inp))) by (eapply none_map; [|exact Q1]; intros []; auto; discriminate).
  assert (N4 : ep_open s = false -> none_of reading (map ICall (in_calls inp))) by (intros O; eapply none_map; [|exact (Q2 O)]; intros []; auto; discriminate).
  pose proof (exec_open _ _ _ _ _ _ _ H) as HO.
  constructor; cbn [fst snd].
  - left. apply none_app. split; [|exact N1]. destruct i; exec_cases H; splits; auto; reflexivity.
  - intros O. destruct (ep_open s) eqn:Os.
    + assert (i = ICall LowerClose) as -> by (destruct i as [[]| | | | | | | | | | | | |]; congruence). rewrite (L1 eq_refl).
      cbn [exec enter] in H. rewrite Os in H. injection H as <- <- <-. reflexivity.
    + specialize (I2 eq_refl). specialize (N4 eq_refl). apply none_cons in I2. destruct I2 as [Ir I2]. apply none_app. split; [|exact I2].
      destruct i as [[]| | | | | | | | | | | | |]; try discriminate Ir; exec_cases H; splits; auto; try reflexivity; congruence.
Qed.
Lemma qinv_step C k l k' e : qinv k -> closes_outside k l -> step C k l = Ok (k', e) -> qinv k'.
Proof.
  intros HI HQ H. destruct k as [s stk]. destruct l as [x|inp]; cbn [step fst snd] in H.
  - destruct stk as [|i rest]; [|injection H as <- <-; exact HI]. injection H as <- _.
    destruct (inject_tx s x) as (_ & _ & _ & O). pose proof (inject_stack s x) as S. destruct (inject s x) as [s1 stk1] eqn:E. cbn [fst snd] in *.
    constructor; cbn [fst snd].
    + destruct S as [->|[->|[c ->]]]; [left; reflexivity|left; reflexivity|right; eauto].
    + intros O1. destruct S as [->|[->|[c ->]]]; try reflexivity. destruct x as [c0| |n| |]; cbn in E.
      * injection E as _ <-. destruct c0; try reflexivity. cbn in HQ. congruence.
      * destruct (ep_timer s) as [[]|]; cbn in E; congruence.
      * destruct (nth_error _ _) as [[]|]; cbn in E; congruence.
      * destruct (ep_session_timer _); congruence.
      * destruct (ep_session_stale _); congruence.
  - destruct stk as [|i rest]; [injection H as <- <-; exact HI|]. destruct (exec C s i inp) as [[[s' p] e0]| |] eqn:X; cbn [obind] in H; try discriminate.
    injection H as <- <-. eapply qinv_exec; eauto.
Qed.
Lemma quiet_along C : forall ls k, qinv k -> along (full closes_outside) C k ls -> along quiet_when_closed C k ls.
Proof.
  induction ls as [|l ls IH]; intros k HI H; cbn in *; auto. destruct H as [(H1 & H2 & H3) H4]. split.
  - destruct l as [x|inp]; cbn; auto. intros O. destruct (in_message inp) as [|b m] eqn:E; [reflexivity|]. exfalso. cbn in H3. rewrite E in H3. destruct H3 as [_ H3].
    pose proof (q_closed _ HI O) as N. destruct (snd k) as [|i r]; [now specialize (H3 ltac:(discriminate))|]. specialize (H3 ltac:(discriminate)). injection H3 as ->. discriminate N.
  - destruct (step C k l) as [[k1 e1]| |] eqn:S; auto. apply IH; [|exact H4]. eapply qinv_step; eauto.
Qed.
Lemma qinv_new C : qinv (new_endpoint C, []). Proof. constructor; cbn; [left; reflexivity|reflexivity]. Qed.

Lemma tracks_ok ops ls e : tracks ops ls e -> Forall arrival_ok ls -> Forall op_ok ops.
Proof.
  intros [T _] H. rewrite Forall_forall in *. intros o Ho. destruct o as [| | | |ch| |d]; cbn; auto. exact (H _ (T _ Ho)).
Qed.

(** ** The frames given to the transport *)
Definition frame_from (a : addresses) (f : list N) : Prop :=
  exists g, f = frame_bytes g /\ f_destination g = a_destination a /\ f_source g = a_source a /\ f_payload g <> [] /\ length (f_payload g) <= 4092.
Lemma written E a fn w frame body : e_kind E = FLink a -> e_max_payload E = max_config_payload_size ->
  frame_write2 E (write_message fn w) = Some (frame, body) -> frame_from a frame.
Proof.
  unfold frame_write2. intros -> -> H. destruct (link_write_bytes _ _ _ _ _ _ H) as (H1 & _ & H3). eexists. split; [exact H1|]. cbn [f_destination f_source f_payload].
  repeat split; [|unfold max_config_payload_size in H3; lia].
  unfold link_frame_write in H. destruct (write_message fn w _) as [b|] eqn:E1; [|discriminate].
  destruct (_ <? 4); [discriminate|]. destruct (_ <? _)%N; [discriminate|]. injection H as _ ->.
  unfold write_message, wapp in E1. destruct (enum_write function_to fn _) as [b1|] eqn:E2; [|discriminate]. destruct (w _) as [b2|]; [|discriminate]. injection E1 as <-.
  assert (b1 <> []); [|destruct b1; [congruence|discriminate]]. clear - E2. unfold enum_write, write_uint in E2.
  repeat match type of E2 with context [if ?b then _ else _] => destruct b; try discriminate end; injection E2 as <-; cbn; discriminate.
Qed.
Lemma written1 E a fn w frame : e_kind E = FLink a -> e_max_payload E = max_config_payload_size -> frame_write E (write_message fn w) = Some frame -> frame_from a frame.
Proof.
  intros K M H. change (frame_write E (write_message fn w)) with (option_map fst (frame_write2 E (write_message fn w))) in H.
  destruct (frame_write2 E (write_message fn w)) as [[f b]|] eqn:X; cbn in H; [|discriminate]. injection H as <-. eapply (written E a); eauto.
Qed.

Lemma session_frame E a s now clear frame rest s' : e_kind E = FLink a -> e_max_payload E = max_config_payload_size ->
  format_no_nonce_check E s now clear = Ok (inl frame, rest, s') -> frame_from a frame.
Proof.
  intros K M H. unfold format_no_nonce_check in H.
  repeat match type of H with (if ?b then _ else _) = _ => destruct b; [discriminate|] | (let x := _ in _) = _ => cbv zeta in H end.
  destruct (mode_write _ _ _ _ _ _) as [[[m|e] r]| |]; cbn [obind] in H; try discriminate.
  destruct (frame_write E (session_data_write m)) as [f|] eqn:X; [|discriminate]. injection H as <- _ _. eapply written1; eauto.
Qed.
Lemma auth_frame E a s now clear frame rest s' : e_kind E = FLink a -> e_max_payload E = max_config_payload_size ->
  format_session_auth E s now clear = Ok (inl frame, rest, s') -> frame_from a frame.
Proof. unfold format_session_auth. intros K M H. destruct (negb _); [discriminate|]. eapply session_frame; eauto. Qed.
Lemma data_frame E a s now clear frame rest s' : e_kind E = FLink a -> e_max_payload E = max_config_payload_size ->
  format_session_data E s now clear = Ok (inl frame, rest, s') -> frame_from a frame.
Proof. unfold format_session_data. intros K M H. destruct (_ <=? _)%N; [discriminate|]. eapply session_frame; eauto. Qed.
Lemma reply_frame E a S h ans msg bytes now s frame s' : e_kind E = FLink a -> e_max_payload E = max_config_payload_size ->
  process E S h ans msg bytes now s = Ok (inl frame, s') -> frame_from a frame.
Proof.
  intros K M H. unfold process, responder_finish in H. destruct h.
  all: ocases H; try discriminate; try match goal with H : Ok _ = Ok _ |- _ => injection H as <- ? end; eapply written; eauto.
Qed.
Lemma transmit_frame C a s sess inp b s1 s2 l k f : e_kind (c_env C) = FLink a -> e_max_payload (c_env C) = max_config_payload_size ->
  transmit_session_auth C s sess inp = Ok (b, s1, s2, l) -> In (EvTx k f) l -> frame_from a f.
Proof.
  intros K M H Hin. unfold transmit_session_auth in H. destruct (format_session_auth _ _ _ _) as [[[[fr|e] rest] s3]| |] eqn:X; cbn [obind] in H; try discriminate.
  - injection H as <- <- <- <-. destruct Hin as [Hin|[]]. injection Hin as _ <-. eapply auth_frame; eauto.
  - injection H as <- <- <- <-. contradiction.
Qed.
Lemma err_frame E a e f : e_kind E = FLink a -> e_max_payload E = max_config_payload_size -> error_frame E e = Some f -> frame_from a f.
Proof.
  intros K M H. unfold error_frame in H. destruct (frame_write2 E _) as [[fr b]|] eqn:X; cbn in H; [|discriminate]. injection H as <-. eapply (written E a); eauto.
Qed.
Lemma frames_exec C a s i inp s' pushed e k f : e_kind (c_env C) = FLink a -> e_max_payload (c_env C) = max_config_payload_size ->
  exec C s i inp = Ok (s', pushed, e) -> In (EvTx k f) e -> frame_from a f.
Proof.
  intros K M H Hin. destruct i as [[]| | | | | | | | | | | | |]; unfold_exec H; ocases H.
  all: cbn in Hin; repeat match goal with Hin : _ \/ _ |- _ => destruct Hin as [Hin|Hin]; [first [discriminate Hin|injection Hin as ? ?; subst]|] end; try contradiction.
  all: repeat match goal with Hin : In _ (_ ++ _) |- _ => apply in_app_or in Hin; destruct Hin as [Hin|Hin]; cbn in Hin end.
  all: repeat match goal with Hin : _ \/ _ |- _ => destruct Hin as [Hin|Hin]; [first [discriminate Hin|injection Hin as ? ?; subst]|] end; try contradiction.
  all: try match goal with Hin : In _ (if ?b then _ else _) |- _ => destruct b; cbn in Hin; try contradiction; destruct Hin as [Hin|[]]; discriminate Hin end.
  all: eauto using auth_frame, data_frame, reply_frame, err_frame, transmit_frame, written.
Qed.
Lemma frames_run C a : e_kind (c_env C) = FLink a -> e_max_payload (c_env C) = max_config_payload_size ->
  forall ls k k' t n f, run C k ls = Ok (k', t) -> In (EvTx n f) t -> frame_from a f.
Proof.
  intros K M. induction ls as [|l ls IH]; intros k k' t n f H Hin; cbn [run] in H; [injection H as <- <-; contradiction|].
  destruct (step C k l) as [[k1 e1]| |] eqn:S; cbn [obind] in H; try discriminate. destruct (run C k1 ls) as [[k2 e2]| |] eqn:R; cbn [obind] in H; try discriminate. injection H as <- <-.
  apply in_app_or in Hin. destruct Hin as [Hin|Hin]; [|eauto]. destruct k as [s stk], l as [x|inp]; cbn [step fst snd] in S.
  - destruct stk; injection S as <- <-; contradiction.
  - destruct stk as [|i rest]; [injection S as <- <-; contradiction|]. destruct (exec C s i inp) as [[[s' p] e0]| |] eqn:X; cbn [obind] in S; try discriminate. injection S as <- <-.
    eapply frames_exec; eauto.
Qed.
Lemma wire_frames a : forall t, (forall n f, In (EvTx n f) t -> frame_from a f) ->
  exists fs, wire_out t = flat_map frame_bytes fs /\ Forall (fun g => f_destination g = a_destination a /\ f_source g = a_source a /\ f_payload g <> [] /\ length (f_payload g) <= 4092) fs /\ frames_out t = map frame_bytes fs.
Proof.
  induction t as [|e t IH]; intros H; [exists []; repeat split; constructor|].
  destruct IH as (fs & E1 & E2 & E3); [intros n f Hin; apply (H n f); now right|].
  destruct e; try (exists fs; repeat split; assumption).
  destruct (H k frame (or_introl eq_refl)) as (g & -> & G). exists (g :: fs). repeat split; cbn [wire_out frames_out flat_map map app]; unfold wire_out, frames_out in *; rewrite ?E1, ?E3; auto.
Qed.

(** ** One transmission at a time *)
Lemma stack_exec_cases C s i inp s' pushed e : stack_exec C s i inp = Ok (s', pushed, e) ->
  (exists m, exec C (st_crypto s) i (with_message inp m) = Ok (st_crypto s', pushed, e)) \/
  (pushed = [] /\ e = [] /\ is_process i = false /\
   (st_crypto s' = st_crypto s /\ i <> ICall LowerTxReady \/ st_crypto s' = set_busy (st_crypto s) false /\ i = ICall LowerTxReady \/ st_crypto s' = st_crypto s /\ ll_open (st_link s) <> st_open s)).
Proof.
  intros H.
  assert (CS : forall o l m, crypto_step C o l (st_crypto s) i (with_message inp m) = Ok (s', pushed, e) -> exists m, exec C (st_crypto s) i (with_message inp m) = Ok (st_crypto s', pushed, e)).
  { intros o l m E. unfold crypto_step in E. destruct (exec C (st_crypto s) i (with_message inp m)) as [[[c p] e0]| |] eqn:X; cbn [obind] in E; try discriminate. injection E as <- -> ->. eauto. }
  assert (TL : forall open o c, i = ICall c -> through_link C open s o c inp = Ok (s', pushed, e) ->
    (exists m, exec C (st_crypto s) i (with_message inp m) = Ok (st_crypto s', pushed, e)) \/ (st_crypto s' = st_crypto s /\ pushed = [] /\ e = [] /\ exists l, ll_step (st_link s) o = Ok (l, []))).
  { intros open o c -> E. unfold through_link in E. destruct (ll_step (st_link s) o) as [[l out]| |] eqn:X; cbn [obind] in E; try discriminate. destruct out as [|y ys].
    - injection E as <- <- <-. right. repeat split; eauto.
    - left. apply (CS open l []). exact E. }
  destruct i as [[d| | | | |]| | | | | | | | | | | | |]; cbn [stack_exec] in H; try (left; eapply CS; exact H).
  - destruct (st_open s) eqn:O; [injection H as <- <- <-; right; repeat split; left; split; [reflexivity|discriminate]|]. destruct (TL _ _ _ eq_refl H) as [X|(X & -> & -> & _)]; [left; exact X|]. right. repeat split. left. split; [exact X|discriminate].
  - destruct (st_open s) eqn:O; [|injection H as <- <- <-; right; repeat split; left; split; [reflexivity|discriminate]]. destruct (TL _ _ _ eq_refl H) as [X|(X & -> & -> & _)]; [left; exact X|]. right. repeat split. left. split; [exact X|discriminate].
  - destruct (st_open s) eqn:O; [|injection H as <- <- <-; right; repeat split; right; left; split; reflexivity]. destruct (TL _ _ _ eq_refl H) as [X|(X & -> & -> & l & L)]; [left; exact X|]. right. repeat split. right. right. split; [exact X|].
    cbn [ll_step] in L. destruct (ll_open (st_link s)); discriminate.
  - destruct (st_open s) eqn:O; [|injection H as <- <- <-; right; repeat split; left; split; [reflexivity|discriminate]]. destruct (TL _ _ _ eq_refl H) as [X|(X & -> & -> & _)]; [left; exact X|]. right. repeat split. left. split; [exact X|discriminate].
  - destruct (reads_link _ _).
    + destruct (ll_start_rx (st_link s)) as [[m l]| |]; cbn [obind] in H; try discriminate. left. eapply CS; exact H.
    + left. eapply CS; exact H.
Qed.
Lemma transport_busy C s i inp s' pushed e : exec C s i inp = Ok (s', pushed, e) ->
  (is_process i = true -> ep_busy s = false) -> transport_ok (s, [i]) (Run inp) -> i <> ICall LowerTxReady ->
  (length (filter is_tx e) = 0 /\ ep_busy s' = ep_busy s) \/ (length (filter is_tx e) = 1 /\ ep_busy s = false /\ ep_busy s' = true).
Proof.
  intros H Hp HL Hi. destruct HL as (L1 & L2). cbn [fst] in *.
  destruct i as [[]| | | | | | | | | | | | |]; try congruence; exec_cases H; cbn [filter is_tx length is_process] in *; splits; auto.
  all: try (left; rewrite L1, Bool.negb_involutive; auto; fail).
  all: try specialize (Hp eq_refl).
  all: try (right; rewrite L2 by assumption; auto; fail).
  all: try (destruct (ep_busy s) eqn:Eb; cbn [negb] in *; [rewrite L1 in *; discriminate|]; right; rewrite L2 by reflexivity; auto; fail).
Qed.
Lemma transport_binv C s i inp rest s' pushed e :
  binv (s, i :: rest) -> from_outside (s, i :: rest) (Run inp) -> exec C s i inp = Ok (s', pushed, e) -> binv (s', pushed ++ rest).
Proof.
  intros [I1 I2 I3] HQ H. cbn [fst snd tl from_outside] in *.
  destruct (process_next _ _ _ _ _ _ _ _ H I2) as [N1 N2].
  pose proof (calls_pushed _ _ _ _ _ _ _ rest H HQ I1) as NC.
  constructor; cbn [fst snd]; [exact NC|exact N1|].
  intros m r E. destruct (N2 m r E) as (_ & Ee & _ & _ & -> & Hp & ->). cbn.
  cbn in H. unfold try_read_one in H. destruct (in_ready inp) eqn:Er; [reflexivity|].
  cbn in H. injection H as _ _ <-. discriminate.
Qed.
Lemma frames_tx e : length (frames_out e) = length (filter is_tx e).
Proof. induction e as [|x e IH]; [reflexivity|]. destruct x; cbn; auto. Qed.

Definition busy_matches (b : bool) (k : sconfig) : Prop :=
  (snd k = [ICall LowerTxReady] /\ b = false) \/ (hd_error (snd k) <> Some (ICall LowerTxReady) /\ b = ep_busy (st_crypto (fst k))).
Lemma no_lower_pushed C s i inp s' pushed e rest : exec C s i inp = Ok (s', pushed, e) -> forallb app_or_close (in_calls inp) = true ->
  calls_ok (i :: rest) -> none_of is_lower (pushed ++ rest).
Proof.
  intros H Hc Hr.
  assert (N1 : none_of is_lower rest). { destruct Hr as [Hr|[c Hr]]; [apply none_cons in Hr; tauto|]. injection Hr as _ ->. reflexivity. }
  apply none_app. split; [|exact N1]. assert (N3 : none_of is_lower (map ICall (in_calls inp))) by (eapply none_map; [|exact Hc]; intros []; auto; discriminate).
  destruct i; exec_cases H; splits; auto; reflexivity.
Qed.
Lemma none_hd (f : instr -> bool) l i : none_of f l -> f i = true -> hd_error l <> Some i.
Proof. intros H Hf E. destruct l as [|j l]; [discriminate|]. injection E as ->. apply none_cons in H. destruct H. congruence. Qed.
Lemma one_run C local : forall ls k ke b k' t, binv (st_crypto (fst k), snd k) -> related transport_ok local k ke -> busy_matches b k ->
  Forall arrival_ok ls -> salong (fun k l => transport_ok k l /\ from_outside k l) C k ls ->
  stack_run C k ls = Ok (k', t) -> one_at_a_time b (history C k ls).
Proof.
  induction ls as [|l ls IH]; intros k ke b k' t HB HR HM HA HQ H; cbn [stack_run history] in *; [exact I|].
  destruct (stack_step C k l) as [[k1 e1]| |] eqn:S; cbn [obind] in H; try discriminate.
  destruct (stack_run C k1 ls) as [[k2 e2]| |] eqn:H2; cbn [obind] in H; try discriminate. clear H.
  cbn [salong] in HQ. rewrite S in HQ. destruct HQ as [HQ1 HQ2]. inversion HA as [|x y HA1 HA2]; subst x y.
  destruct (sim_step transport_ok C local k ke l k1 e1 (fun _ _ _ H => H) HR HA1 HQ1 S) as (_ & ke1 & _ & _ & _ & _ & HR1 & _).
  assert (Next : forall b1, binv (st_crypto (fst k1), snd k1) -> busy_matches b1 k1 -> one_at_a_time b1 (history C k1 ls)) by (intros b1 X1 X2; eapply IH; eauto).
  destruct k as [s stk]. destruct l as [ch|[x|inp]]; unfold stack_step in S; cbn [fst snd applies] in *.
  - assert (k1 = ({| st_open := st_open s; st_link := arrive_link (st_link s) ch; st_crypto := st_crypto s |}, stk) /\ e1 = []) as [-> ->] by (destruct stk; injection S as <- <-; auto).
    destruct stk; cbn; apply Next; auto.
  - destruct stk as [|i rest]; [|injection S as <- <-; cbn [app]; apply Next; auto].
    destruct (inject (st_crypto s) x) as [c1 stk1] eqn:EI. injection S as <- <-. cbn [app frames_out flat_map one_at_a_time].
    destruct (inject_tx (st_crypto s) x) as (_ & _ & BU & _). pose proof (inject_stack (st_crypto s) x) as HS. rewrite EI in *. cbn [fst snd] in *.
    apply Next.
    + cbn [fst snd st_crypto]. constructor; cbn [fst snd].
      * destruct HS as [->|[->|[c ->]]]; [left; reflexivity|left; reflexivity|right; eauto].
      * destruct HS as [->|[->|[c ->]]]; reflexivity.
      * intros m r E. destruct HS as [->|[->|[c ->]]]; discriminate.
    + cbn [reports_end]. destruct HM as [[E _]|[_ ->]]; [discriminate|].
      assert (D : x = Enter LowerTxReady \/ (hd_error stk1 <> Some (ICall LowerTxReady) /\ reports_end (SLab (Ext x)) = false)).
      { destruct x as [c0| |n| |]; cbn in EI.
        - injection EI as _ <-. destruct c0; auto; right; split; (discriminate || reflexivity).
        - right. split; [|reflexivity]. destruct (ep_timer (st_crypto s)) as [[]|]; cbn in EI; injection EI as _ <-; discriminate.
        - right. split; [|reflexivity]. destruct (nth_error _ _) as [[]|]; cbn in EI; injection EI as _ <-; discriminate.
        - right. split; [|reflexivity]. destruct (ep_session_timer _); injection EI as _ <-; discriminate.
        - right. split; [|reflexivity]. destruct (ep_session_stale _); injection EI as _ <-; discriminate. }
      destruct D as [->|[D1 D2]]; [left; cbn in EI; injection EI as _ <-; auto|]. cbn in D2. rewrite D2. right. split; [exact D1|]. cbn. congruence.
  - destruct stk as [|i rest]; [injection S as <- <-; cbn [app]; apply Next; auto|].
    destruct (stack_exec C s i inp) as [[[s' p] e0]| |] eqn:X; cbn [obind] in S; try discriminate. injection S as <- <-. destruct HQ1 as [HT HF].
    cbn [app one_at_a_time reports_end fst snd] in *.
    destruct (re_sync _ _ _ _ HR) as [SY _]. cbn [fst] in SY.
    assert (LT : i = ICall LowerTxReady -> rest = []). { intros ->. destruct (b_calls _ HB) as [I1|[c I1]]; cbn [snd] in I1; [apply none_cons in I1; destruct I1; discriminate|congruence]. }
    destruct (stack_exec_cases _ _ _ _ _ _ _ X) as [[m Y]|(-> & -> & NP & Y)].
    + assert (HB' : binv (st_crypto s', p ++ rest)) by (eapply transport_binv; [exact HB| |exact Y]; exact HF).
      assert (NL : none_of is_lower (p ++ rest)) by (eapply no_lower_pushed; [exact Y|exact HF|apply HB]).
      assert (D : i = ICall LowerTxReady \/ i <> ICall LowerTxReady) by (destruct i as [[]| | | | | | | | | | | | |]; (left; reflexivity) || (right; discriminate)).
      destruct D as [->|D].
      * assert (e0 = [] /\ ep_busy (st_crypto s') = false) as [-> BF].
        { cbn [exec enter] in Y. cbn zeta in Y. destruct (ep_open (set_busy (st_crypto s) false)); injection Y as <- _ <-; auto. }
        cbn [frames_out flat_map]. destruct HM as [[_ ->]|[Hh _]]; [|elim Hh; reflexivity].
        apply Next; [exact HB'|]. right. split; [eapply none_hd; [exact NL|reflexivity]|symmetry; exact BF].
      * destruct HM as [[E _]|[_ ->]]; [injection E; congruence|].
        assert (P : is_process i = true -> ep_busy (st_crypto s) = false). { intros P. destruct i; try discriminate P. exact (b_head _ HB _ _ eq_refl). }
        destruct (transport_busy _ _ _ _ _ _ _ Y P HT D) as [[L B]|(L & B1 & B2)]; rewrite <- frames_tx in L.
        -- destruct (frames_out e0); [|discriminate]. apply Next; [exact HB'|]. right. split; [eapply none_hd; [exact NL|reflexivity]|symmetry; exact B].
        -- destruct (frames_out e0) as [|f [|]]; try discriminate. split; [exact B1|]. apply Next; [exact HB'|]. right. split; [eapply none_hd; [exact NL|reflexivity]|symmetry; exact B2].
    + cbn [frames_out flat_map].
      assert (NR : none_of is_lower rest). { destruct (b_calls _ HB) as [I1|[c I1]]; cbn [snd] in I1; [apply none_cons in I1; tauto|]. injection I1 as _ ->. reflexivity. }
      assert (HB' : binv (st_crypto s', rest)).
      { constructor; cbn [fst snd]; [left; exact NR| |]. - pose proof (b_process _ HB) as N. cbn [snd tl] in N. destruct rest; [reflexivity|]. apply none_cons in N. tauto.
        - intros m r ->. pose proof (b_process _ HB) as N. cbn [snd tl] in N. apply none_cons in N. destruct N; discriminate. }
      apply Next; [exact HB'|]. right. split; [eapply none_hd; [exact NR|reflexivity]|]. cbn [fst].
      destruct Y as [[-> D]|[[-> ->]|[_ Z]]]; [|destruct HM as [[_ ->]|[Hh _]]; [reflexivity|elim Hh; reflexivity]|congruence].
      destruct HM as [[E _]|[_ ->]]; [injection E; congruence|reflexivity].
Qed.
Lemma one_new C a ls k t : Forall arrival_ok ls -> salong (fun k l => transport_ok k l /\ from_outside k l) C (new_stack C a, []) ls ->
  stack_run C (new_stack C a, []) ls = Ok (k, t) -> one_at_a_time false (history C (new_stack C a, []) ls).
Proof.
  intros HA HQ H. eapply (one_run C (a_source a)); [| |right; split; [discriminate|reflexivity]|exact HA|exact HQ|exact H].
  - constructor; cbn; [left; reflexivity|reflexivity|discriminate].
  - apply new_related.
Qed.

(** ** Messages are taken only while the connection is open *)
Lemma listening_exec C s i inp s' pushed e : exec C s i inp = Ok (s', pushed, e) -> (messages e <> [] -> ep_open s = true) -> play listening (ep_open s) e = Some (ep_open s').
Proof.
  intros H M. destruct i as [[]| | | | | | | | | | | | |]; exec_cases H; splits; cbn [play listening messages flat_map app] in *; try reflexivity; try congruence;
    try (rewrite M by discriminate; cbn; try rewrite M by discriminate; reflexivity).
Qed.
Lemma listening_run C : forall ls k k' t, qinv k -> along (full closes_outside) C k ls -> run C k ls = Ok (k', t) -> play listening (ep_open (fst k)) t = Some (ep_open (fst k')).
Proof.
  induction ls as [|l ls IH]; intros k k' t HI HQ H; cbn [run along] in *; [injection H as <- <-; reflexivity|].
  destruct (step C k l) as [[k1 e1]| |] eqn:S; cbn [obind] in H; try discriminate. destruct (run C k1 ls) as [[k2 e2]| |] eqn:R; cbn [obind] in H; try discriminate. injection H as <- <-.
  destruct HQ as [(Q1 & Q2 & Q3) Q4]. pose proof (qinv_step _ _ _ _ _ HI Q1 S) as HI1. rewrite play_app.
  assert (X : play listening (ep_open (fst k)) e1 = Some (ep_open (fst k1))); [|rewrite X; eauto].
  destruct k as [s stk], l as [x|inp]; cbn [step fst snd] in S.
  - destruct stk; [|injection S as <- <-; reflexivity]. injection S as <- <-. cbn. destruct (inject_tx s x) as (_ & _ & _ & O). now rewrite O.
  - destruct stk as [|i rest]; [injection S as <- <-; reflexivity|]. destruct (exec C s i inp) as [[[s' p] e0]| |] eqn:E; cbn [obind] in S; try discriminate. injection S as <- <-. cbn [fst].
    eapply listening_exec; eauto. intros M. destruct (ep_open s) eqn:O; [reflexivity|]. exfalso. apply M. pose proof (exec_messages _ _ _ _ _ _ _ E) as EM.
    pose proof (q_closed _ HI O) as N. cbn [snd] in N. apply none_cons in N. destruct N as [N _]. destruct i; try discriminate N; exact EM.
Qed.
