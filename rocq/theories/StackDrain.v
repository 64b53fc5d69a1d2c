(** * StackDrain: a stack that has been notified takes everything that is complete *)
From Verif Require Import Base BaseFacts Codec CodecSpec Link LinkSpec LinkFacts LinkMain LinkLayer LinkLayerSpec LinkLayerFacts LinkLayerBus Primitives Session SessionSpec
  Handshake Endpoint EndpointSpec EndpointFacts EndpointMain EndpointRx EndpointTx PairSpec Stack StackSpec StackFacts.
Local Open Scope nat_scope.

(** ** The link layer: nothing more to deliver *)
Definition settled (l : link_layer) : Prop :=
  (has_result (ll_parser l) = false /\ ll_remainder l = [] /\ ll_rx_queue l = []) \/
  (has_result (ll_parser l) = true /\ ll_processing l = false /\ exists f, link_read (ll_parser l) = Some f /\ (f_destination f <> ll_local l \/ f_payload f = [])).
Definition full_chunks (l : link_layer) : Prop := Forall (fun ch => ch <> []) (ll_rx_queue l).
Lemma LI_cinv local arr gs l : LI local arr gs l -> LinkFacts.cinv (lp_state (ll_parser l)) (lp_context (ll_parser l)).
Proof. intros (_ & (H & _) & _). exact H. Qed.
Lemma start_rx_settled local arr gs l ret l' : LI local arr gs l -> full_chunks l -> ll_start_rx l = Ok (ret, l') ->
  full_chunks l' /\ (ret = [] -> settled l').
Proof.
  intros HL HN H. unfold ll_start_rx in H. set (l1 := if ll_processing l then set_processing (ll_discard l) false else l) in *.
  assert (C1 : LinkFacts.cinv (lp_state (ll_parser l1)) (lp_context (ll_parser l1)) /\ full_chunks l1 /\ ll_processing l1 = false).
  { pose proof (LI_cinv _ _ _ _ HL) as C. unfold l1. destruct (ll_processing l) eqn:P; auto. split; [|split; [exact HN|reflexivity]]. cbn. exact (cinv_sync1 _ _ C). }
  destruct C1 as (C1 & N1 & P1). clearbody l1. unfold ll_start_rx_impl in H. destruct (get_frame_spec l1 C1) as (l2 & E & G). rewrite E in H. cbn [obind] in H.
  pose proof (gf_ne _ _ G N1) as N2. destruct (has_result (ll_parser l2)) eqn:R; cbn [obind] in H.
  - destruct (link_read (ll_parser l2)) as [f|] eqn:LR; cbn [obind] in H; [|discriminate].
    destruct (N.eqb_spec (f_destination f) (ll_local l2)) as [D|D]; cbn [obind] in H.
    + destruct (f_payload f) as [|b pl] eqn:PL; injection H as <- <-; [|split; [exact N2|discriminate]]. split; [exact N2|]. intros _. right. rewrite (gf_proc _ _ G). eauto 7.
    + injection H as <- <-. split; [exact N2|]. intros _. right. rewrite (gf_proc _ _ G). eauto 7.
  - injection H as <- <-. split; [exact N2|]. intros _. left. split; [exact R|]. exact (gf_all _ _ G N1 R).
Qed.
Lemma rx_ready_settled local arr gs l out l' : LI local arr gs l -> full_chunks l -> ll_step l LRxReady = Ok (l', out) ->
  full_chunks l' /\ (ll_open l = true -> out = [] -> settled l').
Proof.
  intros HL HN H. cbn [ll_step] in H. destruct (ll_open l) eqn:O; [|injection H as <- <-; split; [exact HN|discriminate]].
  destruct (get_frame_spec l (LI_cinv _ _ _ _ HL)) as (l2 & E & G). rewrite E in H. cbn [obind] in H. injection H as <- <-.
  split; [exact (gf_ne _ _ G HN)|]. intros _ X. destruct (has_result (ll_parser l2)) eqn:R; [discriminate|]. left. split; [exact R|]. exact (gf_all _ _ G HN R).
Qed.

(** ** The crypto layer: reading goes on until there is nothing left *)
Definition is_try (i : instr) : bool := match i with ITryRead => true | _ => false end.
Definition able (s : endpoint) : Prop := ep_open s = true /\ ep_busy s = false /\ ep_payload s = None.
Ltac splits_all := repeat match goal with
  | H : context [if ?b then _ else _] |- _ => destruct b eqn:?; eps
  | |- context [if ?b then _ else _] => destruct b eqn:?; eps
  end.
Lemma idle_back C s i inp s' pushed e : exec C s i inp = Ok (s', pushed, e) -> transport_ok (s, [i]) (Run inp) -> i <> ICall LowerTxReady -> ep_busy s' = false -> ep_busy s = false.
Proof.
  intros H (T1 & T2) N B. cbn [fst] in *. destruct (ep_busy s) eqn:E; [|reflexivity]. exfalso. cbn [negb] in T1.
  destruct i as [[]| | | | | | | | | | | | |]; try congruence; exec_cases H; splits_all; rewrite ?T1, ?E, ?Bool.orb_true_r in *; cbn [negb] in *; try congruence.
Qed.
Lemma slice_some mode gen p : p <> [] -> payload_slice mode gen p <> None.
Proof. destruct p; [congruence|]. intros _. destruct mode; discriminate. Qed.
Lemma payload_back C s i inp s' pushed e : exec C s i inp = Ok (s', pushed, e) -> ep_payload s' = None -> ep_payload s = None \/ i = ICall StartRx \/ i = ICall LowerClose.
Proof.
  intros H B. destruct i as [[]| | | | | | | | | | | | |]; auto; exec_cases H; splits_all; auto; try congruence.
  all: exfalso; revert B; apply slice_some; intros ->; match goal with V : validate_session_data _ _ _ _ _ = Ok (inl [], _, _) |- _ =>
    unfold validate_session_data in V; destruct (validate_with _ _ _ _ _ _) as [[[[q|] ?] ?]| |]; cbn [obind] in V; try discriminate; destruct (length q =? 0) eqn:Q; try discriminate; injection V as -> _ _; discriminate end.
Qed.

Definition is_reader (i : instr) : bool := match i with ITryRead | ICall LowerRxReady => true | _ => false end.
Definition drained (k : sconfig) : Prop := able (st_crypto (fst k)) -> existsb is_reader (snd k) = true \/ settled (st_link (fst k)).
Lemma exec_try C s i inp s' pushed e : exec C s i inp = Ok (s', pushed, e) -> able s' ->
  match i with ICall StartRx | ICall LowerTxReady | ICall LowerRxReady => existsb is_reader pushed = true | ICall LowerClose => ep_open s = false | ITryRead => reads_link s inp = true /\ (in_message inp <> [] -> existsb is_reader pushed = true) | _ => True end.
Proof.
  unfold able, reads_link. intros H (A1 & A2 & A3).
  destruct i as [[]| | | | | | | | | | | | |]; auto; exec_cases H; splits_all; auto; try congruence; try reflexivity.
  all: try (rewrite Bool.negb_true_iff in *; congruence).
  all: try (repeat match goal with H : negb _ = false |- _ => apply Bool.negb_false_iff in H; rewrite H end; cbn; split; [reflexivity|]; congruence || (intros; reflexivity)).
Qed.
Lemma existsb_or {A} (f : A -> bool) a b : existsb f a = true \/ existsb f b = true -> existsb f (a ++ b) = true.
Proof. rewrite existsb_app. intros [-> | ->]; [reflexivity|apply Bool.orb_true_r]. Qed.

Lemma drain_exec C local s i rest inp s' pushed e : in_sync s -> (exists arr gs, LI local arr gs (st_link s)) -> full_chunks (st_link s) ->
  transport_ok (st_crypto s, i :: rest) (Run inp) -> drained (s, i :: rest) -> stack_exec C s i inp = Ok (s', pushed, e) -> ~ In EvOpened e ->
  drained (s', pushed ++ rest) /\ full_chunks (st_link s').
Proof.
  intros [S1 S2] (arr & gs & HL) HN HT HD H NE. unfold drained in *. cbn [fst snd] in *.
  assert (Rest : forall P : Prop, (existsb is_reader rest = false -> P \/ existsb is_reader pushed = true) -> existsb is_reader (pushed ++ rest) = true \/ P).
  { intros P X. destruct (existsb is_reader rest) eqn:E; [left; apply existsb_or; auto|]. destruct (X eq_refl); [auto|left; apply existsb_or; auto]. }
  assert (Gen : forall m l' o, (forall c, i = ICall c -> c = StartRx \/ c = LowerOpen \/ (exists d, c = StartTx d) \/ c = LowerTxReady \/ c = LowerClose) -> i <> ITryRead -> exec C (st_crypto s) i (with_message inp m) = Ok (st_crypto s', pushed, e) ->
    st_link s' = l' -> st_open s' = o -> l' = st_link s \/ i = ICall LowerClose -> (able (st_crypto s') -> existsb is_reader (pushed ++ rest) = true \/ settled l')).
  { intros m l' o Hc Ht X El Eo HS A. apply Rest. intros NR. pose proof (exec_try _ _ _ _ _ _ _ X A) as Y.
    assert (i = ICall StartRx \/ i = ICall LowerTxReady \/ i = ICall LowerClose \/ i = ICall LowerOpen \/ (forall c, i = ICall c -> exists d, c = StartTx d)) as D.
    { destruct i as [c| | | | | | | | | | | | |]; try (right; right; right; right; intros c; discriminate). destruct (Hc c eq_refl) as [->|[->|[[d ->]|[->| ->]]]]; auto. right. right. right. right. intros c E. injection E as <-. eauto. }
    destruct D as [->|[->|[->|[->|D]]]]; auto.
    - (* close *) destruct A as [A _]. rewrite (exec_open _ _ _ _ _ _ _ X) in A. discriminate.
    - (* open *) destruct HS as [HS|HS]; [|discriminate]. cbn [exec enter] in X. destruct (ep_open (st_crypto s)) eqn:O.
      + injection X as E1 <- <-. rewrite <- E1 in A. destruct (HD A) as [Z|Z]; [cbn in Z; rewrite NR in Z; discriminate|rewrite HS; auto].
      + injection X as _ _ <-. elim NE. destruct (c_role C); cbn; auto.
    - assert (A0 : able (st_crypto s)).
      { destruct A as (A1 & A2 & A3). split; [|split].
        - rewrite (exec_open _ _ _ _ _ _ _ X) in A1. destruct i as [c| | | | | | | | | | | | |]; auto. destruct (D c eq_refl) as [d ->]. exact A1.
        - eapply idle_back; [exact X| |intros ->; destruct (D _ eq_refl); discriminate|exact A2]. exact HT.
        - destruct (payload_back _ _ _ _ _ _ _ X A3) as [Z|[->| ->]]; auto; destruct (D _ eq_refl); discriminate. }
      destruct (HD A0) as [Z|Z].
      + cbn [existsb] in Z. rewrite NR, Bool.orb_false_r in Z. destruct i as [c| | | | | | | | | | | | |]; try discriminate Z; [destruct (D c eq_refl) as [d ->]; discriminate|congruence].
      + destruct HS as [->| ->]; auto. destruct (D _ eq_refl); discriminate. }
  assert (CS : forall o l m, crypto_step C o l (st_crypto s) i (with_message inp m) = Ok (s', pushed, e) -> exec C (st_crypto s) i (with_message inp m) = Ok (st_crypto s', pushed, e) /\ st_link s' = l /\ st_open s' = o).
  { intros o l m E. unfold crypto_step in E. destruct (exec C (st_crypto s) i (with_message inp m)) as [[[c p] e0]| |] eqn:X; cbn [obind] in E; try discriminate. injection E as <- <- <-. auto. }
  assert (Plain : crypto_step C (st_open s) (st_link s) (st_crypto s) i (with_message inp []) = Ok (s', pushed, e) -> (forall c, i = ICall c -> c = StartRx \/ exists d, c = StartTx d) -> i <> ITryRead ->
    (able (st_crypto s') -> existsb is_reader (pushed ++ rest) = true \/ settled (st_link s')) /\ full_chunks (st_link s')).
  { intros E Hc Ht. destruct (CS _ _ _ E) as (X & El & Eo). split; [|rewrite El; exact HN]. rewrite El. eapply Gen; eauto. intros c Ec. destruct (Hc c Ec) as [->|[d ->]]; eauto 6. }
  assert (Same : s' = s -> pushed = [] -> is_reader i = false -> (able (st_crypto s') -> existsb is_reader (pushed ++ rest) = true \/ settled (st_link s')) /\ full_chunks (st_link s')).
  { intros -> -> Hi. split; [|exact HN]. intros A. destruct (HD A) as [Z|Z]; [cbn [existsb] in Z; rewrite Hi in Z; auto|auto]. }
  assert (Thru : forall o op c, i = ICall c -> (c = LowerOpen /\ op = LOpen \/ c = LowerTxReady /\ op = LTxReady \/ c = LowerClose /\ op = LClose) -> through_link C o s op c inp = Ok (s', pushed, e) ->
    ll_open (st_link s) = match c with LowerOpen => false | _ => true end -> (able (st_crypto s') -> existsb is_reader (pushed ++ rest) = true \/ settled (st_link s')) /\ full_chunks (st_link s')).
  { intros o op c -> D E LO. unfold through_link in E. destruct (ll_step (st_link s) op) as [[l1 out]| |] eqn:L; cbn [obind] in E; try discriminate.
    assert (out <> [] /\ ll_rx_queue l1 = ll_rx_queue (st_link s)) as (O1 & O3).
    { destruct D as [[-> ->]|[[-> ->]|[-> ->]]]; cbn [ll_step] in L; rewrite LO in L; injection L as <- <-; repeat split; auto; discriminate. }
    destruct out as [|y ys]; [congruence|]. destruct (CS o l1 [] E) as (X & El & Eo). split; [|rewrite El; unfold full_chunks; rewrite O3; exact HN]. intros A.
    destruct D as [[-> ->]|[[-> ->]|[-> ->]]].
    - cbn [exec enter] in X. rewrite S2, <- S1, LO in X. injection X as _ _ <-. elim NE. destruct (c_role C); cbn; auto.
    - pose proof (exec_try _ _ _ _ _ _ _ X A) as Y. cbn in Y. left. apply existsb_or. auto.
    - destruct A as [A _]. rewrite (exec_open _ _ _ _ _ _ _ X) in A. discriminate. }
  destruct i as [[d| | | | |]| | | | | | | | | | | | |]; cbn [stack_exec] in H; try (apply Plain; [exact H| |discriminate]; try (intros c; discriminate)).
  - intros c E. injection E as <-. eauto.
  - intros c E. injection E as <-. eauto.
  - destruct (st_open s) eqn:O; [injection H as <- <- _; apply Same; reflexivity|]. eapply Thru; eauto. 
  - destruct (st_open s) eqn:O; [|injection H as <- <- _; apply Same; reflexivity]. eapply Thru; eauto 6. 
  - destruct (st_open s) eqn:O; [eapply Thru; eauto 6|]. injection H as <- <- _. split; [|exact HN]. intros (A & _). cbn in A. congruence.
  - destruct (st_open s) eqn:O; [|injection H as <- <- _; split; [|exact HN]; intros (A & _); congruence].
    unfold through_link in H. destruct (ll_step (st_link s) LRxReady) as [[l1 out]| |] eqn:L; cbn [obind] in H; try discriminate.
    destruct (rx_ready_settled _ _ _ _ _ _ HL HN L) as [N1 N2]. destruct out as [|y ys].
    + injection H as <- <- _. cbn [st_link]. split; [|exact N1]. intros _. right. auto.
    + destruct (CS _ l1 [] H) as (X & El & Eo). rewrite El. split; [|exact N1]. intros A. pose proof (exec_try _ _ _ _ _ _ _ X A) as Y. cbn in Y. left. apply existsb_or. auto.
  - destruct (reads_link (st_crypto s) inp) eqn:RL.
    + destruct (ll_start_rx (st_link s)) as [[m l1]| |] eqn:L; cbn [obind] in H; try discriminate. destruct (CS _ _ _ H) as (X & El & Eo). rewrite El.
      destruct (start_rx_settled _ _ _ _ _ _ HL HN L) as [N1 N2]. split; [|exact N1]. intros A. destruct m as [|b m]; [auto|]. pose proof (exec_try _ _ _ _ _ _ _ X A) as [_ Y]. left. apply existsb_or. left. apply Y. discriminate.
    + destruct (CS _ _ _ H) as (X & El & Eo). rewrite El. split; [|exact HN]. intros A. pose proof (exec_try _ _ _ _ _ _ _ X A) as [Y _].
      change (reads_link (st_crypto s) (with_message inp [])) with (reads_link (st_crypto s) inp) in Y. congruence.
Qed.

(** ** Along a run without arrivals *)
Lemma exec_no_open C s i inp s' pushed e : exec C s i inp = Ok (s', pushed, e) -> ep_open s = true -> ~ In EvOpened e.
Proof. intros H O. destruct i as [[]| | | | | | | | | | | | |]; exec_cases H; splits; cbn; intuition congruence. Qed.
Lemma exec_still_open C s i inp s' pushed e : exec C s i inp = Ok (s', pushed, e) -> ep_open s = true -> ~ In EvClosed e -> ep_open s' = true.
Proof.
  intros H O N. rewrite (exec_open _ _ _ _ _ _ _ H). destruct i as [[]| | | | | | | | | | | | |]; auto. exfalso. apply N. cbn [exec enter] in H. rewrite O in H. injection H as _ _ <-. left. reflexivity.
Qed.
Lemma stack_exec_open C s i inp s' pushed e : in_sync s -> stack_exec C s i inp = Ok (s', pushed, e) -> ep_open (st_crypto s) = true ->
  ~ In EvOpened e /\ (~ In EvClosed e -> ep_open (st_crypto s') = true).
Proof.
  intros [S1 S2] H O. destruct (stack_exec_cases _ _ _ _ _ _ _ H) as [[m X]|(-> & -> & _ & X)].
  - split; [eapply exec_no_open; eauto|eapply exec_still_open; eauto].
  - split; [intros []|]. intros _. destruct X as [[-> _]|[[-> _]|[_ Z]]]; auto.
Qed.
Lemma drain_run C local : forall ls k ke k' t, related transport_ok local k ke -> ep_open (st_crypto (fst k)) = true -> drained k -> full_chunks (st_link (fst k)) ->
  Forall arrival_ok ls -> wire_in ls = [] -> Forall (fun l => l <> SArrive []) ls -> salong (fun k l => transport_ok k l /\ from_outside k l) C k ls ->
  stack_run C k ls = Ok (k', t) -> ~ In EvClosed t -> drained k' /\ ep_open (st_crypto (fst k')) = true.
Proof.
  induction ls as [|l ls IH]; intros k ke k' t HR HO HD HN HA HW HE HQ H NC; cbn [stack_run] in H; [injection H as <- <-; auto|].
  destruct (stack_step C k l) as [[k1 e1]| |] eqn:S; cbn [obind] in H; try discriminate.
  destruct (stack_run C k1 ls) as [[k2 e2]| |] eqn:H2; cbn [obind] in H; try discriminate. injection H as <- <-.
  cbn [salong] in HQ. rewrite S in HQ. destruct HQ as [HQ1 HQ2]. inversion HA as [|x y HA1 HA2]; subst x y. inversion HE as [|x y HE1 HE2]; subst x y.
  cbn [wire_in flat_map] in HW. apply app_eq_nil in HW. destruct HW as [HW1 HW2].
  destruct (sim_step transport_ok C local k ke l k1 e1 (fun _ _ _ H => H) HR HA1 HQ1 S) as (_ & ke1 & _ & _ & _ & _ & HR1 & _).
  assert (NC2 : ~ In EvClosed e2) by (intros X; apply NC; apply in_or_app; auto). assert (NC1 : ~ In EvClosed e1) by (intros X; apply NC; apply in_or_app; auto).
  assert (Next : ep_open (st_crypto (fst k1)) = true /\ drained k1 /\ full_chunks (st_link (fst k1))); [|destruct Next as (N1 & N2 & N3); eapply IH; eauto].
  destruct k as [s stk]. destruct l as [ch|[x|inp]]; unfold stack_step in S; cbn [fst snd] in *.
  - subst ch. congruence.
  - destruct stk as [|i rest]; [|injection S as <- <-; auto].
    destruct (inject_tx (st_crypto s) x) as (_ & _ & BU & OP). destruct (inject_rx (st_crypto s) x) as (PL & _).
    destruct (inject (st_crypto s) x) as [c1 stk1] eqn:EI. injection S as <- <-. cbn [fst snd] in *. split; [cbn; congruence|]. split; [|exact HN].
    unfold drained in *. cbn [fst snd st_crypto st_link] in *. intros (A1 & A2 & A3). destruct HD as [Z|Z]; [|discriminate|auto]. unfold able. repeat split; congruence.
  - destruct stk as [|i rest]; [injection S as <- <-; auto|].
    destruct (stack_exec C s i inp) as [[[s' p] e0]| |] eqn:X; cbn [obind] in S; try discriminate. injection S as <- <-. destruct HQ1 as [HT HF].
    pose proof (re_sync _ _ _ _ HR) as SY. cbn [fst] in SY. destruct (stack_exec_open _ _ _ _ _ _ _ SY X HO) as [O1 O2]. cbn [fst]. split; [auto|].
    eapply drain_exec; eauto. exact (re_link _ _ _ _ HR).
Qed.
(** ** What is left on the line *)
Lemma settled_left local future rest l : PI local future rest l -> Forall (mine local) rest -> settled l ->
  exists used, used ++ future = flat_map frame_bytes rest /\ forall f rest', rest = f :: rest' -> length used < length (frame_bytes f).
Proof.
  intros HP HM [(R & E1 & E2)|(R & P & f & LR & B)].
  - destruct HP as (_ & _ & _ & _ & [(_ & X & _)|(_ & c0 & u & B & M & D & F)]); [congruence|]. rewrite E1, E2 in F. cbn [concat app] in F. exists u. split; [exact F|].
    intros f rest' ->. inversion HM as [|x y (M1 & _) M3]; subst x y. destruct (le_lt_dec (length (frame_bytes f)) (length u)) as [L|L]; [exfalso|exact L].
    cbn [flat_map] in F. assert (U : exists v, u = frame_bytes f ++ v).
    { exists (skipn (length (frame_bytes f)) u). assert (X : firstn (length (frame_bytes f)) (u ++ future) = firstn (length (frame_bytes f)) (frame_bytes f ++ flat_map frame_bytes rest')) by (rewrite F; reflexivity).
      rewrite firstn_app in X. replace (length (frame_bytes f) - length u) with 0 in X by lia. cbn [firstn] in X. rewrite app_nil_r in X.
      rewrite firstn_app, Nat.sub_diag, firstn_all in X. cbn [firstn] in X. rewrite app_nil_r in X. rewrite <- X at 1. symmetry. apply firstn_skipn. }
    destruct U as [v ->]. destruct (crun_frame retry1 c0 f v B) as (c' & X1 & _); [rewrite M; exact M1|rewrite M; lia|]. rewrite X1 in D. injection D as D _ _. unfold has_result in R. rewrite <- D in R. discriminate.
  - exfalso. destruct (bus_first _ _ _ _ HP ltac:(eapply Forall_impl; [|exact HM]; intros ? (X & _); exact X) P R) as (g & rest' & -> & Y & _).
    inversion HM as [|x y (M1 & M2 & M3) M4]; subst x y. unfold link_read in LR. rewrite R in LR. fold (rd (lp_context (ll_parser l))) in LR. injection LR as <-. rewrite Y in B.
    destruct HP as (L & _). rewrite L in B. destruct B; congruence.
Qed.
Lemma stack_run_app C : forall ls1 k ls2, stack_run C k (ls1 ++ ls2) = let* (k1, e1) := stack_run C k ls1 in let* (k2, e2) := stack_run C k1 ls2 in Ok (k2, e1 ++ e2).
Proof.
  induction ls1 as [|l ls1 IH]; intros k ls2; cbn [stack_run app obind]; [destruct (stack_run C k ls2) as [[? ?]| |]; reflexivity|].
  destruct (stack_step C k l) as [[k1 e1]| |]; cbn [obind]; auto. rewrite IH. destruct (stack_run C k1 ls1) as [[k2 e2]| |]; cbn [obind]; auto.
  destruct (stack_run C k2 ls2) as [[k3 e3]| |]; cbn [obind]; auto. rewrite app_assoc. reflexivity.
Qed.
Lemma salong_app Q C : forall ls1 k ls2 k1 e1, salong Q C k (ls1 ++ ls2) -> stack_run C k ls1 = Ok (k1, e1) -> salong Q C k ls1 /\ salong Q C k1 ls2.
Proof.
  induction ls1 as [|l ls1 IH]; intros k ls2 k1 e1 H R; cbn [stack_run app salong] in *; [injection R as <- <-; auto|].
  destruct H as [H0 H]. destruct (stack_step C k l) as [[k2 e2]| |]; cbn [obind] in R; try discriminate. destruct (stack_run C k2 ls1) as [[k3 e3]| |] eqn:E; cbn [obind] in R; try discriminate. injection R as <- <-.
  destruct (IH _ _ _ _ H E). auto.
Qed.
Lemma taken_at C a Q ls k t fs future : any_message Q -> Forall arrival_ok ls -> Forall (fun l => l <> SArrive []) ls -> salong (fun k l => Q k l /\ from_outside k l) C (new_stack C a, []) ls ->
  stack_run C (new_stack C a, []) ls = Ok (k, t) -> ~ In EvClosed t -> Forall (frame_ok 4092) fs -> wire_in ls ++ future = flat_map frame_bytes fs ->
  (exists ke, related Q (a_source a) k ke) /\ exists d rest, fs = d ++ rest /\ messages t = map f_payload d /\ PI (a_source a) future rest (st_link (fst k)).
Proof.
  intros QM HA HN HQ H NC HF W. destruct (stack_refines Q C a ls k t QM HA HQ H) as (les & ke & ops & out & _ & _ & RE & R1 & R2 & R3 & [R4 R5]). split; [eauto|].
  assert (CH : Forall chunk_ok ops).
  { rewrite Forall_forall in *. intros o Ho. destruct o as [| | | |ch| |d]; cbn; auto. intros ->. exact (HN _ (R4 _ Ho) eq_refl). }
  rewrite <- R3 in W.
  destruct (bus_run (a_source a) ops _ fs future (bus_new (a_source a) (a_destination a) fs future ops W) HF CH) as (l & out1 & d & rest & E & -> & D1 & D2 & P); [auto|].
  unfold stack_link in R1. rewrite R1 in E. injection E as -> <-. exists d, rest. rewrite <- R2. auto.
Qed.

Lemma taken C a ls1 ls2 k1 t1 k t fs future : Forall arrival_ok (ls1 ++ ls2) -> Forall (fun l => l <> SArrive []) (ls1 ++ ls2) ->
  salong (fun k l => transport_ok k l /\ from_outside k l) C (new_stack C a, []) (ls1 ++ SLab (Ext (Enter LowerRxReady)) :: ls2) ->
  stack_run C (new_stack C a, []) ls1 = Ok (k1, t1) -> st_open (fst k1) = true -> snd k1 = [] -> wire_in ls2 = [] ->
  stack_run C (new_stack C a, []) (ls1 ++ SLab (Ext (Enter LowerRxReady)) :: ls2) = Ok (k, t) -> ~ In EvClosed t ->
  snd k = [] -> ep_busy (st_crypto (fst k)) = false -> ep_payload (st_crypto (fst k)) = None ->
  Forall (mine (a_source a)) fs -> wire_in ls1 ++ future = flat_map frame_bytes fs ->
  exists n, messages t = map f_payload (firstn n fs) /\ forall before after, fs = before ++ after -> length (flat_map frame_bytes before) <= length (wire_in ls1) -> length before <= n.
Proof.
  intros HA HN HQ H1 O1 Q1 W2 H NC QK BK PK HM W.
  assert (HF : Forall (frame_ok 4092) fs) by (eapply Forall_impl; [|exact HM]; intros ? (X & _); exact X).
  pose proof (proj1 (Forall_app _ _ _) HA) as [HA1 HA2]. pose proof (proj1 (Forall_app _ _ _) HN) as [HN1 HN2].
  assert (HA' : Forall arrival_ok (ls1 ++ SLab (Ext (Enter LowerRxReady)) :: ls2)) by (apply Forall_app; split; [exact HA1|constructor; [exact I|exact HA2]]).
  assert (HN' : Forall (fun l => l <> SArrive []) (ls1 ++ SLab (Ext (Enter LowerRxReady)) :: ls2)) by (apply Forall_app; split; [exact HN1|constructor; [discriminate|exact HN2]]).
  assert (W' : wire_in (ls1 ++ SLab (Ext (Enter LowerRxReady)) :: ls2) = wire_in ls1) by (unfold wire_in in *; rewrite flat_map_app; cbn [flat_map]; rewrite W2; apply app_nil_r).
  destruct (salong_app _ _ _ _ _ _ _ HQ H1) as [G1 G2].
  pose proof H as HH. rewrite stack_run_app, H1 in HH. cbn [obind] in HH. destruct (stack_run C k1 (SLab (Ext (Enter LowerRxReady)) :: ls2)) as [[k' t2]| |] eqn:H2; cbn [obind] in HH; try discriminate. injection HH as -> <-.
  assert (N1 : ~ In EvClosed t1) by (intros X; apply NC, in_or_app; auto). assert (N2 : ~ In EvClosed t2) by (intros X; apply NC, in_or_app; auto).
  destruct (taken_at C a transport_ok ls1 k1 t1 fs future (fun _ _ _ X => X) HA1 HN1 G1 H1 N1 HF W) as ((ke1 & RE1) & d1 & rest1 & _ & _ & P1).
  destruct (taken_at C a transport_ok _ k _ fs future (fun _ _ _ X => X) HA' HN' HQ H NC HF ltac:(rewrite W'; exact W)) as (_ & d & rest & E & D & P).
  cbn [stack_run salong] in H2, G2. destruct k1 as [s1 stk1]. cbn [snd fst] in *. subst stk1. destruct G2 as [G2 G3].
  destruct (stack_step C (s1, []) (SLab (Ext (Enter LowerRxReady)))) as [[k2 e2]| |] eqn:S; cbn [obind] in H2; try discriminate.
  destruct (stack_run C k2 ls2) as [[k3 t3]| |] eqn:H3; cbn [obind] in H2; try discriminate. injection H2 as -> <-.
  assert (N3 : ~ In EvClosed t3) by (intros X; apply N2, in_or_app; auto).
  destruct (sim_step transport_ok C (a_source a) (s1, []) ke1 (SLab (Ext (Enter LowerRxReady))) k2 e2 (fun _ _ _ X => X) RE1 I G2 S) as (_ & ke2 & _ & _ & _ & _ & RE2 & _).
  cbn in S. injection S as <- <-.
  destruct (re_sync _ _ _ _ RE1) as [S1 S2]. cbn [fst] in S1, S2.
  destruct (drain_run C (a_source a) ls2 _ ke2 k t3 RE2) as [DR OK]; auto; cbn [fst st_crypto st_link].
  - congruence.
  - unfold drained. cbn. auto.
  - exact (proj1 (proj2 P1)).
  - unfold drained, able in DR. rewrite QK in DR. destruct DR as [X|SE]; [auto|discriminate|].
    assert (HMr : Forall (mine (a_source a)) rest) by (rewrite E in HM; apply Forall_app in HM; tauto).
    destruct (settled_left _ _ _ _ P HMr SE) as (used & U1 & U2). exists (length d). split.
    + rewrite E, firstn_app, firstn_all, Nat.sub_diag. cbn [firstn]. rewrite app_nil_r. exact D.
    + intros before after EB L. destruct (le_lt_dec (length before) (length d)) as [X|X]; [exact X|exfalso].
      assert (exists f r q, rest = f :: r /\ before = d ++ f :: q) as (f & r & q & -> & ->).
      { assert (Y : before = d ++ skipn (length d) before).
        { rewrite <- (firstn_skipn (length d) before) at 1. f_equal. assert (Z : firstn (length d) (before ++ after) = firstn (length d) (d ++ rest)) by congruence.
          rewrite !firstn_app, firstn_all, Nat.sub_diag in Z. cbn [firstn] in Z. rewrite app_nil_r in Z. replace (length d - length before) with 0 in Z by lia. cbn [firstn] in Z. rewrite app_nil_r in Z. exact Z. }
        destruct (skipn (length d) before) as [|f q] eqn:K; [rewrite Y, app_nil_r in X; lia|]. rewrite Y, <- app_assoc in EB. rewrite E in EB. apply app_inv_head in EB. cbn [app] in EB. eauto 6. }
      specialize (U2 f r eq_refl). rewrite E in W. rewrite flat_map_app in W, L. rewrite <- U1 in W. rewrite app_assoc in W. apply app_inv_tail in W. rewrite W in L. cbn [flat_map] in L. rewrite !app_length in L. lia.
Qed.
