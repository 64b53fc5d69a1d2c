(** * EndpointTimer: the handshake states and timers of the initiator *)
From Verif Require Import Base BaseFacts Codec CodecSpec CodecFacts Link LinkLayer Primitives Session SessionSpec SessionFacts SessionMain Handshake HandshakeFacts Endpoint EndpointSpec EndpointFacts EndpointMain EndpointRx EndpointTx.

Definition is_hs (i : instr) : bool := match i with INonceChange | IHandshakeRequired | IPreTxReady => true | _ => false end.
Definition is_set (i : instr) : bool := match i with ISetState _ => true | _ => false end.
Definition head_is (stk : list instr) (f : instr -> bool) : bool := match stk with i :: _ => f i | [] => false end.
Definition is_required (i : instr) : bool := match i with IHandshakeRequired => true | _ => false end.
Definition is_pre (i : instr) : bool := match i with IPreTxReady => true | _ => false end.
Definition is_nonce (i : instr) : bool := match i with INonceChange => true | _ => false end.

(** What can be on the stack above the assignment of the state after a handshake *)
Definition under_way (i : instr) : bool :=
  match i with
  | ICall (StartTx _ | StartRx) | ITryRead | ICheckTransmit | IUpOpen | IUpClose | IUpRxReady | IHandshakeRequired | INonceChange | IAuthPayload _ => true
  | _ => false
  end.
Definition finishing (stk : list instr) : Prop :=
  exists above below, stk = above ++ ISetState Idle :: below /\ forallb under_way above = true /\ none_of is_set below.

(** The running timer is the one of the state *)
Definition timer_of (s : endpoint) : Prop :=
  match ep_state s with
  | Idle | BadConfiguration => ep_timer s = None
  | WaitForBeginReply | WaitForAuthReply => ep_timer s = Some TResponse
  | WaitForRetry => ep_timer s = Some TRetry
  end.

Definition busy_for (s : endpoint) (stk : list instr) : Prop :=
  (ep_session_timer s = true /\ ep_required s = false /\ head_is stk is_required = false) \/
  (ep_session_timer s = false /\ ep_busy s = true /\ (ep_required s = true \/ head_is stk is_required = true)).
Definition waiting (s : endpoint) (stk : list instr) : Prop :=
  timer_of s /\
  (ep_session_timer s = true -> ep_state s = Idle /\ ep_required s = false /\ head_is stk is_required = false) /\
  (ep_open s = true -> ep_state s = Idle -> ep_session_timer s = true \/ (ep_required s = true /\ ep_busy s = true) \/
     head_is stk is_required = true \/ (head_is stk is_pre = true /\ ep_required s = true)).

Record hinv (k : config) : Prop := {
  h_b : binv k;
  h_process : forall m rest, snd k = IProcess m :: rest -> ep_open (fst k) = true /\ none_of is_set rest;
  h_hs : none_of is_hs (tl (snd k));
  h_hs_open : head_is (snd k) is_hs = true -> ep_open (fst k) = true;
  h_stale : ep_stale (fst k) = [] /\ ep_session_stale (fst k) = 0;
  h_closed : ep_open (fst k) = false -> ep_state (fst k) = Idle /\ ep_timer (fst k) = None /\ ep_session_timer (fst k) = false /\
     ep_required (fst k) = false /\ s_valid (ep_active (fst k)) = false;
  h_state : (finishing (snd k) /\ ep_open (fst k) = true /\ ep_state (fst k) = WaitForAuthReply /\ ep_timer (fst k) = None /\
             busy_for (fst k) (snd k) /\ (head_is (snd k) is_nonce = true -> ep_busy (fst k) = true)) \/
            (none_of is_set (snd k) /\ waiting (fst k) (snd k)) }.

Lemma finishing_completing stk : finishing stk -> existsb completing stk = true.
Proof. intros (a & b & -> & _). rewrite existsb_app. cbn. apply Bool.orb_true_r. Qed.
Lemma finishing_head i rest : finishing (i :: rest) -> (i = ISetState Idle /\ none_of is_set rest) \/ (under_way i = true /\ finishing rest).
Proof.
  intros (above & below & E & A & B). destruct above as [|a above]; cbn in E; injection E as -> ->; [left; auto|].
  right. cbn in A. apply Bool.andb_true_iff in A. destruct A as [A1 A2]. split; auto. exists above, below. auto.
Qed.
Lemma finishing_push a rest : forallb under_way a = true -> finishing rest -> finishing (a ++ rest).
Proof. intros Ha (above & below & -> & A & B). exists (a ++ above), below. rewrite <- app_assoc, forallb_app, Ha. auto. Qed.

(** Timers and states are touched only by the handshake *)
Lemma hs_untouched C s i inp s' pushed e c : c_role C = Initiator c -> exec C s i inp = Ok (s', pushed, e) ->
  match i with ICall LowerOpen | ICall LowerClose | IProcess _ | IHandshakeRequired | INonceChange | ISetState _ => False | _ => True end ->
  ep_state s' = ep_state s /\ ep_timer s' = ep_timer s /\ ep_stale s' = ep_stale s /\ ep_session_timer s' = ep_session_timer s /\
  ep_session_stale s' = ep_session_stale s /\ ep_required s' = ep_required s /\ ep_open s' = ep_open s /\ none_of is_set pushed /\
  none_of is_hs (tl pushed) /\
  (head_is pushed is_hs = true -> 
     (i = ICall LowerTxReady /\ ep_open s = true /\ head_is pushed is_pre = true) \/
     (i = ICheckTransmit /\ s_valid (ep_active s) = true /\ head_is pushed is_nonce = true /\ in_ready inp = true /\ ep_busy s' = in_started inp) \/
     (i = IPreTxReady /\ head_is pushed is_required = true /\ ep_required s = true)).
Proof.
  intros HC H Hi.
  assert (X1 : none_of is_set (map ICall (in_calls inp))) by (apply none_calls; reflexivity).
  assert (X2 : none_of is_hs (tl (map ICall (in_calls inp)))) by (destruct (in_calls inp); [reflexivity|apply none_calls; reflexivity]).
  assert (X3 : head_is (map ICall (in_calls inp)) is_hs = true -> False) by (destruct (in_calls inp); discriminate).
  destruct i as [[]| | | | | | | | | | | | |]; try destruct Hi; exec_cases H; splits.
  all: refine (conj _ (conj _ (conj _ (conj _ (conj _ (conj _ (conj _ (conj _ (conj _ _))))))))); auto; try discriminate; try reflexivity.
  all: try (intros X; destruct (X3 X)).
  all: apply Bool.negb_false_iff in Heqb, Heqb0; apply Bool.andb_true_iff in Heqb0; destruct Heqb0 as [R _].
  all: intros _; right; left; rewrite R, Bool.orb_false_r; auto.
Qed.
Lemma pre_exec C s inp s' pushed e c : c_role C = Initiator c -> exec C s IPreTxReady inp = Ok (s', pushed, e) ->
  pushed = (if ep_required s then [IHandshakeRequired] else []).
Proof. intros HC H. cbn in H. rewrite HC in H. injection H as _ <- _. reflexivity. Qed.

(** A received message *)
Lemma process_hs C s m inp s' pushed e c : c_role C = Initiator c -> exec C s (IProcess m) inp = Ok (s', pushed, e) ->
  timer_of s -> (ep_session_timer s = true -> ep_state s = Idle /\ ep_required s = false) ->
  (ep_state s = Idle -> ep_session_timer s = true \/ (ep_required s = true /\ ep_busy s = true)) ->
  ep_stale s = [] -> ep_session_stale s = 0 ->
  ep_stale s' = [] /\ ep_session_stale s' = 0 /\ ep_open s' = ep_open s /\
  ((exists p, pushed = [IUpOpen; IAuthPayload p; ISetState Idle] /\ ep_state s' = WaitForAuthReply /\ ep_timer s' = None /\
      ep_session_timer s' = true /\ ep_required s' = false) \/
   ((pushed = [] \/ pushed = [INonceChange; IUpRxReady]) /\ timer_of s' /\
    (ep_session_timer s' = true -> ep_state s' = Idle /\ ep_required s' = false) /\
    (ep_state s' = Idle -> ep_session_timer s' = true \/ (ep_required s' = true /\ ep_busy s' = true)))).
Proof.
  intros HC H T1 T2 T3 S1 S2. unfold timer_of in *. exec_cases H; try congruence; splits; cbn [app] in *.
  all: repeat match goal with E : ep_state _ = _ |- _ => rewrite E in *; clear E end.
  all: repeat match goal with E : (?x = Idle -> _) |- _ => match x with Idle => fail 1 | WaitForAuthReply => clear E | WaitForBeginReply => clear E end end.
  all: try (refine (conj _ (conj _ (conj _ (or_intror (conj (or_introl eq_refl) (conj _ (conj _ _))))))); auto; fail).
  all: try (assert (T2' : ep_session_timer s = false) by (destruct (ep_session_timer s) eqn:Et; [destruct (T2 eq_refl); discriminate|reflexivity])).
  all: try (assert (T2' : ep_session_timer s' = false) by (destruct (ep_session_timer s') eqn:Et; [destruct (T2 eq_refl); discriminate|reflexivity])).
  all: try congruence.
  all: try (refine (conj _ (conj _ (conj _ (or_intror (conj (or_introl eq_refl) (conj _ (conj _ _))))))); auto; try discriminate; congruence).
  all: try (refine (conj _ (conj _ (conj _ (or_intror (conj (or_intror eq_refl) (conj _ (conj _ _))))))); auto; fail).
  refine (conj _ (conj _ (conj _ (or_introl _)))); auto. eexists. repeat split.
Qed.

Lemma head_app f pushed rest : (forall i, f i = true -> is_hs i = true) -> none_of is_hs rest -> head_is (pushed ++ rest) f = head_is pushed f.
Proof.
  intros Hf Hr. destruct pushed; cbn; [|reflexivity]. destruct rest as [|i rest]; cbn; [reflexivity|].
  apply none_cons in Hr. destruct Hr as [Hr _]. destruct (f i) eqn:E; [rewrite (Hf _ E) in Hr; discriminate|reflexivity].
Qed.
Lemma required_hs i : is_required i = true -> is_hs i = true. Proof. destruct i; cbn; congruence. Qed.
Lemma pre_hs i : is_pre i = true -> is_hs i = true. Proof. destruct i; cbn; congruence. Qed.
Lemma nonce_hs i : is_nonce i = true -> is_hs i = true. Proof. destruct i; cbn; congruence. Qed.

(** on_handshake_required *)
Lemma required_exec C s inp s' pushed e c : c_role C = Initiator c -> exec C s IHandshakeRequired inp = Ok (s', pushed, e) ->
  pushed = [] /\ ep_open s' = ep_open s /\ ep_active s' = ep_active s /\ ep_session_stale s' = ep_session_stale s /\ ep_session_timer s' = ep_session_timer s /\
  (ep_state s <> Idle -> s' = set_required s true) /\
  (timer_of s -> ep_stale s = [] -> ep_stale s' = [] /\ timer_of s' /\ (ep_state s' = Idle -> ep_required s' = true /\ ep_busy s' = true)).
Proof.
  intros HC H. unfold timer_of. exec_cases H; try congruence; splits.
  all: refine (conj _ (conj _ (conj _ (conj _ (conj _ (conj _ _)))))); auto; try congruence.
  all: intros T S; rewrite ?Heqh in *; cbn in *; try congruence.
  all: try (rewrite T; auto; fail).
  all: try (refine (conj _ (conj _ _)); auto; try congruence).
  all: try intros _; try split; auto; try (destruct (in_ready inp); [discriminate|reflexivity]).
  all: rewrite T; exact S.
Qed.
Lemma nonce_exec C s inp s' pushed e c : c_role C = Initiator c -> exec C s INonceChange inp = Ok (s', pushed, e) ->
  (pushed = [] /\ s' = s) \/ (pushed = [IHandshakeRequired] /\ s' = set_session_timer s false).
Proof. intros HC H. exec_cases H; try congruence; auto. Qed.

(** The pushed calls in the window *)
Lemma under_way_exec C s i inp s' pushed e : exec C s i inp = Ok (s', pushed, e) -> under_way i = true ->
  forallb app_call (in_calls inp) = true -> (i = ITryRead -> in_ready inp = true -> in_message inp = []) -> forallb under_way pushed = true.
Proof.
  intros H Hi Hc Hm.
  assert (X : forallb under_way (map ICall (in_calls inp)) = true).
  { clear -Hc. induction (in_calls inp) as [|[] l IH]; cbn in *; auto; discriminate. }
  destruct i as [[]| | | | | | | | | | | | |]; try discriminate Hi; exec_cases H; splits; auto.
  apply Bool.negb_false_iff in Heqb. specialize (Hm eq_refl Heqb). congruence.
Qed.

(** Whether the active session is valid, when nothing is received *)
Lemma valid_closed C s i inp s' pushed e c : c_role C = Initiator c -> exec C s i inp = Ok (s', pushed, e) ->
  is_process i = false -> s_valid (ep_active s) = false -> s_valid (ep_active s') = false.
Proof.
  intros HC H Hi V. destruct i as [[]| | | | | | | | | | | | |]; try discriminate Hi; exec_cases H; splits; auto; try congruence.
  all: rewrite V in *; discriminate.
Qed.
Lemma hs_pushed C s i inp s' pushed e : exec C s i inp = Ok (s', pushed, e) -> none_of is_hs (tl pushed) /\
  (head_is pushed is_hs = true -> match i with ICall LowerTxReady => ep_open s = true | ICall LowerOpen => ep_open s' = true | ICheckTransmit => s_valid (ep_active s) = true
     | INonceChange | IPreTxReady | IProcess _ => True | _ => False end).
Proof.
  intros H.
  assert (X1 : none_of is_hs (tl (map ICall (in_calls inp)))) by (destruct (in_calls inp); [reflexivity|apply none_calls; reflexivity]).
  assert (X2 : head_is (map ICall (in_calls inp)) is_hs = true -> False) by (destruct (in_calls inp); discriminate).
  destruct i as [[]| | | | | | | | | | | | |]; exec_cases H; splits; split; auto; try discriminate; try reflexivity; try (intros X; destruct (X2 X)).
  intros _. apply Bool.negb_false_iff in Heqb. exact Heqb.
Qed.

Definition timed_env (k : config) (l : label) : Prop := calm k l /\ lower_ok k l.

Lemma hinv_exec C s i inp rest s' pushed e c : c_role C = Initiator c ->
  hinv (s, i :: rest) -> timed_env (s, i :: rest) (Run inp) -> exec C s i inp = Ok (s', pushed, e) -> hinv (s', pushed ++ rest).
Proof.
  intros HC [B P1 P2 P3 P4 P5 P6] [[[Q1 Q2] Q3] HL] H. cbn [fst snd tl] in *.
  pose proof (binv_exec _ _ _ _ _ _ _ _ B Q1 HL H) as B'.
  destruct B as [B1 B2 B3]. cbn [fst snd tl] in *.
  destruct (process_next _ _ _ _ _ _ _ _ H B2) as [_ N2].
  destruct (hs_pushed _ _ _ _ _ _ _ H) as [S1 S2].
  assert (R1 : none_of is_hs (tl (pushed ++ rest))).
  { destruct pushed; cbn [app tl] in *; [apply none_tl; exact P2|apply none_app; auto]. }
  assert (Hd : forall f, (forall j, f j = true -> is_hs j = true) -> head_is (pushed ++ rest) f = head_is pushed f) by (intros f Hf; apply head_app; auto).
  assert (Busy : i <> ICall LowerTxReady -> (ep_busy s = true -> ep_busy s' = true)).
  { intros Hi Hb. destruct (busy_exec _ _ _ _ _ _ _ H) as [[_ X]|(_ & X & _)]; auto; try congruence.
    intros Hp. destruct i; try discriminate. eapply B3; reflexivity. }
  destruct P6 as [(F & O & St & Tm & Bf & Nb)|[Hn W]].
  - (* the handshake is being completed *)
    assert (Hc : forallb app_call (in_calls inp) = true /\ (i = ITryRead -> in_ready inp = true -> in_message inp = [])).
    { destruct (Q3 (finishing_completing _ F)) as [X Y]. split; auto. intros ->. auto. }
    destruct Hc as [Hc Hm].
    destruct (finishing_head _ _ F) as [[-> Hr]|[U F']].
    + (* the state becomes Idle *)
      cbn in H. injection H as <- <- <-. cbn [app] in *. constructor; cbn [fst snd]; auto; try (cbn; congruence).
      * intros m r E. exfalso. destruct (N2 m r E) as (_ & X & _). discriminate.
      * right. split; [exact Hr|]. unfold waiting, timer_of. cbn. rewrite Tm.
        rewrite (Hd _ required_hs), (Hd _ pre_hs). cbn. unfold busy_for in Bf. cbn in Bf.
        split; [reflexivity|]. destruct Bf as [(X1 & X2 & _)|(X1 & X2 & [X3|X3])]; try discriminate; rewrite X1; auto.
        split; [discriminate|]. auto.
    + pose proof (under_way_exec _ _ _ _ _ _ _ H U Hc Hm) as Up.
      assert (F2 : finishing (pushed ++ rest)) by (apply finishing_push; auto).
      assert (NP : forall m r, pushed ++ rest = IProcess m :: r -> False).
      { intros m r E. destruct (N2 m r E) as (_ & Y & X1 & X2 & X3 & X4 & X5). subst i. rewrite X2 in X1. apply X1. apply Hm; auto.
        cbn in H. unfold try_read_one in H. destruct (in_ready inp); [reflexivity|]. cbn in H. injection H as _ _ Z. rewrite Y in Z. discriminate. }
      assert (Fin : ep_open s' = true -> ep_state s' = WaitForAuthReply -> ep_timer s' = None -> ep_stale s' = [] -> ep_session_stale s' = 0 ->
        busy_for s' pushed -> (head_is pushed is_nonce = true -> ep_busy s' = true) -> hinv (s', pushed ++ rest)).
      { intros A1 A2 A3 A4 A5 A6 A7. constructor; cbn [fst snd]; auto; try congruence.
        - left. unfold busy_for in *. rewrite (Hd _ required_hs), (Hd _ nonce_hs). auto 8. }
      assert (Hi : i <> ICall LowerTxReady) by (intros ->; discriminate).
      specialize (Busy Hi). destruct P4 as [P4 P4'].
      destruct (is_required i) eqn:Er; [|destruct (is_nonce i) eqn:En].
      * destruct i; try discriminate Er. destruct (required_exec _ _ _ _ _ _ _ HC H) as (-> & E1 & E2 & E3 & E4 & E5 & _).
        rewrite E5 by congruence. unfold busy_for in Bf. cbn in Bf. destruct Bf as [(_ & _ & X)|(X1 & X2 & X3)]; [discriminate|].
        rewrite E5 in Fin by congruence. apply Fin; cbn; auto.
        right. cbn. auto.
      * destruct i; try discriminate En. specialize (Nb eq_refl). destruct (nonce_exec _ _ _ _ _ _ _ HC H) as [(-> & ->)|(-> & ->)].
        -- apply Fin; auto.
        -- apply Fin; cbn; auto. right. cbn. auto.
      * assert (Hx : match i with ICall LowerOpen | ICall LowerClose | IProcess _ | IHandshakeRequired | INonceChange | ISetState _ => False | _ => True end)
          by (destruct i as [[]| | | | | | | | | | | | |]; cbn in *; try discriminate; exact I).
        destruct (hs_untouched _ _ _ _ _ _ _ _ HC H Hx) as (E1 & E2 & E3 & E4 & E5 & E6 & E7 & E8 & E9 & E10).
        assert (NR : head_is pushed is_required = false).
        { destruct pushed as [|h pushed]; [reflexivity|]. cbn. destruct (is_required h) eqn:X; [|reflexivity].
          destruct h; try discriminate X. destruct (E10 eq_refl) as [(-> & _)|[(-> & _ & X1 & _)|(-> & _)]]; discriminate. }
        apply Fin; try congruence.
        -- unfold busy_for in *. rewrite NR. cbn in Bf. rewrite Er in Bf. rewrite E4, E6. destruct Bf as [X|(X1 & X2 & X3)]; auto 6.
        -- intros X. destruct pushed as [|h pushed]; [discriminate|]. cbn in X. destruct h; try discriminate X.
           destruct (E10 eq_refl) as [(-> & _)|[(-> & _ & X1 & X2 & X3)|(-> & _)]]; try discriminate.
           destruct HL as (L1 & L2 & _). cbn in L1, L2. rewrite X2 in L1. rewrite X3. apply L2. destruct (ep_busy s); [discriminate|reflexivity].
  - (* not *)
    apply none_cons in Hn. destruct Hn as [Hn1 Hn2]. destruct P4 as [P4 P4'].
    assert (Fin : ep_open s' = true -> none_of is_set pushed -> ep_stale s' = [] -> ep_session_stale s' = 0 -> waiting s' pushed -> hinv (s', pushed ++ rest)).
    { intros A1 A2 A3 A4 A5. constructor; cbn [fst snd]; auto; try congruence.
      - intros m r E. destruct (N2 m r E) as (X1 & X2 & X3 & X4 & X5 & X6 & X7). split; [exact A1|]. rewrite X1. apply none_cons. auto.
      - right. split; [apply none_app; auto|]. unfold waiting in *. rewrite (Hd _ required_hs), (Hd _ pre_hs). exact A5. }
    assert (Clo : ep_open s' = false -> none_of is_set pushed -> ep_stale s' = [] -> ep_session_stale s' = 0 -> head_is pushed is_hs = false ->
       (forall m r, pushed ++ rest = IProcess m :: r -> False) ->
       ep_state s' = Idle /\ ep_timer s' = None /\ ep_session_timer s' = false /\ ep_required s' = false /\ s_valid (ep_active s') = false -> hinv (s', pushed ++ rest)).
    { intros A1 A2 A3 A4 A5 A6 A7. constructor; cbn [fst snd]; auto; try congruence.
      - rewrite (Hd is_hs) by auto. congruence.
      - right. split; [apply none_app; auto|]. destruct A7 as (X1 & X2 & X3 & X4 & X5). unfold waiting, timer_of. rewrite X1, X3, A1. 
        split; [exact X2|]. split; discriminate. }
    destruct W as (W1 & W2 & W3).
    assert (D : (i = ICall LowerOpen \/ i = ICall LowerClose \/ (exists m, i = IProcess m) \/ i = IHandshakeRequired \/ i = INonceChange) \/
       match i with ICall LowerOpen | ICall LowerClose | IProcess _ | IHandshakeRequired | INonceChange | ISetState _ => False | _ => True end).
    { clear -Hn1. destruct i as [[]| | | | | | | | | | | | |]; cbn in Hn1; try discriminate; try (right; exact I); left.
      - left. reflexivity.
      - right; left. reflexivity.
      - right; right; left. eexists. reflexivity.
      - right; right; right; left. reflexivity.
      - right; right; right; right. reflexivity. }
    destruct D as [[->|[->|[(m & ->)|[->| ->]]]]|Hx].
    + (* LowerOpen *)
      cbn in H. destruct (ep_open s) eqn:Eo.
      * injection H as <- <- <-. apply Fin; auto; try reflexivity. unfold waiting. cbn in *. auto.
      * rewrite HC in H. injection H as <- <- <-. destruct (P5 eq_refl) as (X1 & X2 & X3 & X4 & X5).
        apply Fin; auto; try reflexivity. unfold waiting, timer_of. cbn. rewrite X1, X2, X3. split; [reflexivity|]. split; [discriminate|auto].
    + (* LowerClose *)
      cbn in H. destruct (ep_open s) eqn:Eo.
      * unfold reset_state_on_close in H. rewrite HC in H. injection H as <- <- <-. apply Clo; auto; try reflexivity.
        all: cbn; auto 6; intros m r E; discriminate.
      * injection H as <- <- <-. pose proof (P5 eq_refl) as X. apply Clo; auto; try reflexivity.
        intros m r E. cbn in E. destruct (N2 m r E) as (_ & Y & _). discriminate.
    + (* a message *)
      destruct (P1 m rest eq_refl) as [O Hr].
      assert (T2 : ep_session_timer s = true -> ep_state s = Idle /\ ep_required s = false) by (intros X; destruct (W2 X) as (X1 & X2 & _); auto).
      assert (T3 : ep_state s = Idle -> ep_session_timer s = true \/ (ep_required s = true /\ ep_busy s = true)).
      { intros X. cbn in W3. destruct (W3 O X) as [Y|[Y|[Y|[Y _]]]]; auto; discriminate. }
      destruct (process_hs _ _ _ _ _ _ _ _ HC H W1 T2 T3 P4 P4') as (E1 & E2 & E3 & [(p & -> & E4 & E5 & E6 & E7)|(Ep & E4 & E5 & E6)]).
      * constructor; cbn [fst snd]; auto; try congruence; try discriminate.
        left. refine (conj _ (conj _ (conj _ (conj _ (conj _ _))))); try congruence; try discriminate.
        -- exists [IUpOpen; IAuthPayload p], rest. auto.
        -- left. auto.
      * apply Fin; try congruence.
        -- destruct Ep as [-> | ->]; reflexivity.
        -- unfold waiting. split; [exact E4|]. split.
           ++ intros X. destruct (E5 X). refine (conj _ (conj _ _)); auto. destruct Ep as [-> | ->]; reflexivity.
           ++ intros _ X. destruct (E6 X); auto.
    + (* a handshake is required *)
      assert (T : ep_session_timer s = false) by (destruct (ep_session_timer s) eqn:X; [destruct (W2 eq_refl) as (_ & _ & Y); discriminate|reflexivity]).
      destruct (required_exec _ _ _ _ _ _ _ HC H) as (-> & E1 & E2 & E3 & E4 & _ & E5). destruct (E5 W1 P4) as (E6 & E7 & E8).
      apply Fin; try congruence; try reflexivity.
      * rewrite E1. apply P3. reflexivity.
      * unfold waiting. split; [exact E7|]. split; [congruence|]. auto.
    + (* nonces *)
      pose proof (P3 eq_refl) as O. cbn in W2, W3.
      destruct (nonce_exec _ _ _ _ _ _ _ HC H) as [(-> & ->)|(-> & ->)]; apply Fin; try congruence; try reflexivity; cbn; auto.
      * unfold waiting. cbn. auto.
      * unfold waiting. cbn. split; [exact W1|]. split; [discriminate|auto].
    + (* the others *)
      destruct (hs_untouched _ _ _ _ _ _ _ _ HC H Hx) as (E1 & E2 & E3 & E4 & E5 & E6 & E7 & E8 & E9 & E10).
      destruct (ep_open s) eqn:Eo.
      * assert (T1 : timer_of s') by (unfold timer_of in *; rewrite E1, E2; exact W1).
        assert (Pre : i = IPreTxReady \/ i <> IPreTxReady) by (destruct i; (left; reflexivity) || (right; discriminate)).
        assert (Rd : i = ICall LowerTxReady \/ i <> ICall LowerTxReady) by (destruct i as [[]| | | | | | | | | | | | |]; (left; reflexivity) || (right; discriminate)).
        apply Fin; auto; try congruence. split; [exact T1|]. split.
        -- rewrite E4, E1, E6. intros X. destruct (W2 X) as (X1 & X2 & X3). refine (conj X1 (conj X2 _)).
           destruct pushed as [|h pushed]; [reflexivity|]. cbn. destruct (is_required h) eqn:Y; [|reflexivity].
           destruct h; try discriminate Y. destruct (E10 eq_refl) as [(_ & _ & Z)|[(_ & _ & Z & _)|(_ & _ & Z)]]; try discriminate; congruence.
        -- intros _. rewrite E1, E4, E6. intros X. destruct (W3 eq_refl X) as [Y|[Y|[Y|[Y Y']]]]; auto.
           ++ destruct Rd as [->|Rd].
              ** right. right. right. cbn in H. rewrite Eo in H. injection H as <- <- <-. split; [reflexivity|]. apply Y.
              ** right. left. destruct Y as [Y1 Y2]. split; auto.
           ++ destruct i; try discriminate Y. destruct Hx.
           ++ destruct i; try discriminate Y. pose proof (pre_exec _ _ _ _ _ _ _ HC H) as Ep. rewrite Y' in Ep. subst pushed. right. right. left. reflexivity.
      * destruct (P5 eq_refl) as (X1 & X2 & X3 & X4 & X5).
        assert (NotP : is_process i = false) by (destruct i; cbn in *; auto; destruct Hx).
        apply Clo; auto; try congruence.
        -- destruct (head_is pushed is_hs) eqn:X; [|reflexivity]. exfalso. specialize (S2 eq_refl).
           destruct (E10 eq_refl) as [(_ & Y & _)|[(_ & Y & _)|(-> & _)]]; try congruence. specialize (P3 eq_refl). congruence.
        -- intros m r E. destruct (N2 m r E) as (_ & _ & Y1 & Y2 & _). destruct HL as (_ & _ & L). cbn in L. rewrite (L Eo) in Y2. congruence.
        -- rewrite E1, E2, E4, E6. refine (conj X1 (conj X2 (conj X3 (conj X4 _)))). eapply valid_closed; eauto.
Qed.

Lemma hinv_inject s x : hinv (s, []) -> hinv (inject s x).
Proof.
  intros [B P1 P2 P3 [P4 P4'] P5 P6]. pose proof (binv_inject _ x B) as B'. cbn [fst snd tl] in *.
  destruct P6 as [((a & b & E & _) & _)|[_ (W1 & W2 & W3)]]; [destruct a; discriminate|].
  destruct (inject_sessions s x) as [Ea _].
  assert (Same : hinv (s, [])) by (constructor; cbn [fst snd tl]; auto; right; split; [reflexivity|]; unfold waiting; auto).
  destruct x; cbn [inject] in *.
  - constructor; cbn [fst snd tl]; auto; try reflexivity; try discriminate.
    right. split; [reflexivity|]. unfold waiting. cbn in *. auto.
  - destruct (ep_timer s) as [k|] eqn:Et; [|exact Same].
    assert (O : ep_open s = true) by (destruct (ep_open s); [reflexivity|]; destruct (P5 eq_refl) as (_ & X & _); discriminate).
    assert (St : ep_session_timer s = false).
    { destruct (ep_session_timer s) eqn:X; [|reflexivity]. destruct (W2 eq_refl) as (Y & _). unfold timer_of in W1. rewrite Y in W1. congruence. }
    unfold timer_of in W1.
    destruct k; cbn [fire] in *; unfold on_response_timeout, on_retry_timeout, retry, start_timer, set_timer, set_stale, set_state in *; cbn in *;
      destruct (ep_state s) eqn:Es; try congruence; constructor; cbn in *; auto; try discriminate; try congruence; try reflexivity.
    all: right; split; [reflexivity|]; unfold waiting, timer_of; cbn; rewrite ?St; split; [reflexivity|]; split; try discriminate; auto.
  - rewrite P4 in *. destruct n; cbn [nth_error] in *; exact Same.
  - destruct (ep_session_timer s) eqn:Et; [|exact Same].
    assert (O : ep_open s = true) by (destruct (ep_open s); [reflexivity|]; destruct (P5 eq_refl) as (_ & _ & X & _); discriminate).
    constructor; cbn [fst snd tl]; auto; try reflexivity; try discriminate; try (cbn; congruence).
    + right. split; [reflexivity|]. unfold waiting, timer_of. cbn. split; [exact W1|]. split; [discriminate|auto].
  - rewrite P4' in *. exact Same.
Qed.
Lemma hinv_new C : hinv (new_endpoint C, []).
Proof.
  constructor; cbn [fst snd tl]; try reflexivity; try discriminate; auto using binv_new.
  - right. split; [reflexivity|]. unfold waiting, timer_of. cbn. split; [reflexivity|split; discriminate].
Qed.
Lemma hinv_run C c ls k t : c_role C = Initiator c -> along timed_env C (new_endpoint C, []) ls -> run C (new_endpoint C, []) ls = Ok (k, t) -> hinv k.
Proof.
  intros HC HQ H. eapply (invariant hinv timed_env C); eauto using hinv_new.
  intros k1 l k2 e HI Hq Hs. destruct (step_inv _ _ _ _ _ Hs) as [[-> ->]|[(x & s1 & -> & -> & -> & ->)|(inp & s1 & i & rest & s2 & pushed & -> & -> & He & ->)]];
    [exact HI|apply hinv_inject; exact HI|eapply hinv_exec; eauto].
Qed.
Lemma hinv_quiescent k : hinv k -> snd k = [] ->
  one_timer (fst k) /\ (ep_open (fst k) = true -> alive (fst k)) /\ (ep_open (fst k) = false -> ep_timer (fst k) = None /\ ep_session_timer (fst k) = false).
Proof.
  intros [B P1 P2 P3 [P4 P4'] P5 P6] E. rewrite E in *. destruct P6 as [((a & b & X & _) & _)|[_ (W1 & W2 & W3)]]; [destruct a; discriminate|].
  unfold timer_of in W1. cbn in W2, W3. unfold one_timer, alive. refine (conj _ (conj _ _)).
  - refine (conj P4 (conj P4' _)). destruct (ep_state (fst k)); rewrite W1; auto.
  - intros O. destruct (ep_state (fst k)); auto. destruct (W3 O eq_refl) as [X|[X|[X|[X _]]]]; auto; discriminate.
  - intros O. destruct (P5 O) as (_ & X & Y & _). auto.
Qed.
