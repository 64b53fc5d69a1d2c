(** * EndpointTx: transmission of the application's data *)
From Verif Require Import Base BaseFacts Codec CodecSpec CodecFacts Link LinkLayer Primitives Session SessionSpec SessionFacts SessionMain Handshake HandshakeFacts Endpoint EndpointSpec EndpointFacts EndpointMain EndpointRx.

(** ** What a formatted message takes *)
Lemma taken_skipn {A : Type} (n : nat) (l : list N) : n <= length l -> taken l (skipn n l) = firstn n l.
Proof. intros H. unfold taken. rewrite skipn_length. f_equal. lia. Qed.
Lemma format_takes E s now clear f rest s' : format_facts E s now clear f rest s' ->
  bytes_eqb (taken clear rest) (firstn (length (taken clear rest)) clear) = true /\ skipn (length (taken clear rest)) clear = rest /\
  (clear <> [] -> taken clear rest <> []) /\ (clear = [] -> rest = []).
Proof.
  intros F. pose proof (tx_n_le E clear) as (L1 & L2 & L3). rewrite (ff_rest _ _ _ _ _ _ _ F).
  rewrite (@taken_skipn N) by exact L1. rewrite firstn_length, Nat.min_l by exact L1. repeat split.
  - apply bytes_eqb_same.
  - intros Hc. specialize (L3 Hc (ff_cap _ _ _ _ _ _ _ F)). destruct (tx_n E clear); [lia|]. destruct clear; [congruence|discriminate].
  - intros ->. destruct (tx_n E []); reflexivity.
Qed.
Lemma format_auth_inv E s now clear f rest s' : prims_ok (e_prims E) ->
  format_session_auth E s now clear = Ok (inl f, rest, s') -> format_facts E s now clear f rest s'.
Proof.
  intros HP H. unfold format_session_auth in H. destruct (negb _); [discriminate|].
  destruct (format_spec _ _ _ _ _ _ _ HP H) as [(e & X & _)|(f' & X & F)]; [discriminate|]. injection X as ->. auto.
Qed.

Ltac no_empty := match goal with H : is_empty (_ :: _) = true |- _ => discriminate H | H : is_empty [] = false |- _ => discriminate H end.

(** ** The buffer *)
Definition is_txready (i : instr) : bool := match i with IUpTxReady => true | _ => false end.
Definition above_ready (i : instr) : bool := match i with IPreTxReady | IHandshakeRequired => true | _ => false end.
Definition ready_shape (stk : list instr) : Prop :=
  exists above below, stk = above ++ IUpTxReady :: below /\ forallb above_ready above = true /\ none_of is_txready below.

Record tinv (left : list N) (k : config) : Prop := {
  t_calls : calls_ok (snd k);
  t_process : none_of is_process (tl (snd k));
  t_head : forall m rest, snd k = IProcess m :: rest -> ep_open (fst k) = true;
  t_tail : existsb is_tail (snd k) = true ->
     ep_open (fst k) = false /\ s_valid (ep_active (fst k)) = false /\ s_valid (ep_pending (fst k)) = false /\ left = [];
  t_left : existsb is_tail (snd k) = false -> left = ep_remainder (fst k);
  t_ready : (ready_shape (snd k) /\ left = []) \/ none_of is_txready (snd k) }.

(** One instruction: what it does to the buffer, with the events *)
Lemma tx_exec C s i inp s' pushed e : prims_ok (e_prims (c_env C)) -> exec C s i inp = Ok (s', pushed, e) ->
  i <> ICall LowerClose -> i <> ICloseTail -> i <> IUpTxReady ->
  play sending (ep_remainder s) e = Some (ep_remainder s').
Proof.
  intros HP H N1 N2 N3. destruct i as [[]| | | | | | | | | | | | |]; try congruence; exec_cases H; splits; try reflexivity.
  all: try match goal with H : format_session_auth _ _ _ _ = Ok _ |- _ => apply (format_auth_inv _ _ _ _ _ _ _ HP) in H; destruct (format_takes _ _ _ _ _ _ _ H) as (T1 & T2 & T3 & T4) end.
  all: try match goal with H : format_session_data _ _ _ _ = Ok _ |- _ => apply (format_session_inv _ _ _ _ _ _ _ HP) in H; destruct H as [H _]; destruct (format_takes _ _ _ _ _ _ _ H) as (T1 & T2 & T3 & T4) end.
  all: cbn [play sending]; rewrite ?T1, ?T2; try reflexivity.
  - destruct (ep_remainder s); [reflexivity|]. rewrite !Bool.andb_false_r in Heqb. discriminate.
  - destruct (ep_remainder s); [rewrite T4 by reflexivity; reflexivity|no_empty].
  - destruct (ep_remainder s); [rewrite T4 by reflexivity; reflexivity|no_empty].
  - destruct (ep_remainder s); [rewrite T4 by reflexivity; reflexivity|no_empty].
  - destruct (ep_remainder s); [rewrite T4 by reflexivity; reflexivity|no_empty].
  - cbn [negb] in Heqb0. rewrite !Bool.andb_false_r in Heqb0. discriminate Heqb0.
  - destruct (taken (ep_remainder s) l) eqn:Et; [|reflexivity]. exfalso.
    destruct (ep_remainder s); [no_empty|]. apply T3; [discriminate|reflexivity].
Qed.

(** The same while the layer is closing *)
Lemma tx_exec_closed C s i inp s' pushed e : exec C s i inp = Ok (s', pushed, e) ->
  ep_open s = false -> s_valid (ep_active s) = false -> s_valid (ep_pending s) = false ->
  is_lower i = false -> is_process i = false ->
  play sending [] e = Some [] /\ ep_open s' = false /\ s_valid (ep_active s') = false /\ s_valid (ep_pending s') = false.
Proof.
  intros H H1 H2 H3 H4 H5. destruct i as [[]| | | | | | | | | | | | |]; try discriminate; exec_cases H; splits; cbn in *; try congruence; auto.
  all: exfalso; try rewrite H1 in Heqb; try rewrite H2 in Heqb; discriminate Heqb.
Qed.

Lemma txready_pushed C s i inp s' pushed e : exec C s i inp = Ok (s', pushed, e) ->
  none_of is_txready pushed \/
  (i = ICall LowerTxReady /\ pushed = [IPreTxReady; IUpTxReady; ITryRead; ICheckTransmit] /\ ep_remainder s' = [] /\ ep_remainder s = [] /\ ep_open s = true /\ e = []).
Proof.
  intros H. assert (X : none_of is_txready (map ICall (in_calls inp))) by (apply none_calls; reflexivity).
  destruct i as [[]| | | | | | | | | | | | |]; exec_cases H; splits; auto; try (left; reflexivity).
  right. apply Bool.andb_true_iff in Heqb0. destruct Heqb0 as [_ E]. destruct (ep_remainder s); [|discriminate]. auto 8.
Qed.
Lemma shape_head i rest : ready_shape (i :: rest) -> (i = IUpTxReady /\ none_of is_txready rest) \/ (above_ready i = true /\ ready_shape rest).
Proof.
  intros (above & below & E & A & B). destruct above as [|a above]; cbn in E; injection E as -> ->; [left; auto|].
  right. cbn in A. apply Bool.andb_true_iff in A. destruct A as [A1 A2]. split; [exact A1|]. exists above, below. auto.
Qed.
Lemma above_ready_exec C s i inp s' pushed e : exec C s i inp = Ok (s', pushed, e) -> above_ready i = true ->
  forallb above_ready pushed = true /\ (forall left, play sending left e = Some left) /\ ep_remainder s' = ep_remainder s.
Proof.
  intros H Hi. destruct i as [[]| | | | | | | | | | | | |]; try discriminate Hi; exec_cases H; splits; auto.
Qed.
Lemma shape_push a rest : forallb above_ready a = true -> ready_shape rest -> ready_shape (a ++ rest).
Proof. intros Ha (above & below & -> & A & B). exists (a ++ above), below. rewrite <- app_assoc, forallb_app, Ha. auto. Qed.

Lemma tinv_exec C left s i inp rest s' pushed e : prims_ok (e_prims (c_env C)) ->
  tinv left (s, i :: rest) -> from_outside (s, i :: rest) (Run inp) -> quiet_when_closed (s, i :: rest) (Run inp) ->
  exec C s i inp = Ok (s', pushed, e) -> exists left', play sending left e = Some left' /\ tinv left' (s', pushed ++ rest).
Proof.
  intros HP [I1 I2 I3 I4 I5 I6] HQ Hquiet H. cbn [fst snd tl quiet_when_closed from_outside] in *.
  destruct (process_next _ _ _ _ _ _ _ _ H I2) as [N1 N2].
  pose proof (calls_pushed _ _ _ _ _ _ _ rest H HQ I1) as NC.
  pose proof (open_exec _ _ _ _ _ _ _ H) as NO. pose proof (tail_pushed _ _ _ _ _ _ _ H) as NT.
  pose proof (txready_pushed _ _ _ _ _ _ _ H) as NR.
  assert (Head : forall m r, pushed ++ rest = IProcess m :: r -> ep_open s' = true).
  { intros m r E. destruct (N2 m r E) as (_ & _ & Hm & Em & _ & _ & ->). cbn. destruct (ep_open s) eqn:Eo; auto.
    specialize (Hquiet eq_refl). congruence. }
  assert (Lower : existsb is_tail (i :: rest) = true -> is_lower i = false).
  { intros Ht. destruct I1 as [I1|[c I1]]; [apply none_cons in I1; tauto|]. injection I1 as -> ->. cbn in Ht. discriminate. }
  assert (Ready : forall left', (left = [] -> above_ready i = true -> left' = []) ->
            (i = ICall LowerTxReady -> existsb is_tail (i :: rest) = false -> left' = ep_remainder s') ->
            (ready_shape (pushed ++ rest) /\ left' = []) \/ none_of is_txready (pushed ++ rest)).
  { intros left' K1 K2. destruct NR as [NR|(-> & -> & Er & Er0 & Eo & _)].
    - destruct I6 as [[Sh ->]|I6]; [|right; apply none_cons in I6; apply none_app; tauto].
      destruct (shape_head _ _ Sh) as [[-> Hn]|[Ha Hs]]; [right; apply none_app; auto|].
      left. destruct (above_ready_exec _ _ _ _ _ _ _ H Ha) as (P1 & _ & _). split; [apply shape_push; auto|]. apply K1; auto.
    - left. assert (Ht : existsb is_tail (ICall LowerTxReady :: rest) = false).
      { destruct (existsb is_tail (ICall LowerTxReady :: rest)) eqn:Et; [specialize (Lower eq_refl); discriminate Lower|reflexivity]. }
      rewrite (K2 eq_refl Ht), Er. split; [|reflexivity].
      exists [IPreTxReady], (ITryRead :: ICheckTransmit :: rest). repeat split.
      destruct I6 as [[Sh _]|I6]; [destruct (shape_head _ _ Sh) as [[X _]|[X _]]; discriminate|].
      apply none_cons in I6. repeat (apply none_cons; split; [reflexivity|]). tauto. }
  destruct (existsb is_tail (i :: rest)) eqn:Et.
  - destruct (I4 eq_refl) as (C1 & C2 & C3 & ->). specialize (Lower eq_refl).
    assert (Hp : is_process i = false). { destruct i; auto. pose proof (I3 _ _ eq_refl). congruence. }
    destruct (tx_exec_closed _ _ _ _ _ _ _ H C1 C2 C3 Lower Hp) as (P & D1 & D2 & D3).
    exists []. split; [exact P|]. constructor; cbn [fst snd]; [exact NC|exact N1|exact Head| | |].
    + intros _. auto.
    + intros Ht. rewrite existsb_app in Ht. apply Bool.orb_false_iff in Ht. destruct Ht as [Ht1 Ht2]. cbn in Et. rewrite Ht2, Bool.orb_false_r in Et.
      destruct i; try discriminate Et. cbn in H. injection H as <- _ _. reflexivity.
    + apply Ready; auto. discriminate.
  - specialize (I5 eq_refl). subst left. cbn in Et. apply Bool.orb_false_iff in Et. destruct Et as [Et1 Et2].
    destruct NT as [NT|(-> & NT1 & NT2)].
    + assert (Ht : existsb is_tail (pushed ++ rest) = false) by (rewrite existsb_app, NT, Et2; reflexivity).
      assert (P : play sending (ep_remainder s) e = Some (ep_remainder s')).
      { destruct i as [[]| | | | | | | | | | | | |]; try discriminate Et1;
        try (apply (tx_exec _ _ _ _ _ _ _ HP H); discriminate).
        - cbn in H. destruct (ep_open s); injection H as <- <- <-; [discriminate NT|reflexivity].
        - destruct I6 as [[Sh Er]|I6]; [|apply none_cons in I6; destruct I6; discriminate].
          cbn in H. destruct (ep_up s); injection H as <- <- <-; cbn [play sending]; rewrite Er; reflexivity. }
      exists (ep_remainder s'). split; [exact P|]. constructor; cbn [fst snd]; [exact NC|exact N1|exact Head|congruence|auto|].
      apply Ready; auto. intros Er Ha. destruct (above_ready_exec _ _ _ _ _ _ _ H Ha) as (_ & _ & ->). exact Er.
    + cbn in H. destruct (ep_open s) eqn:Eo.
      2: { injection H as <- <- <-. exists (ep_remainder s). split; [reflexivity|]. cbn [app] in *.
           constructor; cbn [fst snd]; [exact NC|exact N1|exact Head|congruence|auto|]. apply Ready; auto. }
      injection H as <- <- <-. exists []. split; [reflexivity|].
      constructor; cbn [fst snd]; [exact NC|exact N1|exact Head| | |].
      * intros _. split; [exact NT1|]. unfold reset_state_on_close. destruct (c_role C); auto.
      * discriminate.
      * apply Ready; auto. discriminate.
Qed.

Lemma inject_tx s x : ep_remainder (fst (inject s x)) = ep_remainder s /\ ep_transmitting (fst (inject s x)) = ep_transmitting s /\
  ep_busy (fst (inject s x)) = ep_busy s /\ ep_open (fst (inject s x)) = ep_open s.
Proof.
  destruct x; cbn; auto.
  - destruct (ep_timer s) as [[|]|]; cbn; unfold on_response_timeout, on_retry_timeout; cbn; destruct (ep_state s); auto.
  - destruct (nth_error (ep_stale s) n) as [[|]|]; cbn; unfold on_response_timeout, on_retry_timeout; cbn; destruct (ep_state s); auto.
  - destruct (ep_session_timer s); auto 6.
  - destruct (ep_session_stale s); auto 6.
Qed.

Definition tx_env (k : config) (l : label) : Prop := from_outside k l /\ quiet_when_closed k l.
Lemma tinv_run C ls k t : prims_ok (e_prims (c_env C)) -> along tx_env C (new_endpoint C, []) ls ->
  run C (new_endpoint C, []) ls = Ok (k, t) -> exists left, play sending [] t = Some left /\ tinv left k.
Proof.
  intros HP HQ H. apply (simulate sending tinv tx_env C) with (ls := ls) (k := (new_endpoint C, @nil instr)); auto.
  - intros left k1 l k2 e HI Hq Hs. destruct (step_inv _ _ _ _ _ Hs) as [[-> ->]|[(x & s1 & -> & -> & -> & ->)|(inp & s1 & i & rest & s2 & pushed & -> & -> & He & ->)]].
    + exists left. auto.
    + exists left. split; [reflexivity|]. destruct HI as [I1 I2 I3 I4 I5 I6]. cbn [fst snd] in *.
      destruct (inject_tx s1 x) as (E1 & E2 & E3 & E4). 
      destruct (inject_stack s1 x) as [X|[X|[c X]]]; constructor; rewrite ?X, ?E1, ?E4; try reflexivity; try discriminate; cbn; auto; try (left; reflexivity); try (right; eauto; fail).
    + destruct Hq. eapply tinv_exec; eauto.
  - constructor; try reflexivity; try discriminate; cbn; auto; try (left; reflexivity). right. reflexivity.
Qed.

(** ** Progress *)
Definition is_check (i : instr) : bool := match i with ICheckTransmit => true | _ => false end.
Definition is_close (i : instr) : bool := match i with IUpClose => true | _ => false end.
Definition is_open (i : instr) : bool := match i with IUpOpen => true | _ => false end.
Definition closing (stk : list instr) : bool := match stk with IUpClose :: _ => true | _ => false end.

(** The lower layer is given a frame only when it is ready *)
Record binv (k : config) : Prop := {
  b_calls : calls_ok (snd k);
  b_process : none_of is_process (tl (snd k));
  b_head : forall m rest, snd k = IProcess m :: rest -> ep_busy (fst k) = false }.
Lemma binv_exec C s i inp rest s' pushed e :
  binv (s, i :: rest) -> from_outside (s, i :: rest) (Run inp) -> lower_ok (s, i :: rest) (Run inp) ->
  exec C s i inp = Ok (s', pushed, e) -> binv (s', pushed ++ rest).
Proof.
  intros [I1 I2 I3] HQ HL H. cbn [fst snd tl from_outside] in *.
  destruct (process_next _ _ _ _ _ _ _ _ H I2) as [N1 N2].
  pose proof (calls_pushed _ _ _ _ _ _ _ rest H HQ I1) as NC.
  constructor; cbn [fst snd]; [exact NC|exact N1|].
  intros m r E. destruct (N2 m r E) as (_ & Ee & _ & _ & -> & Hp & ->). cbn.
  cbn in H. unfold try_read_one in H. destruct (in_ready inp) eqn:Er; [reflexivity|].
  cbn in H. injection H as _ _ <-. discriminate.
Qed.

Definition is_tx (e : event) : bool := match e with EvTx _ _ => true | _ => false end.
(** What a step does to the lower layer, provided messages are processed while it is ready *)
Lemma busy_exec C s i inp s' pushed e : exec C s i inp = Ok (s', pushed, e) ->
  (is_process i = true -> ep_busy s = false) -> lower_ok (s, [i]) (Run inp) -> i <> ICall LowerTxReady ->
  (length (filter is_tx e) = 0 /\ ep_busy s' = ep_busy s) \/ (length (filter is_tx e) = 1 /\ ep_busy s = false /\ ep_busy s' = true).
Proof.
  intros H Hp HL Hi. destruct HL as (L1 & L2 & _). cbn [fst] in *.
  destruct i as [[]| | | | | | | | | | | | |]; try congruence; exec_cases H; cbn [filter is_tx length is_process] in *; splits; auto.
  all: try (left; rewrite L1, Bool.negb_involutive; auto; fail).
  all: try specialize (Hp eq_refl).
  all: try (right; rewrite L2 by assumption; auto; fail).
  all: try (destruct (ep_busy s) eqn:Eb; cbn [negb] in *; [rewrite L1 in *; discriminate|]; right; rewrite L2 by reflexivity; auto; fail).
Qed.

Definition owing1 (b : bool) (e : event) : bool :=
  match e with EvAccept (_ :: _) => true | EvUpTxReady | EvUpClose => false | _ => b end.
Lemma owing_app t1 t2 : owing (t1 ++ t2) = fold_left owing1 t2 (owing t1).
Proof. unfold owing. rewrite fold_left_app. reflexivity. Qed.

Lemma up_exec C s i inp s' pushed e : exec C s i inp = Ok (s', pushed, e) ->
  match i with
  | IUpOpen => ep_up s' = true
  | IUpClose => ep_up s' = false
  | _ => ep_up s' = ep_up s
  end.
Proof. intros H. destruct i as [[]| | | | | | | | | | | | |]; exec_cases H; splits; auto. Qed.

Lemma valid_exec C s i inp s' pushed e : exec C s i inp = Ok (s', pushed, e) ->
  (s_valid (ep_active s) = true -> s_valid (ep_active s') = true \/ closing pushed = true) /\
  (hd_error pushed = Some IUpOpen -> s_valid (ep_active s') = true /\ is_process i = true) /\
  none_of is_open (tl pushed) /\ none_of is_close (tl pushed) /\ (closing pushed = true -> pushed = [IUpClose; ICloseTail] \/ existsb is_fail e = true).
Proof.
  intros H.
  assert (X1 : none_of is_open (tl (map ICall (in_calls inp)))) by (destruct (in_calls inp); [reflexivity|apply none_calls; reflexivity]).
  assert (X2 : none_of is_close (tl (map ICall (in_calls inp)))) by (destruct (in_calls inp); [reflexivity|apply none_calls; reflexivity]).
  assert (X3 : hd_error (map ICall (in_calls inp)) = Some IUpOpen -> False) by (destruct (in_calls inp); discriminate).
  assert (X4 : closing (map ICall (in_calls inp)) = true -> False) by (destruct (in_calls inp); discriminate).
  destruct i as [[]| | | | | | | | | | | | |]; exec_cases H; splits; sessions; repeat split; auto; try discriminate; try (intros X; destruct (X3 X)); try (intros X; destruct (X4 X)).
  all: match goal with F : validate_facts _ _ _ _ _ _ _ ?s2 |- _ =>
    assert (V : s_valid s2 = true) by (rewrite (vf_session _ _ _ _ _ _ _ _ F); cbn; exact (vf_valid _ _ _ _ _ _ _ _ F)) end; auto.
Qed.

Definition sent_or_same (s s' : endpoint) (e : list event) : Prop :=
  ep_remainder s' = ep_remainder s /\ ep_transmitting s' = ep_transmitting s \/
  ep_remainder s <> [] /\ ep_transmitting s' = true /\ length (filter is_tx e) = 1.
Lemma buffer_exec C s i inp s' pushed e : exec C s i inp = Ok (s', pushed, e) ->
  match i with
  | ICall (StartTx d) =>
      fold_left owing1 e false = false /\ e = [EvReject d] /\ s' = s \/
      e = [EvAccept d] /\ pushed = [ICheckTransmit] /\ ep_up s = true /\ ep_open s = true /\ ep_remainder s = [] /\ ep_transmitting s = false /\
      ep_remainder s' = d /\ ep_transmitting s' = false
  | ICall LowerTxReady =>
      e = [] /\ ep_remainder s' = ep_remainder s /\ ep_busy s' = false /\
      (ep_open s = true /\ ep_transmitting s' = false /\ existsb is_check pushed = true /\
         (ep_transmitting s = true -> ep_remainder s = [] -> existsb is_txready pushed = true) \/
       ep_open s = false /\ ep_transmitting s' = ep_transmitting s)
  | ICloseTail => ep_remainder s' = [] /\ ep_transmitting s' = false /\ e = []
  | IUpTxReady => ep_remainder s' = ep_remainder s /\ ep_transmitting s' = ep_transmitting s /\ (ep_up s = true -> e = [EvUpTxReady]) /\ (ep_up s = false -> e = [])
  | IUpClose => ep_remainder s' = ep_remainder s /\ ep_transmitting s' = ep_transmitting s /\ (ep_up s = true -> e = [EvUpClose]) /\ (ep_up s = false -> e = [])
  | _ => sent_or_same s s' e /\ forall b, fold_left owing1 e b = b
  end.
Proof.
  intros H. unfold sent_or_same. destruct i as [[]| | | | | | | | | | | | |]; exec_cases H; splits; cbn [filter is_tx length existsb is_check is_txready orb]; repeat split; auto; try congruence; try discriminate.
  - right. apply Bool.andb_true_iff in Heqb. destruct Heqb as [B1 B2]. apply Bool.andb_true_iff in B1, B2. destruct B1 as [B1 B1'], B2 as [B2 B2'].
    apply Bool.negb_true_iff in B2. destruct (ep_remainder s); [|no_empty]. auto 10.
  - left. repeat split; auto. intros X Y. rewrite X, Y in *. discriminate.
  - right. repeat split. intros X. rewrite X in *. no_empty.
  - right. repeat split. intros X. rewrite X in *. no_empty.
  - right. repeat split. intros X. rewrite X in *. no_empty.
  - right. repeat split. intros X. rewrite X in *. no_empty.
  - right. repeat split. intros X. rewrite X in *. no_empty.
Qed.
Lemma check_exec C s inp s' pushed e : exec C s ICheckTransmit inp = Ok (s', pushed, e) -> s_valid (ep_active s) = true ->
  closing pushed = true \/ in_ready inp = false \/ ep_transmitting s = true \/ ep_remainder s = [] \/ length (filter is_tx e) = 1.
Proof.
  intros H V. exec_cases H; auto; cbn [negb] in *; try congruence; splits; cbn [filter is_tx length]; auto 6.
  - rewrite V in Heqb. discriminate.
  - destruct (in_ready inp); [|auto]. destruct (ep_transmitting s); [auto|]. destruct (ep_remainder s); [auto|]. discriminate.
Qed.

Record pinv (owed : bool) (k : config) : Prop := {
  p_b : binv k;
  p_head : forall m rest, snd k = IProcess m :: rest -> ep_open (fst k) = true;
  p_tx : ep_transmitting (fst k) = true -> ep_busy (fst k) = true;
  p_closed : ep_open (fst k) = false -> (closing (snd k) = true \/ ep_up (fst k) = false) /\ (existsb is_tail (snd k) = false -> ep_transmitting (fst k) = false);
  p_tail : existsb is_tail (snd k) = true -> ep_open (fst k) = false;
  p_closing : closing (snd k) = true -> existsb is_tail (snd k) = true;
  p_up : ep_up (fst k) = true -> closing (snd k) = true \/ s_valid (ep_active (fst k)) = true;
  p_open : none_of is_open (tl (snd k));
  p_open_head : hd_error (snd k) = Some IUpOpen -> ep_open (fst k) = true /\ s_valid (ep_active (fst k)) = true;
  p_close : none_of is_close (tl (snd k));
  p_check : ep_up (fst k) = true -> ep_remainder (fst k) <> [] -> ep_busy (fst k) = false ->
            closing (snd k) = true \/ existsb is_check (snd k) = true;
  p_down : ep_up (fst k) = false -> owed = false /\ (ep_remainder (fst k) = [] \/ existsb is_tail (snd k) = true);
  p_owed : owed = true -> closing (snd k) = true \/ ep_remainder (fst k) <> [] \/ ep_transmitting (fst k) = true \/ existsb is_txready (snd k) = true }.

Lemma closing_app pushed rest : none_of is_close rest -> closing (pushed ++ rest) = closing pushed.
Proof.
  intros H. destruct pushed; cbn; [|reflexivity]. destruct rest as [|[] rest]; try reflexivity. apply none_cons in H. destruct H; discriminate.
Qed.
Lemma no_fail_closing pushed e : (closing pushed = true -> pushed = [IUpClose; ICloseTail] \/ existsb is_fail e = true) ->
  existsb is_fail e = false -> closing pushed = true -> existsb is_tail pushed = true.
Proof. intros H He Hc. destruct (H Hc) as [->|X]; [reflexivity|congruence]. Qed.

Ltac five := split; [|split; [|split; [|split]]].
Lemma pinv_exec C owed s i inp rest s' pushed e :
  pinv owed (s, i :: rest) -> from_outside (s, i :: rest) (Run inp) -> lower_ok (s, i :: rest) (Run inp) ->
  exec C s i inp = Ok (s', pushed, e) -> existsb is_fail e = false -> pinv (fold_left owing1 e owed) (s', pushed ++ rest).
Proof.
  intros [B P0 P1 P2 P3 P3c P4 P5 P5h P6 P7 P8 P9] HQ HL H He. cbn [fst snd tl] in *.
  pose proof (binv_exec _ _ _ _ _ _ _ _ B HQ HL H) as B'. destruct B as [B1 B2 B3]. cbn [fst snd tl] in *.
  destruct (process_next _ _ _ _ _ _ _ _ H B2) as [_ N2].
  pose proof (open_exec _ _ _ _ _ _ _ H) as NO. pose proof (tail_pushed _ _ _ _ _ _ _ H) as NT.
  pose proof (txready_pushed _ _ _ _ _ _ _ H) as NR. pose proof (up_exec _ _ _ _ _ _ _ H) as NU.
  destruct (valid_exec _ _ _ _ _ _ _ H) as (V1 & V2 & V3 & V4 & V5).
  pose proof (buffer_exec _ _ _ _ _ _ _ H) as NB.
  pose proof (closing_app pushed rest P6) as CA.
  assert (Head : forall m r, pushed ++ rest = IProcess m :: r -> ep_open s' = true).
  { intros m r E. destruct (N2 m r E) as (_ & _ & Hm & Em & _ & _ & ->). cbn. destruct (ep_open s) eqn:Eo; [reflexivity|].
    destruct HL as (_ & _ & HL). cbn in HL. specialize (HL Eo). congruence. }
  assert (Open : none_of is_open (tl (pushed ++ rest))).
  { destruct pushed; cbn [tl app] in *; [apply none_tl; exact P5|apply none_app; auto]. }
  assert (Close : none_of is_close (tl (pushed ++ rest))).
  { destruct pushed; cbn [tl app] in *; [apply none_tl; exact P6|apply none_app; auto]. }
  assert (OpenHead : hd_error (pushed ++ rest) = Some IUpOpen -> ep_open s' = true /\ s_valid (ep_active s') = true).
  { intros E. assert (E' : hd_error pushed = Some IUpOpen).
    { destruct pushed; cbn in E; [|exact E]. destruct rest as [|r0 rest]; [discriminate|]. injection E as ->. apply none_cons in P5. destruct P5; discriminate. }
    destruct (V2 E') as [V2a V2b]. split; [|exact V2a]. destruct i; try discriminate. rewrite <- (P0 _ _ eq_refl).
    destruct NO as [X|[X|X]]; [exact X|discriminate|discriminate]. }
  assert (Lower : existsb is_tail rest = true -> is_lower i = false).
  { intros Ht. destruct B1 as [I1|[c I1]]; [apply none_cons in I1; tauto|]. injection I1 as -> ->. discriminate Ht. }
  assert (Up : ep_up s' = true -> closing (pushed ++ rest) = true \/ s_valid (ep_active s') = true).
  { rewrite CA. intros U. assert (V : s_valid (ep_active s) = true).
    { destruct i; try (rewrite NU in U; destruct (P4 U) as [X|X]; [discriminate X|exact X]).
      - destruct (P5h eq_refl). assumption.
      - congruence. }
    destruct (V1 V); auto. }
  assert (Tail : existsb is_tail (pushed ++ rest) = true -> ep_open s' = false).
  { rewrite existsb_app. destruct NT as [NT|(-> & NT1 & NT2)]; [|auto].
    rewrite NT. cbn. intros Ht. assert (Ht' : existsb is_tail (i :: rest) = true) by (cbn; rewrite Ht; apply Bool.orb_true_r).
    specialize (P3 Ht'). specialize (Lower Ht). destruct NO as [->|[->| ->]]; [exact P3|discriminate|].
    cbn in H. rewrite P3 in H. injection H as <- _ _. exact P3. }
  assert (Closing : closing (pushed ++ rest) = true -> existsb is_tail (pushed ++ rest) = true).
  { rewrite CA, existsb_app. intros Hc. rewrite (no_fail_closing _ _ V5 He Hc). reflexivity. }
  assert (Busy : i <> ICall LowerTxReady ->
     (length (filter is_tx e) = 0 /\ ep_busy s' = ep_busy s) \/ (length (filter is_tx e) = 1 /\ ep_busy s = false /\ ep_busy s' = true)).
  { apply (busy_exec _ _ _ _ _ _ _ H); [|exact HL]. intros Hp. destruct i; try discriminate. eapply B3; reflexivity. }
  assert (Rest : (ep_transmitting s' = true -> ep_busy s' = true) /\
     (ep_open s' = false -> (closing (pushed ++ rest) = true \/ ep_up s' = false) /\ (existsb is_tail (pushed ++ rest) = false -> ep_transmitting s' = false)) /\
     (ep_up s' = true -> ep_remainder s' <> [] -> ep_busy s' = false -> closing (pushed ++ rest) = true \/ existsb is_check (pushed ++ rest) = true) /\
     (ep_up s' = false -> fold_left owing1 e owed = false /\ (ep_remainder s' = [] \/ existsb is_tail (pushed ++ rest) = true)) /\
     (fold_left owing1 e owed = true -> closing (pushed ++ rest) = true \/ ep_remainder s' <> [] \/ ep_transmitting s' = true \/ existsb is_txready (pushed ++ rest) = true)).
  2: { destruct Rest as (R1 & R2 & R3 & R4 & R5). constructor; cbn [fst snd]; assumption. }
  clear B' N2 Head Open Close OpenHead Lower Up Tail Closing V2 V3 V4 V5 B3 P0 P5 HQ.
  assert (Ordinary : is_check i = false -> is_tail i = false -> is_txready i = false -> is_close i = false -> is_open i = false -> i <> ICall LowerTxReady -> i <> ICall LowerClose ->
     sent_or_same s s' e -> (forall b, fold_left owing1 e b = b) ->
     (ep_transmitting s' = true -> ep_busy s' = true) /\
     (ep_open s' = false -> (closing (pushed ++ rest) = true \/ ep_up s' = false) /\ (existsb is_tail (pushed ++ rest) = false -> ep_transmitting s' = false)) /\
     (ep_up s' = true -> ep_remainder s' <> [] -> ep_busy s' = false -> closing (pushed ++ rest) = true \/ existsb is_check (pushed ++ rest) = true) /\
     (ep_up s' = false -> fold_left owing1 e owed = false /\ (ep_remainder s' = [] \/ existsb is_tail (pushed ++ rest) = true)) /\
     (fold_left owing1 e owed = true -> closing (pushed ++ rest) = true \/ ep_remainder s' <> [] \/ ep_transmitting s' = true \/ existsb is_txready (pushed ++ rest) = true)).
  { intros K1 K2 K3 K4 K5 K6 K7 SS Ow. rewrite Ow. cbn [existsb] in *. rewrite K1, K2, K3 in *. cbn [orb] in *.
    assert (Cl : closing (i :: rest) = false) by (destruct i; auto; discriminate). rewrite Cl in *.
    assert (U : ep_up s' = ep_up s) by (destruct i; auto; discriminate).
    destruct NT as [NT|(NT & _)]; [|congruence].
    rewrite !existsb_app, NT. cbn [orb]. specialize (Busy K6). rewrite U. repeat split.
    - destruct SS as [[E1 E2]|(E1 & E2 & E3)], Busy as [[F1 F2]|(F1 & F2 & F3)]; try lia; rewrite ?E2, ?F2, ?F3; auto.
    - rename H0 into O. destruct NO as [O1|[O1|O1]]; [|subst i; cbn in H; destruct (ep_open s) eqn:Eo; injection H as <- _ _; cbn in O; congruence|congruence].
      rewrite O1 in O. destruct (P2 O) as [[X|X] _]; [discriminate|]. auto.
    - destruct NO as [O1|[O1|O1]]; [|subst i; cbn in H; destruct (ep_open s) eqn:Eo; injection H as <- _ _; cbn in *; congruence|congruence].
      intros Ht. rewrite O1 in H0. destruct (P2 H0) as [[X|X] Y]; [discriminate|]. specialize (Y Ht).
      destruct SS as [[E1 E2]|(E1 & E2 & E3)]; [congruence|]. destruct (P8 X) as [_ [Z|Z]]; congruence.
    - intros Hu Hr Hb. destruct SS as [[E1 E2]|(E1 & E2 & E3)], Busy as [[F1 F2]|(F1 & F2 & F3)]; try lia; try congruence.
      rewrite E1 in Hr. rewrite F2 in Hb. destruct (P7 Hu Hr Hb) as [X|X]; [discriminate|]. right. rewrite X. apply Bool.orb_true_r.
    - destruct (P8 H0). assumption.
    - destruct (P8 H0) as [_ [Z|Z]]; [|auto]. destruct SS as [[E1 E2]|(E1 & E2 & E3)]; [left; congruence|congruence].
    - intros Ho. destruct (P9 Ho) as [X|[X|[X|X]]]; [discriminate| | |].
      + destruct SS as [[E1 E2]|(E1 & E2 & E3)]; [right; left; congruence|auto].
      + destruct SS as [[E1 E2]|(E1 & E2 & E3)]; [right; right; left; congruence|auto].
      + right; right; right. rewrite X. apply Bool.orb_true_r. }
  destruct i as [[]| | | | | | | | | | | | |]; try (destruct NB as [NB1 NB2]; apply Ordinary; auto; discriminate).
  all: cbn [existsb is_tail is_check is_txready orb closing] in *.
  (* StartTx *)
  - destruct NB as [(_ & -> & ->)|(-> & -> & Hu & Ho & E1 & E2 & E3 & E4)].
    + apply Ordinary; try reflexivity; try discriminate. left. auto.
    + clear Ordinary. rewrite NU, E3, E4. cbn [app existsb is_tail is_check is_txready orb closing fold_left owing1] in *. five; auto; try discriminate.
      * destruct NO as [X|[X|X]]; [rewrite X, Ho; discriminate|discriminate|discriminate].
      * rewrite Hu. discriminate.
      * intros X. destruct data; [|right; left; discriminate].
        destruct (P9 X) as [Y|[Y|[Y|Y]]]; [discriminate|congruence|congruence|auto].
  (* LowerClose *)
  - clear Ordinary. cbn in H. destruct (ep_open s) eqn:Eo; injection H as <- <- <-.
    + cbn [app closing existsb is_tail orb fold_left owing1]. unfold reset_state_on_close. destruct (c_role C); cbn; five; auto; try discriminate.
      all: intros X; first [destruct (P8 X); auto; fail|split; [auto|discriminate]].
    + cbn [app fold_left] in *. rewrite CA. cbn [closing]. five; auto.
  (* LowerTxReady *)
  - clear Ordinary. assert (Er : rest = []). { destruct B1 as [I1|[c I1]]; [apply none_cons in I1; destruct I1; discriminate|]. injection I1 as _ ->. reflexivity. }
    subst rest. destruct NB as (-> & E1 & E2 & [(O & E3 & E4 & E5)|(O & E3)]); cbn [fold_left]; rewrite ?app_nil_r in *; cbn [existsb] in *; rewrite NU, E1, E3.
    + five; auto; try discriminate.
      * destruct NO as [X|[X|X]]; [rewrite X, O; discriminate|discriminate|discriminate].
      * intros X. destruct (P8 X) as [Y [Z|Z]]; [auto|discriminate Z].
      * intros X. destruct (P9 X) as [Y|[Y|[Y|Y]]]; try discriminate; auto. destruct (ep_remainder s); [auto|]. right; left; discriminate.
    + destruct (P2 O) as [[X|X] Y]; [discriminate|]. rewrite X, (Y eq_refl). five; auto; try discriminate.
      * intros _. destruct (P8 X) as [X1 [Z|Z]]; [auto|discriminate].
      * intros Z. destruct (P8 X). congruence.
  (* ICheckTransmit *)
  - clear Ordinary. destruct NB as [SS Ow]. rewrite Ow. specialize (Busy ltac:(discriminate)). destruct NT as [NT|(NT & _)]; [|discriminate].
    rewrite NU, CA, !existsb_app, NT. cbn [orb]. destruct NO as [O1|[O1|O1]]; [|discriminate|discriminate]. rewrite O1.
    five.
    + destruct SS as [[E1 E2]|(E1 & E2 & E3)], Busy as [[F1 F2]|(F1 & F2 & F3)]; try lia; rewrite ?E2, ?F2, ?F3; auto.
    + intros O. destruct (P2 O) as [[X|X] Y]; [discriminate|]. split; [auto|]. intros Ht. specialize (Y Ht).
      destruct SS as [[E1 E2]|(E1 & E2 & E3)]; [congruence|]. destruct (P8 X) as [_ [Z|Z]]; congruence.
    + intros Hu Hr Hb. assert (V : s_valid (ep_active s) = true) by (destruct (P4 Hu); [discriminate|assumption]).
      destruct SS as [[E1 E2]|(E1 & E2 & E3)], Busy as [[F1 F2]|(F1 & F2 & F3)]; try lia; try congruence.
      destruct (check_exec _ _ _ _ _ _ H V) as [K|[K|[K|[K|K]]]]; [auto| | |congruence|lia].
      * destruct HL as [HL _]. cbn in HL. rewrite K in HL. rewrite F2 in Hb. rewrite Hb in HL. discriminate.
      * apply P1 in K. congruence.
    + intros X. destruct (P8 X) as [Y Z]. split; [exact Y|]. destruct Z as [Z|Z]; [|auto].
      destruct SS as [[E1 E2]|(E1 & E2 & E3)]; [left; congruence|congruence].
    + intros Ho. destruct (P9 Ho) as [X|[X|[X|X]]]; [discriminate| | |].
      * destruct SS as [[E1 E2]|(E1 & E2 & E3)]; [right; left; congruence|auto].
      * destruct SS as [[E1 E2]|(E1 & E2 & E3)]; [right; right; left; congruence|auto].
      * right; right; right. rewrite X. apply Bool.orb_true_r.
  (* IUpOpen *)
  - clear Ordinary. destruct NB as [SS Ow]. rewrite Ow. destruct NT as [NT|(NT & _)]; [|discriminate].
    destruct (P5h eq_refl) as [O V]. destruct NO as [O1|[O1|O1]]; [|discriminate|discriminate].
    assert (Nt : existsb is_tail rest = false) by (destruct (existsb is_tail rest); [specialize (P3 eq_refl); congruence|reflexivity]).
    assert (E0 : length (filter is_tx e) = 0) by (cbn in H; destruct (ep_up s); injection H as _ _ <-; reflexivity).
    specialize (Busy ltac:(discriminate)). destruct Busy as [[_ F2]|(F & _)]; [|lia].
    destruct SS as [[E1 E2]|(_ & _ & E3)]; [|lia]. rewrite NU, O1, O, E1, E2, F2, !existsb_app. five; auto; try discriminate.
    + intros _ Hr Hb. right. destruct (ep_up s) eqn:Eu.
      * destruct (P7 eq_refl Hr Hb) as [X|X]; [discriminate|]. rewrite X. apply Bool.orb_true_r.
      * destruct (P8 eq_refl) as [_ [Z|Z]]; congruence.
    + intros Ho. destruct (P9 Ho) as [X|[X|[X|X]]]; [discriminate|auto|auto|].
      right; right; right. rewrite X. apply Bool.orb_true_r.
  (* IUpClose *)
  - clear Ordinary. destruct NB as (E1 & E2 & E3 & E4). destruct NT as [NT|(NT & _)]; [|discriminate].
    destruct NO as [O1|[O1|O1]]; [|discriminate|discriminate].
    assert (E0 : length (filter is_tx e) = 0) by (cbn in H; destruct (ep_up s); injection H as _ _ <-; reflexivity).
    specialize (Busy ltac:(discriminate)). destruct Busy as [[_ F2]|(F & _)]; [|lia].
    assert (Ow : fold_left owing1 e owed = false).
    { destruct (ep_up s) eqn:Eu; [rewrite (E3 eq_refl); reflexivity|rewrite (E4 eq_refl)]. destruct (P8 eq_refl). assumption. }
    rewrite Ow, NU, O1, E1, E2, F2, !existsb_app, NT. cbn [orb]. specialize (P3c eq_refl). five; auto; try discriminate.
    intros O. split; [auto|]. congruence.
  (* IUpTxReady *)
  - clear Ordinary. destruct NB as (E1 & E2 & E3 & E4). destruct NT as [NT|(NT & _)]; [|discriminate].
    destruct NO as [O1|[O1|O1]]; [|discriminate|discriminate].
    assert (E0 : length (filter is_tx e) = 0) by (cbn in H; destruct (ep_up s); injection H as _ _ <-; reflexivity).
    specialize (Busy ltac:(discriminate)). destruct Busy as [[_ F2]|(F & _)]; [|lia].
    assert (Ow : fold_left owing1 e owed = false).
    { destruct (ep_up s) eqn:Eu; [rewrite (E3 eq_refl); reflexivity|rewrite (E4 eq_refl)]. destruct (P8 eq_refl). assumption. }
    rewrite Ow, NU, O1, E1, E2, F2, !existsb_app, NT. cbn [orb]. five; auto; try discriminate.
    + intros O. destruct (P2 O) as [[X|X] Y]; [discriminate|]. auto.
    + intros Hu Hr Hb. destruct (P7 Hu Hr Hb) as [X|X]; [discriminate|]. right. rewrite X. apply Bool.orb_true_r.
    + intros X. destruct (P8 X). auto.
  (* ICloseTail *)
  - clear Ordinary. destruct NB as (E1 & E2 & ->). specialize (P3 eq_refl). destruct (P2 P3) as [[X|X] _]; [discriminate|].
    rewrite NU, E1, E2, X. cbn [fold_left]. destruct (P8 X) as [Ow _]. five; auto; try discriminate. congruence.
Qed.

Definition line_env (k : config) (l : label) : Prop := from_outside k l /\ lower_ok k l.
Lemma binv_inject s x : binv (s, []) -> binv (inject s x).
Proof.
  intros [I1 I2 I3]. destruct (inject_stack s x) as [X|[X|[c X]]]; constructor; rewrite ?X; try reflexivity; try discriminate; cbn; auto; try (left; reflexivity); try (right; eauto; fail).
Qed.
Lemma binv_step C k l k' e : binv k -> line_env k l -> step C k l = Ok (k', e) -> binv k'.
Proof.
  intros HI [Q1 Q2] Hs. destruct (step_inv _ _ _ _ _ Hs) as [[-> ->]|[(x & s1 & -> & -> & -> & ->)|(inp & s1 & i & rest & s2 & pushed & -> & -> & He & ->)]];
    [exact HI|apply binv_inject; exact HI|eapply binv_exec; eauto].
Qed.
Lemma binv_new C : binv (new_endpoint C, []).
Proof. constructor; cbn; try reflexivity; try discriminate. left. reflexivity. Qed.
Lemma binv_run C ls k t : along line_env C (new_endpoint C, []) ls -> run C (new_endpoint C, []) ls = Ok (k, t) -> binv k.
Proof. intros HQ H. eapply (invariant binv line_env C (binv_step C)); eauto using binv_new. Qed.

(** A step of a run: the frames given to the lower layer *)
Lemma line_step C k l k' e : binv k -> line_env k l -> step C k l = Ok (k', e) ->
  filter is_tx e = [] \/ (length (filter is_tx e) = 1 /\ ep_busy (fst k) = false /\ ep_busy (fst k') = true).
Proof.
  intros [I1 I2 I3] [Q1 Q2] Hs. destruct (step_inv _ _ _ _ _ Hs) as [[-> ->]|[(x & s1 & -> & -> & -> & ->)|(inp & s1 & i & rest & s2 & pushed & -> & -> & He & ->)]]; auto.
  cbn [fst snd] in *.
  assert (D : i = ICall LowerTxReady \/ i <> ICall LowerTxReady) by (destruct i as [[]| | | | | | | | | | | | |]; (left; reflexivity) || (right; discriminate)).
  destruct D as [->|D].
  - left. pose proof (buffer_exec _ _ _ _ _ _ _ He) as (-> & _). reflexivity.
  - destruct (busy_exec _ _ _ _ _ _ _ He) as [[B _]|B]; auto.
    + intros Hp. destruct i; try discriminate. eapply I3; reflexivity.
    + left. destruct (filter is_tx e); [reflexivity|discriminate].
Qed.

Lemma pinv_run C ls k t : along line_env C (new_endpoint C, []) ls -> run C (new_endpoint C, []) ls = Ok (k, t) ->
  existsb is_fail t = false -> pinv (owing t) k.
Proof.
  intros HQ H. apply (trace_invariant (fun t k => existsb is_fail t = false -> pinv (owing t) k) line_env C) with (ls := ls) (t0 := []) (k := (new_endpoint C, [])); auto.
  - intros t0 k1 l k2 e HI [Q1 Q2] Hs Hf. rewrite existsb_app in Hf. apply Bool.orb_false_iff in Hf. destruct Hf as [Hf1 Hf2]. specialize (HI Hf1). rewrite owing_app.
    destruct (step_inv _ _ _ _ _ Hs) as [[-> ->]|[(x & s1 & -> & -> & -> & ->)|(inp & s1 & i & rest & s2 & pushed & -> & -> & He & ->)]].
    + exact HI.
    + cbn [fold_left]. destruct HI as [B P0 P1 P2 P3 P3c P4 P5 P5h P6 P7 P8 P9]. pose proof (binv_inject _ x B) as B'. cbn [fst snd] in *.
      destruct (inject_tx s1 x) as (E1 & E2 & E3 & E4). destruct (inject_sessions s1 x) as (E5 & E6). pose proof (inject_up s1 x) as E7.
      destruct (inject_stack s1 x) as [X|[X|[c X]]]; constructor; rewrite ?X, ?E1, ?E2, ?E3, ?E4, ?E5, ?E6, ?E7; try assumption; try reflexivity; try discriminate.
      all: try (intros Ha Hb Hc; destruct (P7 Ha Hb Hc); discriminate).
    + eapply pinv_exec; eauto.
  - intros _. constructor; cbn; try discriminate; try reflexivity; auto using binv_new.
Qed.
