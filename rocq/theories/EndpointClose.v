(** * EndpointClose: closing the connection *)
From Verif Require Import Base BaseFacts Codec CodecSpec CodecFacts Link LinkLayer Primitives Session SessionSpec SessionFacts SessionMain Handshake HandshakeFacts Endpoint EndpointSpec EndpointFacts EndpointMain EndpointRx EndpointTx.

Definition silent (s : endpoint) : Prop := ep_remainder s = [] /\ ep_transmitting s = false.

(** Instructions while nothing is established *)
Lemma wiped_exec C s i inp s' pushed e : exec C s i inp = Ok (s', pushed, e) ->
  s_valid (ep_active s) = false -> ep_payload s = None -> i <> IUpOpen -> is_payload i = false -> (ep_up s = false \/ i = IUpClose) ->
  is_process i = false -> 
  play wiped true e = Some true /\ s_valid (ep_active s') = false /\ ep_payload s' = None /\ hd_error pushed <> Some IUpOpen /\
  (ep_up s' = false \/ closing pushed = true) /\ existsb is_payload pushed = false /\ (silent s \/ i = ICloseTail -> silent s').
Proof.
  unfold silent. intros H H1 H2 H3 H4 H5 H6.
  assert (X3 : hd_error (map ICall (in_calls inp)) <> Some IUpOpen) by (destruct (in_calls inp); cbn; discriminate).
  assert (X4 : existsb is_payload (map ICall (in_calls inp)) = false) by (clear; induction (in_calls inp); auto).
  destruct H5 as [U| ->].
  - destruct i as [[]| | | | | | | | | | | | |]; try congruence; exec_cases H; splits; cbn [play wiped is_payload existsb hd_error closing] in *; try discriminate; try congruence.
    all: rewrite ?U, ?H1, ?Bool.andb_false_r in *; cbn [andb negb] in *; try discriminate.
    all: refine (conj _ (conj _ (conj _ (conj _ (conj _ (conj _ _)))))); auto; try discriminate; try tauto; try congruence.
    all: try (intros [[? ?]|?]; [auto|discriminate]).
  - exec_cases H; cbn [play wiped is_payload existsb hd_error closing] in *.
    all: refine (conj _ (conj _ (conj _ (conj _ (conj _ (conj _ _)))))); auto; try discriminate.
    all: try (intros [[? ?]|?]; [auto|discriminate]).
Qed.
Lemma process_wiped C s m inp s' pushed e : exec C s (IProcess m) inp = Ok (s', pushed, e) ->
  s_valid (ep_active s) = false -> ep_payload s = None -> ep_up s = false -> silent s ->
  play wiped true e = Some false \/
  (play wiped true e = Some true /\ s_valid (ep_active s') = false /\ ep_payload s' = None /\ pushed = [] /\ ep_up s' = false /\ silent s').
Proof.
  unfold silent. intros H H1 H2 H3 [H4 H5].
  exec_cases H; sessions; splits; cbn [play wiped] in *; rewrite ?H4 in *; auto 10; try discriminate.
  all: try match goal with F : validate_facts _ _ _ _ _ _ _ _ |- _ => pose proof (vf_valid _ _ _ _ _ _ _ _ F); congruence end.
  all: match goal with X : ?x <> e_empty_user_data |- _ => destruct x; cbn in *; congruence end.
Qed.

(** Everything else: only the close of the connection leads back *)
Lemma kept_exec C s i inp s' pushed e : exec C s i inp = Ok (s', pushed, e) ->
  (play wiped false e = Some false /\ (ep_open s' = ep_open s \/ i = ICall LowerOpen)) \/
  (i = ICall LowerClose /\ ep_open s = true /\ ep_open s' = false /\ e = [EvClosed] /\ pushed = [IUpClose; ICloseTail] /\
   s_valid (ep_active s') = false /\ s_valid (ep_pending s') = false /\ ep_payload s' = None) \/ (i = ICall LowerClose /\ ep_open s = false /\ s' = s /\ pushed = [] /\ e = []).
Proof.
  intros H. destruct i as [[]| | | | | | | | | | | | |]; exec_cases H; splits; cbn [play wiped] in *; auto 10.
  all: destruct (taken _ _); auto.
Qed.
Lemma pending_exec C s i inp s' pushed e : exec C s i inp = Ok (s', pushed, e) -> is_process i = false ->
  s_valid (ep_pending s) = false -> s_valid (ep_pending s') = false.
Proof. intros H Hi Hp. destruct i as [[]| | | | | | | | | | | | |]; try discriminate; exec_cases H; splits; auto. Qed.

Record winv (w : bool) (k : config) : Prop := {
  w_calls : calls_ok (snd k);
  w_process : none_of is_process (tl (snd k));
  w_head : forall m rest, snd k = IProcess m :: rest -> ep_open (fst k) = true;
  w_tail : existsb is_tail (snd k) = true -> ep_open (fst k) = false;
  w_open : none_of is_open (tl (snd k));
  w_payload : none_of is_payload (snd k) \/ (exists p, window (snd k) p) /\ ep_open (fst k) = true /\ w = false;
  w_closed : ep_open (fst k) = false -> w = true /\ s_valid (ep_pending (fst k)) = false;
  w_wiped : w = true ->
     s_valid (ep_active (fst k)) = false /\ ep_payload (fst k) = None /\ hd_error (snd k) <> Some IUpOpen /\
     (ep_up (fst k) = false \/ closing (snd k) = true) /\
     (silent (fst k) \/ existsb is_tail (snd k) = true) }.

Lemma no_lower_open i rest : calls_ok (i :: rest) -> i = ICall LowerOpen -> rest = [].
Proof. intros [H|[c H]] ->; [apply none_cons in H; destruct H; discriminate|congruence]. Qed.
Lemma none_existsb f l : none_of f l <-> existsb f l = false.
Proof. induction l as [|i l IH]; cbn; [split; reflexivity|]. rewrite none_cons, IH, Bool.orb_false_iff. tauto. Qed.
Lemma payload_opening l : existsb is_payload l = true -> existsb opening l = true.
Proof. rewrite !existsb_exists. intros (x & Hx & Hp). exists x. split; auto. destruct x as [| | | | | | | | | | |[]| |]; try discriminate; reflexivity. Qed.

Lemma winv_exec C w s i inp rest s' pushed e :
  winv w (s, i :: rest) -> reader_ok (s, i :: rest) (Run inp) ->
  exec C s i inp = Ok (s', pushed, e) -> exists w', play wiped w e = Some w' /\ winv w' (s', pushed ++ rest).
Proof.
  intros [I1 I2 I3 I4 I5 I6 I7 I8] [[Q1 Q2] Q3] H. cbn [fst snd tl] in *.
  pose proof (calls_pushed _ _ _ _ _ _ _ rest H Q1 I1) as N1.
  destruct (process_next _ _ _ _ _ _ _ _ H I2) as [N2 N2'].
  assert (N3 : forall m r, pushed ++ rest = IProcess m :: r -> ep_open s' = true).
  { intros m r E. destruct (N2' m r E) as (_ & _ & X1 & X2 & X3 & _ & ->). cbn. destruct (ep_open s) eqn:Eo; auto. rewrite Q3 in X2 by exact Eo. congruence. }
  destruct (valid_exec _ _ _ _ _ _ _ H) as (_ & VO & VT & _).
  assert (N5 : none_of is_open (tl (pushed ++ rest))).
  { destruct pushed; cbn [app tl] in *; [apply none_tl; exact I5|apply none_app; auto]. }
  assert (HdO : hd_error (pushed ++ rest) = Some IUpOpen -> hd_error pushed = Some IUpOpen).
  { destruct pushed; auto. cbn [app]. destruct rest as [|r0 rest]; auto. intros X. injection X as ->. apply none_cons in I5. destruct I5; discriminate. }
  assert (NT : existsb is_tail (pushed ++ rest) = true -> ep_open s' = false).
  { rewrite existsb_app. intros T. destruct (tail_pushed _ _ _ _ _ _ _ H) as [X|(-> & X & _)]; auto.
    rewrite X in T. cbn [orb] in T. assert (O : ep_open s = false) by (apply I4; cbn [existsb]; rewrite T; apply Bool.orb_true_r).
    destruct (open_exec _ _ _ _ _ _ _ H) as [Eo|[->| ->]]; [congruence| |].
    - rewrite (no_lower_open _ _ I1 eq_refl) in T. discriminate.
    - cbn in H. rewrite O in H. injection H as <- _ _. exact O. }
  destruct I6 as [NP|((p & W) & Hop & ->)].
  - (* no payload is waiting *)
    apply none_cons in NP. destruct NP as [NPi NPr].
    assert (PP : none_of is_payload pushed \/ (exists p below, pushed = IUpOpen :: IAuthPayload (Some p) :: below /\ none_of is_payload below) /\ ep_open s' = ep_open s /\ is_process i = true).
    { destruct (is_process i) eqn:Ep.
      - destruct i; try discriminate. destruct (process_rx _ _ _ _ _ _ _ H) as [[] [Eo _]]; auto. right. eauto 6.
      - left. assert (Xc : none_of is_payload (map ICall (in_calls inp))) by (apply none_calls; reflexivity).
        destruct i as [[]| | | | | | | | | | | | |]; try discriminate; exec_cases H; splits; try reflexivity; try exact Xc. }
    destruct (kept_exec _ _ _ _ _ _ _ H) as [[K1 K2]|[(-> & K1 & K2 & -> & -> & K3 & K4 & K5)|(-> & K1 & -> & -> & ->)]].
    + destruct w.
      * (* nothing is established *)
        destruct (I8 eq_refl) as (A1 & A2 & A3 & A4 & A5). destruct (is_process i) eqn:Ep.
        -- destruct i as [| |m| | | | | | | | | | |]; try discriminate. pose proof (I3 m rest eq_refl) as Ho. cbn [closing existsb is_tail orb] in A4, A5.
           assert (T : existsb is_tail rest = false) by (destruct (existsb is_tail rest) eqn:T; auto; specialize (I4 T); congruence).
           assert (Eo : ep_open s' = true) by (destruct (open_exec _ _ _ _ _ _ _ H) as [->|[X|X]]; [exact Ho|discriminate|discriminate]).
           destruct A4 as [A4|A4]; [|discriminate]. destruct A5 as [A5|A5]; [|congruence].
           destruct (process_wiped _ _ _ _ _ _ _ H A1 A2 A4 A5) as [P|(P & B1 & B2 & -> & B3 & B4)].
           ++ exists false. split; [exact P|]. constructor; cbn [fst snd]; auto; try congruence.
              destruct PP as [PP|((p & below & -> & PP) & _)]; [left; apply none_app; auto|right]. split; [|auto].
              exists p, [IUpOpen], (below ++ rest). repeat split; auto. apply none_app; auto.
           ++ exists true. split; [exact P|]. constructor; cbn [fst snd app]; auto; try congruence.
              intros _. refine (conj B1 (conj B2 (conj _ (conj (or_introl B3) (or_introl B4))))).
              intros X. apply HdO in X. discriminate X.
        -- assert (D : i <> IUpOpen) by (intros ->; apply A3; reflexivity).
           assert (D2 : ep_up s = false \/ i = IUpClose) by (destruct A4 as [A4|A4]; auto; right; destruct i; try discriminate; reflexivity).
           destruct (wiped_exec _ _ _ _ _ _ _ H A1 A2 D NPi D2 Ep) as (P & B1 & B2 & B3 & B4 & B5 & B6).
           exists true. split; [exact P|]. constructor; cbn [fst snd]; auto.
           ++ left. apply none_app. split; auto. apply none_existsb. exact B5.
           ++ intros O. split; auto. eapply pending_exec; eauto. 
              destruct K2 as [K2|K2]; [rewrite K2 in O; apply I7; exact O|]. subst i. cbn in H. destruct (ep_open s) eqn:Eo; injection H as <- _ _; cbn in *; congruence.
           ++ intros _. refine (conj B1 (conj B2 (conj _ (conj _ _)))).
              ** intros X. apply HdO in X. exact (B3 X).
              ** destruct B4 as [B4|B4]; auto. right. destruct pushed; [discriminate|exact B4].
              ** destruct A5 as [A5|A5]; [left; apply B6; auto|]. cbn [existsb] in A5. apply Bool.orb_true_iff in A5. destruct A5 as [A5|A5].
                 --- left. apply B6. right. destruct i; try discriminate. reflexivity.
                 --- right. rewrite existsb_app, A5. apply Bool.orb_true_r.
      * (* a session was established *)
        exists false. split; [exact K1|]. constructor; cbn [fst snd]; auto; try discriminate.
        -- destruct PP as [PP|((p & below & -> & PP) & Eo & Ep)]; [left; apply none_app; auto|right].
           destruct i; try discriminate Ep. split; [|split; [rewrite Eo; eapply I3; reflexivity|reflexivity]].
           exists p, [IUpOpen], (below ++ rest). repeat split; auto. apply none_app; auto.
        -- intros O. exfalso. destruct K2 as [K2|K2].
           ++ rewrite K2 in O. destruct (I7 O). discriminate.
           ++ subst i. cbn in H. destruct (ep_open s) eqn:Eo; injection H as <- _ _; cbn in *; congruence.
    + exists true. split; [reflexivity|]. constructor; cbn [fst snd]; auto; try congruence.
      * intros _. refine (conj K3 (conj K5 (conj _ (conj (or_intror eq_refl) (or_intror eq_refl))))). discriminate.
    + exists w. split; [reflexivity|]. constructor; cbn [fst snd app]; auto.
      intros ->. destruct (I8 eq_refl) as (A1 & A2 & A3 & A4 & A5). refine (conj A1 (conj A2 (conj _ (conj _ _)))).
      * intros X. apply HdO in X. discriminate X.
      * destruct A4 as [A4|A4]; [auto|discriminate].
      * exact A5.
  - (* the payload of the handshake is waiting *)
    destruct (window_head _ _ _ W) as [[-> Hn]|(Ha & Hw & Ho)].
    + cbn in H. injection H as <- <- <-. exists false. split; [reflexivity|]. constructor; cbn [fst snd]; auto; try discriminate; try (intros X; cbn in X; congruence).
    + assert (Hc : forallb is_start_tx (in_calls inp) = true) by (apply Q2; cbn [existsb]; rewrite Ho; apply Bool.orb_true_r).
      destruct (window_exec _ _ _ _ _ _ _ H Ha Hc) as (E1 & E2 & E3 & E4 & E5 & E6 & _).
      assert (K1 : play wiped false e = Some false).
      { destruct (kept_exec _ _ _ _ _ _ _ H) as [[K1 _]|[(-> & _)|(-> & _)]]; [exact K1|discriminate Ha|discriminate Ha]. }
      exists false. split; [exact K1|]. constructor; cbn [fst snd]; auto; try discriminate; try congruence.
      right. split; [exists p; apply window_push; auto|]. split; [congruence|reflexivity].
Qed.

Lemma winv_step C w k1 l k2 e : winv w k1 -> reader_ok k1 l -> step C k1 l = Ok (k2, e) -> exists w', play wiped w e = Some w' /\ winv w' k2.
Proof.
  intros HI Hq Hs. destruct (step_inv _ _ _ _ _ Hs) as [[-> ->]|[(x & s1 & -> & -> & -> & ->)|(inp & s1 & i & rest & s2 & pushed & -> & -> & He & ->)]].
  + exists w. auto.
  + exists w. split; [reflexivity|]. destruct HI as [I1 I2 I3 I4 I5 I6 I7 I8]. cbn [fst snd] in *.
    destruct (inject_rx s1 x) as (E1 & _ & _ & _ & E5). destruct (inject_tx s1 x) as (E6 & E7 & E8 & E9). destruct (inject_sessions s1 x) as (E10 & E11). pose proof (inject_up s1 x) as E12.
    unfold silent in *.
    destruct (inject_stack s1 x) as [X|[X|[c X]]]; constructor; unfold silent; rewrite ?X, ?E1, ?E5, ?E6, ?E7, ?E8, ?E9, ?E10, ?E11, ?E12; try reflexivity; try discriminate; cbn; auto; try (left; reflexivity); try (right; eauto; fail).
    all: intros Hw; destruct (I8 Hw) as (A1 & A2 & A3 & A4 & A5); refine (conj A1 (conj A2 (conj _ (conj A4 A5)))); discriminate.
  + eapply winv_exec; eauto.
Qed.
Lemma winv_new C : winv true (new_endpoint C, []).
Proof.
  constructor; cbn; try discriminate; try reflexivity; auto; try (left; reflexivity).
  intros _. refine (conj eq_refl (conj eq_refl (conj _ (conj (or_introl eq_refl) (or_introl (conj eq_refl eq_refl)))))). discriminate.
Qed.
Lemma wiped_run C ls k t : along reader_ok C (new_endpoint C, []) ls -> run C (new_endpoint C, []) ls = Ok (k, t) ->
  exists w, play wiped true t = Some w /\ winv w k.
Proof.
  intros HQ H. apply (simulate wiped winv reader_ok C) with (ls := ls) (a := true) (k := (new_endpoint C, @nil instr)) (k' := k) (t := t); auto using winv_new.
  intros w k1 l k2 e. apply winv_step.
Qed.
