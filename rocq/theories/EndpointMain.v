(** * EndpointMain: authenticity, replay and established sessions *)
From Verif Require Import Base BaseFacts Codec CodecSpec CodecFacts Link LinkLayer Primitives Session SessionSpec SessionFacts SessionMain Handshake HandshakeFacts Endpoint EndpointSpec EndpointFacts.

Lemma every_app P t1 : forall past t2, every P past (t1 ++ t2) <-> every P past t1 /\ every P (past ++ t1) t2.
Proof.
  induction t1 as [|e t1 IH]; intros past t2; cbn.
  - rewrite app_nil_r. tauto.
  - rewrite IH, <- app_assoc. cbn. tauto.
Qed.
Lemma every_split P t : every P [] t -> forall t0 e t1, t = t0 ++ e :: t1 -> P t0 e.
Proof. intros H t0 e t1 ->. apply every_app in H. destruct H as [_ H]. cbn in H. tauto. Qed.

(** An invariant about the trace and the configuration *)
Lemma trace_invariant (I : list event -> config -> Prop) (Q : config -> label -> Prop) C :
  (forall t k l k' e, I t k -> Q k l -> step C k l = Ok (k', e) -> I (t ++ e) k') ->
  forall ls t0 k k' t, I t0 k -> along Q C k ls -> run C k ls = Ok (k', t) -> I (t0 ++ t) k'.
Proof.
  intros Hs. induction ls as [|l ls IH]; intros t0 k k' t HI HQ H.
  - cbn in H. inversion H; subst. rewrite app_nil_r. auto.
  - destruct (run_cons_inv _ _ _ _ _ _ H) as (k1 & e1 & e2 & H1 & H2 & ->).
    cbn in HQ. destruct HQ as [HQ1 HQ2]. rewrite H1 in HQ2. rewrite app_assoc. eauto.
Qed.

Lemma last_received_app t1 : forall t2 d, last_received (t1 ++ t2) d = last_received t2 (last_received t1 d).
Proof. induction t1 as [|e t1 IH]; intros; cbn; auto. destruct e; auto. Qed.
Lemma last_derived_app t1 : forall t2 d, last_derived (t1 ++ t2) d = last_derived t2 (last_derived t1 d).
Proof. induction t1 as [|e t1 IH]; intros; cbn; auto. destruct e; auto. Qed.
Lemma last_established_app t1 : forall t2 d, last_established (t1 ++ t2) d = last_established t2 (last_established t1 d).
Proof. induction t1 as [|e t1 IH]; intros; cbn; auto. destruct e; auto. Qed.

(** Instructions that occur only on top of the stack *)
Definition top_only (i : instr) : bool := match i with IProcess _ | IUpOpen => true | _ => false end.
Definition none_of (f : instr -> bool) (l : list instr) : Prop := forallb (fun i => negb (f i)) l = true.
Lemma none_app f a b : none_of f (a ++ b) <-> none_of f a /\ none_of f b.
Proof. unfold none_of. rewrite forallb_app, Bool.andb_true_iff. tauto. Qed.
Lemma none_calls f cs : (forall c, f (ICall c) = false) -> none_of f (map ICall cs).
Proof. intros H. unfold none_of. induction cs; cbn; auto. rewrite H, IHcs. reflexivity. Qed.

Definition head_ok (t : list event) (stk : list instr) : Prop :=
  match stk with
  | IProcess m :: _ => last_received t [] = m
  | IUpOpen :: _ => exists t0 s m p rest, t = t0 ++ EvAuthOk s m p :: rest /\ forallb is_auth_tx rest = true
  | _ => True
  end.

Record jinv (P : prims) (t : list event) (k : config) : Prop := {
  j_every : every (justified P) [] t;
  j_pending : s_valid (ep_pending (fst k)) = true -> exists d, last_derived t None = Some d /\ same_session d (ep_pending (fst k));
  j_active : s_valid (ep_active (fst k)) = true -> exists d, last_established t None = Some d /\ same_session d (ep_active (fst k));
  j_head : head_ok t (snd k);
  j_tail : none_of top_only (tl (snd k)) }.

Lemma pushed_shape C s i inp s' pushed e : exec C s i inp = Ok (s', pushed, e) ->
  none_of top_only (tl pushed) /\
  (pushed = [] \/ match hd_error pushed with Some h => top_only h = false | None => True end \/
   (exists m, hd_error pushed = Some (IProcess m) /\ exists e0, e = e0 ++ [EvRecv m]) \/
   (hd_error pushed = Some IUpOpen /\ exists s m p rest, e = EvAuthOk s m p :: rest /\ forallb is_auth_tx rest = true)).
Proof.
  intros H. destruct i; exec_cases H; splits;
    try (split; [reflexivity|auto; fail]);
    try (split; [reflexivity|]; right; left; reflexivity).
  all: try (split; [destruct (in_calls inp); [reflexivity|apply (none_calls top_only); reflexivity]|]; right; left; destruct (in_calls inp); reflexivity).
  - split; [reflexivity|]. right; right; left. eexists. split; [reflexivity|]. exists [EvQuery (in_ready inp)]. reflexivity.
  - split; [reflexivity|]. right; right; right. split; [reflexivity|]. do 4 eexists. split; reflexivity.
  - split; [reflexivity|]. right; right; right. split; [reflexivity|]. do 4 eexists. split; reflexivity.
  - split; [reflexivity|]. right; right; right. split; [reflexivity|]. do 4 eexists. split; reflexivity.
Qed.

(** The sessions after a step *)
Lemma sessions_exec C s i inp s' pushed e : exec C s i inp = Ok (s', pushed, e) ->
  (forall t, (s_valid (ep_pending s) = true -> exists d, last_derived t None = Some d /\ same_session d (ep_pending s)) ->
     s_valid (ep_pending s') = true -> exists d, last_derived (t ++ e) None = Some d /\ same_session d (ep_pending s')) /\
  (forall t, (s_valid (ep_active s) = true -> exists d, last_established t None = Some d /\ same_session d (ep_active s)) ->
     s_valid (ep_active s') = true -> exists d, last_established (t ++ e) None = Some d /\ same_session d (ep_active s')).
Proof.
  intros H. split; intros t HI HV; rewrite ?last_derived_app, ?last_established_app.
  - destruct i; exec_cases H; splits; sessions; cbn [last_derived]; try (apply HI; assumption); try discriminate HV.
    all: eexists; split; [reflexivity|first [apply same_session_refl|apply same_set_tx]].
  - destruct i; exec_cases H; splits; sessions; cbn [last_established];
      repeat match goal with F : validate_facts _ _ _ _ _ _ _ _ |- _ => pose proof (vf_session _ _ _ _ _ _ _ _ F); pose proof (vf_valid _ _ _ _ _ _ _ _ F); clear F; subst end;
      try (apply HI; assumption); try discriminate HV.
    all: try (eexists; split; [reflexivity|first [apply same_session_refl|apply same_set_tx]]).
    all: destruct HI as (d & D1 & D2); [assumption|]; exists d; split; [exact D1|]; eapply same_session_trans; [exact D2|]; first [apply same_set_rx|apply same_set_tx].
Qed.

Lemma justified_exec C s i inp s' pushed e t rest : jinv (e_prims (c_env C)) t (s, i :: rest) -> exec C s i inp = Ok (s', pushed, e) ->
  every (justified (e_prims (c_env C))) t e.
Proof.
  intros [J1 J2 J3 J4 J5] H. cbn [fst snd tl] in *.
  destruct i; exec_cases H; splits; sessions; cbn [every justified]; auto.
  all: try (match goal with He : is_empty_error ?x = true, Hn : ?x <> e_empty_user_data |- _ => destruct x; try discriminate He; congruence end).
  all: match goal with F : validate_facts _ _ _ _ _ _ _ _ |- _ =>
         pose proof (vf_session _ _ _ _ _ _ _ _ F) as F1; pose proof (vf_valid _ _ _ _ _ _ _ _ F) as F2;
         pose proof (mode_read_authentic _ _ _ _ _ _ (vf_read _ _ _ _ _ _ _ _ F)) as F3; clear F; subst end.
  all: cbn [head_ok] in J4; rewrite J4.
  all: cbn [s_crypto_mode s_keys set_rx_nonce s_valid].
  all: match goal with
       | H : (_ =? 0)%N = true |- _ => apply N.eqb_eq in H
       | H : (_ =? 0)%N = false |- _ => apply N.eqb_neq in H end.
  all: repeat split; auto; try discriminate.
  all: match goal with
       | |- exists d, last_derived _ _ = _ /\ _ => destruct (J2 F2) as (d & D1 & D2)
       | |- exists d, last_established _ _ = _ /\ _ => destruct (J3 F2) as (d & D1 & D2) end;
       exists d; destruct D2 as (E1 & E2 & E3 & E4 & E5); rewrite ?E2, ?E4; repeat split; auto.
Qed.

Lemma head_ok_other t' stk : match hd_error stk with Some h => top_only h = false | None => True end -> head_ok t' stk.
Proof. destruct stk as [|[] stk]; cbn; auto; discriminate. Qed.

Lemma none_tl f l : none_of f l -> none_of f (tl l).
Proof. destruct l; cbn; auto. unfold none_of. cbn. rewrite Bool.andb_true_iff. tauto. Qed.
Lemma none_hd f l : none_of f l -> match hd_error l with Some h => f h = false | None => True end.
Proof. destruct l; cbn; auto. unfold none_of. cbn. rewrite Bool.andb_true_iff, Bool.negb_true_iff. tauto. Qed.

Lemma inject_sessions s x : ep_active (fst (inject s x)) = ep_active s /\ ep_pending (fst (inject s x)) = ep_pending s.
Proof.
  destruct x; cbn; auto.
  - destruct (ep_timer s) as [[|]|]; cbn; unfold on_response_timeout, on_retry_timeout; cbn; destruct (ep_state s); auto.
  - destruct (nth_error (ep_stale s) n) as [[|]|]; cbn; unfold on_response_timeout, on_retry_timeout; cbn; destruct (ep_state s); auto.
  - destruct (ep_session_timer s); auto.
  - destruct (ep_session_stale s); auto.
Qed.
Lemma inject_stack s x : snd (inject s x) = [] \/ snd (inject s x) = [IHandshakeRequired] \/ exists c, snd (inject s x) = [ICall c].
Proof.
  destruct x; cbn; eauto.
  - destruct (ep_timer s) as [[|]|]; cbn; eauto.
  - destruct (nth_error (ep_stale s) n) as [[|]|]; cbn; eauto.
  - destruct (ep_session_timer s); cbn; eauto.
  - destruct (ep_session_stale s); cbn; eauto.
Qed.

Lemma jinv_step C t k l k' e : jinv (e_prims (c_env C)) t k -> step C k l = Ok (k', e) -> jinv (e_prims (c_env C)) (t ++ e) k'.
Proof.
  intros J Hs. destruct (step_inv _ _ _ _ _ Hs) as [[-> ->]|[(x & s1 & -> & -> & -> & ->)|(inp & s1 & i & rest & s2 & pushed & -> & -> & He & ->)]].
  - rewrite app_nil_r. exact J.
  - rewrite app_nil_r. destruct J as [J1 J2 J3 J4 J5]. cbn [fst snd] in *.
    pose proof (inject_sessions s1 x) as [A B]. pose proof (inject_stack s1 x) as S.
    destruct (inject s1 x) as [s' stk]. cbn [fst snd] in *. constructor; cbn [fst snd]; rewrite ?A, ?B; auto.
    + destruct S as [->|[->|[c ->]]]; cbn; auto.
    + destruct S as [->|[->|[c ->]]]; reflexivity.
  - pose proof (justified_exec _ _ _ _ _ _ _ _ _ J He) as E. destruct J as [J1 J2 J3 J4 J5]. cbn [fst snd tl] in *.
    destruct (sessions_exec _ _ _ _ _ _ _ He) as [S1 S2]. destruct (pushed_shape _ _ _ _ _ _ _ He) as [P1 P2].
    constructor; cbn [fst snd].
    + apply every_app. split; auto.
    + apply S1. exact J2.
    + apply S2. exact J3.
    + destruct P2 as [->|[P2|[(m & Hm & e0 & ->)|(Hu & s & m & p & r & -> & Hr)]]].
      * cbn [app]. apply head_ok_other. apply none_hd. exact J5.
      * apply head_ok_other. destruct pushed; [apply none_hd; exact J5|exact P2].
      * destruct pushed as [|h pushed]; [discriminate|]. cbn in Hm. injection Hm as ->. cbn. rewrite !last_received_app. reflexivity.
      * destruct pushed as [|h pushed]; [discriminate|]. cbn in Hu. injection Hu as ->. cbn. exists t, s, m, p, r. auto.
    + destruct pushed as [|h pushed]; cbn [app tl] in *; [apply none_tl; exact J5|]. apply none_app. auto.
Qed.

(** C25 *)
Lemma justified_run C ls k t : run C (new_endpoint C, []) ls = Ok (k, t) -> every (justified (e_prims (c_env C))) [] t.
Proof.
  intros H. refine (j_every _ _ _ (trace_invariant (jinv (e_prims (c_env C))) (fun _ _ => True) C _ ls [] _ _ _ _ (along_true _ _ _) H)).
  - intros t0 k0 l k' e J _ Hs. eapply jinv_step; eauto.
  - constructor; cbn; auto; try discriminate. reflexivity.
Qed.

(** C14: nonces *)
Lemma nonces_exec C s i inp s' pushed e st : exec C s i inp = Ok (s', pushed, e) ->
  (s_valid (ep_active s) = true -> st = Some (s_nonce_mode (ep_active s), p_max_nonce (s_param (ep_active s)), s_rx_nonce (ep_active s))) ->
  exists st', play nonces st e = Some st' /\
    (s_valid (ep_active s') = true -> st' = Some (s_nonce_mode (ep_active s'), p_max_nonce (s_param (ep_active s')), s_rx_nonce (ep_active s'))).
Proof.
  intros H HI. destruct i; exec_cases H; splits; sessions; try discriminate;
    try (exists st; split; [reflexivity|]; first [exact HI|discriminate|exact (fun _ => HI eq_refl)|tauto]; fail).
  all: repeat match goal with F : validate_facts _ _ _ _ _ _ _ _ |- _ =>
         pose proof (vf_session _ _ _ _ _ _ _ _ F); pose proof (vf_valid _ _ _ _ _ _ _ _ F) as F2;
         pose proof (vf_nonce _ _ _ _ _ _ _ _ F) as F3; pose proof (vf_max _ _ _ _ _ _ _ _ F) as F4; clear F; subst end.
  all: try (match goal with He : is_empty_error ?x = true, Hn : ?x <> e_empty_user_data |- _ => destruct x; try discriminate He; congruence end).
  all: cbn [play nonces].
  all: try match goal with
       | H : (_ =? 0)%N = true |- _ => rewrite H
       | H : (_ =? 0)%N = false |- _ => rewrite (HI F2) end.
  all: try (eexists; split; [reflexivity|]; intros _; cbn [s_nonce_mode s_param s_rx_nonce set_rx_nonce set_tx_nonce];
            match goal with H : (_ =? 0)%N = true |- _ => apply N.eqb_eq in H; rewrite H; reflexivity end).
  all: assert (X : ((am_nonce (sd_metadata s0) <=? p_max_nonce (s_param (ep_active s))) &&
           match s_nonce_mode (ep_active s) with strict_increment => am_nonce (sd_metadata s0) =? s_rx_nonce (ep_active s) + 1
           | greater_than_last_rx => s_rx_nonce (ep_active s) <? am_nonce (sd_metadata s0) end)%N = true)
         by (apply Bool.andb_true_iff; split; [apply N.leb_le; exact F4|];
             destruct (s_nonce_mode (ep_active s)) eqn:Em; [apply N.eqb_eq; apply verify_strict_next; exact F3|apply N.ltb_lt; apply (verify_nonce_above greater_than_last_rx); exact F3]).
  all: rewrite X; eexists; split; [reflexivity|]; intros _; reflexivity.
Qed.

Lemma nonces_run C ls k t : run C (new_endpoint C, []) ls = Ok (k, t) -> exists st, play nonces None t = Some st.
Proof.
  intros H.
  destruct (simulate nonces (fun st k => s_valid (ep_active (fst k)) = true ->
      st = Some (s_nonce_mode (ep_active (fst k)), p_max_nonce (s_param (ep_active (fst k))), s_rx_nonce (ep_active (fst k)))) (fun _ _ => True) C)
    with (ls := ls) (a := @None (SessionNonceMode * N * N)) (k := (new_endpoint C, @nil instr)) (k' := k) (t := t) as (a' & P & _); auto using along_true.
  - intros st k1 l k2 e HI _ Hs. destruct (step_inv _ _ _ _ _ Hs) as [[-> ->]|[(x & s1 & -> & -> & -> & ->)|(inp & s1 & i & rest & s2 & pushed & -> & -> & He & ->)]].
    + exists st. auto.
    + exists st. split; [reflexivity|]. destruct (inject_sessions s1 x) as [-> _]. exact HI.
    + eapply nonces_exec; eauto.
  - discriminate.
  - eauto.
Qed.

(** C24: a message that does not authenticate *)
Lemma unauthenticated C s m inp s' pushed e : exec C s (IProcess m) inp = Ok (s', pushed, e) ->
  (forall msg p, session_data_read m = inl msg ->
     let checked := if (am_nonce (sd_metadata msg) =? 0)%N then ep_pending s else ep_active s in
     ~ (s_valid checked = true /\ authentic (e_prims (c_env C)) (s_crypto_mode checked) (k_rx (s_keys checked)) msg p)) ->
  ep_active s' = ep_active s /\ ep_up s' = ep_up s /\ ep_open s' = ep_open s /\ ep_payload s' = ep_payload s /\ pushed = [] /\
  Forall (fun x => match x with EvKeys _ | EvTx _ _ => True | _ => False end) e.
Proof.
  intros H Hn. exec_cases H; splits; sessions;
  try match goal with F : validate_facts _ _ _ _ _ _ _ _ |- _ =>
         exfalso; pose proof (vf_valid _ _ _ _ _ _ _ _ F); pose proof (mode_read_authentic _ _ _ _ _ _ (vf_read _ _ _ _ _ _ _ _ F));
         match goal with H : session_data_read _ = inl ?msg |- _ => eapply (Hn msg _ eq_refl);
            match goal with B : (_ =? 0)%N = _ |- _ => cbn zeta; rewrite B end; split; eassumption end end.
  all: try (match goal with He : is_empty_error ?x = true, Hn : ?x <> e_empty_user_data |- _ => destruct x; try discriminate He; congruence end).
  all: repeat split; auto; repeat constructor.
Qed.

(** C24: an established session changes only when it ends *)
Definition closes (i : instr) : bool := match i with IUpClose => true | _ => false end.
Lemma established_exec C s i inp s' pushed e : exec C s i inp = Ok (s', pushed, e) -> closes i = false -> existsb ends_session e = false ->
  same_session (ep_active s) (ep_active s') /\ none_of closes pushed /\ (ep_up s = true -> ep_up s' = true) /\ ~ In EvUpClose e.
Proof.
  intros H Hc He. destruct i; exec_cases H; splits; sessions; try discriminate;
  repeat match goal with F : validate_facts _ _ _ _ _ _ _ _ |- _ => pose proof (vf_session _ _ _ _ _ _ _ _ F); clear F; subst end.
  all: try (repeat split; auto; cbn; intuition discriminate; fail).
  all: repeat split; auto; try discriminate; try (apply none_calls; reflexivity); cbn; intuition discriminate.
Qed.

Lemma established_run C ls s k t : run C (s, []) ls = Ok (k, t) -> existsb ends_session t = false ->
  same_session (ep_active s) (ep_active (fst k)) /\ (ep_up s = true -> ep_up (fst k) = true) /\ ~ In EvUpClose t.
Proof.
  intros H.
  pose proof (trace_invariant (fun t k => existsb ends_session t = false ->
      same_session (ep_active s) (ep_active (fst k)) /\ (ep_up s = true -> ep_up (fst k) = true) /\ ~ In EvUpClose t /\ none_of closes (snd k))
      (fun _ _ => True) C) as T.
  assert (X : existsb ends_session t = false -> same_session (ep_active s) (ep_active (fst k)) /\ (ep_up s = true -> ep_up (fst k) = true) /\ ~ In EvUpClose t /\ none_of closes (snd k)).
  { apply (T) with (ls := ls) (t0 := []) (k := (s, [])); auto using along_true.
    - intros t0 k0 l k' e HI _ Hs He. rewrite existsb_app, Bool.orb_false_iff in He. destruct He as [He1 He2].
      destruct (HI He1) as (A1 & A2 & A3 & A4). clear HI.
      destruct (step_inv _ _ _ _ _ Hs) as [[-> ->]|[(x & s1 & -> & -> & -> & ->)|(inp & s1 & i & rest & s2 & pushed & -> & -> & Hx & ->)]].
      + rewrite app_nil_r. auto.
      + rewrite app_nil_r. destruct (inject_sessions s1 x) as [-> _]. rewrite inject_up. repeat split; auto; try apply A1.
        destruct (inject_stack s1 x) as [->|[->|[c ->]]]; reflexivity.
      + cbn [fst snd] in *. unfold none_of in A4. cbn [forallb] in A4. apply Bool.andb_true_iff in A4. destruct A4 as [A4 A5].
        apply Bool.negb_true_iff in A4.
        destruct (established_exec _ _ _ _ _ _ _ Hx A4 He2) as (B1 & B2 & B3 & B4).
        split; [eapply same_session_trans; eauto|]. split; [auto|]. split; [|apply none_app; auto].
        rewrite in_app_iff. tauto.
    - intros _. repeat split; auto. }
  intros He. destruct (X He) as (A1 & A2 & A3 & _). auto.
Qed.
