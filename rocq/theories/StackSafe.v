(** * StackSafe: no undefined behaviour of a complete stack *)
From Verif Require Import Base BaseFacts Codec CodecSpec Link LinkLayer LinkLayerSpec LinkLayerFacts Primitives Session SessionSpec Handshake HandshakeSpec
  Endpoint EndpointSpec EndpointFacts EndpointMain EndpointRx PairSpec Stack StackSpec StackFacts SafeSpec EndpointSafe.

Lemma quietly_any : any_message opens_quietly.
Proof. intros k inp m H. exact H. Qed.
Lemma full_quietly C ls k : along (full opens_quietly) C k ls -> along opens_quietly C k ls /\ along (receives bytes_ok) C k ls.
Proof.
  intros H. split; revert H; apply along_impl; intros k0 l [H1 [_ H2]]; auto. destruct l as [x|inp]; [exact I|]. apply H2.
Qed.
Lemma ll_total local arr gs l o : LI local arr gs l -> op_ok o -> exists r, ll_step l o = Ok r.
Proof.
  intros H Ho. destruct (ll_run_inv local [o] l arr gs H) as (l1 & out1 & gs1 & E & _); [constructor; auto|]. cbn [ll_run] in E. destruct (ll_step l o); try discriminate. eauto.
Qed.
Lemma crypto_total C hm open l s i rest inp : sup_ed25519 (c_supports C) = true -> keys_whole C -> dinv C hm (s, i :: rest) -> exists r, crypto_step C open l s i inp = Ok r.
Proof. intros HS HK D. unfold crypto_step. destruct (exec_defined C hm s i rest inp HS HK D) as [[[s' p] e] ->]. cbn [obind]. eauto. Qed.
Lemma stack_step_defined C hm local k ke l : sup_ed25519 (c_supports C) = true -> keys_whole C -> related opens_quietly local k ke -> dinv C hm ke -> exists r, stack_step C k l = Ok r.
Proof.
  intros HS HK R D. destruct k as [s stk]. unfold stack_step. cbn [fst snd]. destruct l as [ch|[x|inp]]; [eauto| |].
  - destruct stk; [|eauto]. destruct (inject _ _). eauto.
  - destruct stk as [|i rest]; [eauto|]. enough (exists r, stack_exec C s i inp = Ok r) as [[[s' p] e] ->] by (cbn [obind]; eauto).
    destruct R as [_ Rc _ Rs (arr & gs & RL)]. cbn [fst snd] in *. destruct ke as [c kstk]. cbn [fst snd] in *. subst c.
    destruct Rs as [[-> _]|(Es & _)].
    + assert (TL : forall open o c, i = ICall c -> op_ok o -> exists r, through_link C open s o c inp = Ok r).
      { intros open o c -> Ho. unfold through_link. destruct (ll_total _ _ _ _ _ RL Ho) as [[l out] ->]. cbn [obind]. destruct out; [eauto|]. eapply crypto_total; eauto. }
      destruct i as [[]| | | | | | | | | | | | |]; cbn [stack_exec]; try (eapply crypto_total; eauto; fail); try (destruct (st_open s); eauto; apply TL; [reflexivity|exact I]).
      destruct (reads_link _ _); [|eapply crypto_total; eauto]. destruct (ll_start_rx_spec _ _ _ _ RL) as (l1 & ret & -> & _). cbn [obind]. eapply crypto_total; eauto.
    + injection Es as -> ->. cbn [stack_exec]. destruct (st_open s); [|eauto]. unfold through_link. destruct (ll_total _ _ _ _ LRxReady RL I) as [[l out] ->]. cbn [obind].
      destruct out; [eauto|]. unfold crypto_step. cbn [exec enter]. destruct (ep_open (st_crypto s)); cbn [obind]; eauto.
Qed.

Lemma stack_defined C hm local : sup_ed25519 (c_supports C) = true -> keys_whole C -> (hm = true -> hmac_configured C) -> forall ls k ke, related opens_quietly local k ke -> dinv C hm ke ->
  Forall arrival_ok ls -> salong (fun k l => opens_quietly k l /\ from_outside k l) C k ls ->
  (exists k' t, stack_run C k ls = Ok (k', t)) \/
  (exists ls1 ls2 k' t raw, ls = ls1 ++ ls2 /\ stack_run C k ls1 = Ok (k', t) /\ In raw (messages t) /\ harmful C hm raw).
Proof.
  intros HS HK HC. induction ls as [|l ls IH]; intros k ke R D HA Q; cbn [stack_run]; [eauto|]. cbn [salong] in Q. destruct Q as [Q1 Q2]. inversion HA as [|x y HA1 HA2]; subst.
  destruct (stack_step_defined C hm local k ke l HS HK R D) as [[k1 e1] E]. rewrite E in *. cbn [obind].
  destruct (sim_step opens_quietly C local k ke l k1 e1 quietly_any R HA1 Q1 E) as (les & ke1 & ops & out & A1 & A2 & A3 & _). destruct (full_quietly _ _ _ A2) as [B1 B2].
  destruct (messages_or C hm e1) as [M|(m & M1 & M2)]; [intros m Hm; exact (run_received _ _ _ _ _ _ A1 B2 Hm)| |].
  - destruct (IH k1 ke1) as [(k2 & t & ->)|(ls1 & ls2 & k2 & t & raw & -> & E2 & X1 & X2)]; auto; [exact (run_dinv C hm HC _ _ _ _ D B1 A1 M)| |]; cbn [obind]; [eauto|].
    right. exists (l :: ls1), ls2, k2, (e1 ++ t), raw. repeat split; auto; [|rewrite messages_app; apply in_or_app; auto]. cbn [stack_run]. rewrite E. cbn [obind]. rewrite E2. reflexivity.
  - right. exists [l], ls, k1, e1, m. repeat split; auto; [|apply in_messages; exact M1]. cbn [stack_run]. rewrite E. cbn [obind]. now rewrite app_nil_r.
Qed.
