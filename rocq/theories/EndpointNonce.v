(** * EndpointNonce: the keys and nonces of the frames sent *)
From Verif Require Import Base BaseFacts Codec CodecSpec CodecFacts Link LinkLayer Primitives Session SessionSpec SessionFacts SessionMain Handshake HandshakeFacts Endpoint EndpointSpec EndpointFacts EndpointMain EndpointRx EndpointTx.

Lemma used_app i t1 t2 : used i (t1 ++ t2) = fold_left (used1 i) t2 (used i t1).
Proof. unfold used. apply fold_left_app. Qed.

Definition bounded (s : session) : Prop := (p_max_nonce (s_param s) <= 65535)%N.
(** What the application and the handshake contribute *)
Definition plain (e : event) : Prop :=
  match e with EvKeys s => bounded s | EvAccept d => bytes_ok d | _ => True end.

Record ninv (ini : bool) (t : list event) (k : config) : Prop := {
  n_pending : s_valid (ep_pending (fst k)) = true ->
     bounded (ep_pending (fst k)) /\ s_tx_nonce (ep_pending (fst k)) = fst (used (ini) t) /\
     exists d, last_derived t None = Some d /\ same_session d (ep_pending (fst k));
  n_responder : ini = false -> s_valid (ep_pending (fst k)) = true -> fst (used false t) = 0%N;
  n_active : s_valid (ep_active (fst k)) = true ->
     bounded (ep_active (fst k)) /\ s_tx_nonce (ep_active (fst k)) = snd (used (ini) t) /\
     exists d, last_established t None = Some d /\ same_session d (ep_active (fst k));
  n_bytes : bytes_ok (ep_remainder (fst k)) }.

Lemma nonce_succ n max : (n < max)%N -> (max <= 65535)%N -> nonce_increment n = (n + 1)%N.
Proof. intros. unfold nonce_increment, u16, trunc. apply N.mod_small. change (2 ^ 16)%N with 65536%N. lia. Qed.
Lemma format_auth_zero E s now clear f rest s' : format_session_auth E s now clear = Ok (inl f, rest, s') -> s_tx_nonce s = 0%N.
Proof. unfold format_session_auth. destruct (N.eqb_spec (s_tx_nonce s) 0); [auto|discriminate]. Qed.
Lemma skipn_bytes n l : bytes_ok l -> bytes_ok (skipn n l).
Proof. revert l. induction n; intros l H; cbn; auto. destruct l; auto. inversion H; subst. apply IHn. assumption. Qed.


Definition seals (E : senv) (s : session) (f clear rest : list N) : Prop :=
  bytes_ok clear -> bytes_ok rest /\ ((s_tx_nonce s < 65536)%N -> exists md, carries E (s_crypto_mode s) (k_tx (s_keys s)) f md (taken clear rest) /\ am_nonce md = s_tx_nonce s).
Lemma format_seals E s now clear f rest s' : format_facts E s now clear f rest s' -> seals E s f clear rest.
Proof.
  intros F Hb. pose proof (tx_n_le E clear) as (L1 & L2 & L3). split.
  - rewrite (ff_rest _ _ _ _ _ _ _ F). apply skipn_bytes. exact Hb.
  - intros Hn. eexists. split; [rewrite (ff_rest _ _ _ _ _ _ _ F), (@taken_skipn N) by exact L1; apply (format_carries _ _ _ _ _ _ _ F Hb Hn)|reflexivity].
Qed.
Lemma fmt_auth E s now clear r rest s' : prims_ok (e_prims E) -> format_session_auth E s now clear = Ok (r, rest, s') ->
  (exists e, r = inr e /\ s' = s) \/
  (exists f, r = inl f /\ s' = set_tx_nonce s 1 /\ s_tx_nonce s = 0%N /\ s_valid s = true /\ seals E s f clear rest).
Proof.
  intros HP H. destruct r as [f|e]; [right|left; destruct (format_auth_session _ _ _ _ _ _ _ H) as [(e' & X & ->)|(f & X & _)]; [eauto|discriminate]].
  pose proof (format_auth_zero _ _ _ _ _ _ _ H) as Z. pose proof (format_auth_inv _ _ _ _ _ _ _ HP H) as F.
  exists f. split; [reflexivity|]. split; [rewrite (ff_session _ _ _ _ _ _ _ F), Z; reflexivity|]. split; [exact Z|]. split; [exact (ff_valid _ _ _ _ _ _ _ F)|].
  eapply format_seals; eauto.
Qed.
Lemma fmt_data E s now clear r rest s' : prims_ok (e_prims E) -> format_session_data E s now clear = Ok (r, rest, s') ->
  (exists e, r = inr e /\ s' = s) \/
  (exists f, r = inl f /\ s' = set_tx_nonce s (nonce_increment (s_tx_nonce s)) /\ (s_tx_nonce s < p_max_nonce (s_param s))%N /\ s_valid s = true /\ seals E s f clear rest).
Proof.
  intros HP H. destruct r as [f|e]; [right|left; destruct (format_data_session _ _ _ _ _ _ _ H) as [(e' & X & ->)|(f & X & _)]; [eauto|discriminate]].
  destruct (format_session_inv _ _ _ _ _ _ _ HP H) as [F M].
  exists f. split; [reflexivity|]. split; [exact (ff_session _ _ _ _ _ _ _ F)|]. split; [exact M|]. split; [exact (ff_valid _ _ _ _ _ _ _ F)|].
  eapply format_seals; eauto.
Qed.
Ltac formats HP := repeat match goal with
  | H : format_session_auth _ _ _ _ = Ok _ |- _ =>
      apply (fmt_auth _ _ _ _ _ _ _ HP) in H; destruct H as [(? & H & ?)|(? & H & ? & ? & ? & ?)]; first [discriminate H|injection H as ?]; subst
  | H : format_session_data _ _ _ _ = Ok _ |- _ =>
      apply (fmt_data _ _ _ _ _ _ _ HP) in H; destruct H as [(? & H & ?)|(? & H & ? & ? & ? & ?)]; first [discriminate H|injection H as ?]; subst
  end.

Lemma sealed_exec C t s i inp rest s' pushed e : prims_ok (e_prims (c_env C)) -> ninv (is_initiator C) t (s, i :: rest) ->
  exec C s i inp = Ok (s', pushed, e) -> every (sealed C) t e.
Proof.
  intros HP [J1 J2 J3 J4] H. cbn [fst snd] in *. assert (RI : forall c, c_role C = Initiator c -> is_initiator C = true) by (intros c R; unfold is_initiator; rewrite R; reflexivity).
  assert (RR : forall h, c_role C = Responder h -> is_initiator C = false) by (intros h R; unfold is_initiator; rewrite R; reflexivity).
  destruct i as [[]| | | | | | | | | | | | |]; exec_cases H; splits; formats HP; sessions.
  all: try (repeat split; fail).
  1, 2: rewrite (RI _ eq_refl) in *; cbn [every sealed]; rewrite (RI _ eq_refl); (split; [exact I|]); (split; [|exact I]);
    destruct (H3 J4) as [_ S2]; destruct S2 as (md & M1 & M2); [lia|]; exists s0, md; rewrite last_derived_app, used_app; cbn; repeat split; auto; congruence.
  1, 2: match goal with F : validate_facts _ _ _ _ _ _ _ _ |- _ => pose proof (vf_session _ _ _ _ _ _ _ _ F); pose proof (vf_valid _ _ _ _ _ _ _ _ F) end; subst;
    rewrite (RR _ eq_refl) in *; cbn [every sealed]; rewrite (RR _ eq_refl); (split; [exact I|]); split; auto;
    match goal with S : seals _ _ _ _ _ |- _ => destruct (S J4) as [_ S2] end; destruct S2 as (md & M1 & M2); [cbn in *; lia|];
    eexists; exists md; rewrite last_established_app, used_app; cbn; repeat split; [exact M1|cbn in *; congruence|symmetry; apply J2; auto].
  cbn [every sealed]. split; [exact I|]. split; [|exact I]. destruct (J3 H1) as (B & Nn & d & D1 & D2). destruct (H2 J4) as [_ S2].
  destruct S2 as (md & M1 & M2); [unfold bounded in B; lia|]. exists d, md. rewrite last_established_app, used_app. cbn [last_established fold_left used1].
  destruct D2 as (E1 & E2 & E3 & E4 & E5). rewrite E2, E4, E5. split; [exact D1|]. split; [exact M1|]. split; [congruence|]. rewrite M2. exact H0.
Qed.

Lemma ninv_exec C ini t s i inp rest s' pushed e : prims_ok (e_prims (c_env C)) -> ini = is_initiator C -> ninv ini t (s, i :: rest) ->
  exec C s i inp = Ok (s', pushed, e) -> Forall plain e -> ninv ini (t ++ e) (s', pushed ++ rest).
Proof.
  intros HP RI [J1 J2 J3 J4] H Hpl. cbn [fst snd] in *. unfold is_initiator in RI.
  destruct i as [[]| | | | | | | | | | | | |]; exec_cases H; splits; formats HP; sessions.
  all: try match goal with F : validate_facts _ _ _ _ _ _ _ _ |- _ => pose proof (vf_session _ _ _ _ _ _ _ _ F); pose proof (vf_valid _ _ _ _ _ _ _ _ F); clear F end; subst.
  all: constructor; cbn [fst snd]; eps; rewrite ?used_app, ?last_derived_app, ?last_established_app, ?app_nil_r; cbn [fold_left used1 last_derived last_established fst snd].
  all: try first [assumption|discriminate].
  all: repeat match goal with H : Forall _ (_ :: _) |- _ => inversion H; clear H; subst end; cbn [plain] in *.
  all: try assumption.
  all: try (match goal with S : seals _ _ _ _ _ |- _ => exact (proj1 (S J4)) end).
  all: try (intros V; repeat split; [assumption|assumption|eexists; split; [reflexivity|first [apply same_session_refl|apply same_set_tx]]]; fail).
  all: try (intros; reflexivity).
  all: try intros V; unfold bounded in *; cbn [s_valid s_param s_tx_nonce set_rx_nonce set_tx_nonce] in *.
  all: try (pose proof (J2 eq_refl ltac:(assumption))).
  all: try (destruct J1 as (B & Nn & d & D1 & D2); [assumption|]; repeat split; [exact B|first [exact Nn|congruence|lia]|eexists; split; [first [reflexivity|exact D1]|
         first [apply same_session_refl|apply same_set_tx|apply same_set_rx|eapply same_session_trans; [exact D2|]; first [apply same_session_refl|apply same_set_tx|apply same_set_rx]]]]; fail).
  all: try (destruct J3 as (B & Nn & d & D1 & D2); [assumption|]; repeat split; [exact B|first [exact Nn|rewrite (nonce_succ _ _ ltac:(eassumption) B); congruence]|eexists; split; [first [reflexivity|exact D1]|
         first [apply same_session_refl|apply same_set_tx|apply same_set_rx|eapply same_session_trans; [exact D2|]; first [apply same_session_refl|apply same_set_tx|apply same_set_rx]]]]; fail).
  all: try apply Forall_nil.
  all: split; [assumption|split; [reflexivity|eexists; split; [reflexivity|apply same_set_tx]]].
Qed.

Lemma sealed_run C ls k t : prims_ok (e_prims (c_env C)) -> run C (new_endpoint C, []) ls = Ok (k, t) -> Forall plain t ->
  every (sealed C) [] t.
Proof.
  intros HP H. apply (trace_invariant (fun t k => Forall plain t -> every (sealed C) [] t /\ ninv (is_initiator C) t k) (fun _ _ => True) C) with (ls := ls) (t0 := []) (k := (new_endpoint C, [])) (k' := k); auto using along_true.
  - intros t0 k1 l k2 e HI _ Hs Hf. apply Forall_app in Hf. destruct Hf as [Hf1 Hf2]. destruct (HI Hf1) as [I1 I2].
    destruct (step_inv _ _ _ _ _ Hs) as [[-> ->]|[(x & s1 & -> & -> & -> & ->)|(inp & s1 & i & rest & s2 & pushed & -> & -> & He & ->)]].
    + rewrite app_nil_r. auto.
    + rewrite app_nil_r. split; [exact I1|]. destruct I2 as [J1 J2 J3 J4]. cbn [fst snd] in *.
      destruct (inject_tx s1 x) as (E1 & _). destruct (inject_sessions s1 x) as (E5 & E6). constructor; rewrite ?E1, ?E5, ?E6; assumption.
    + split; [apply every_app; split; [exact I1|]; eapply sealed_exec; eauto|eapply ninv_exec; eauto].
  - intros _. split; [exact I|]. constructor; cbn; try discriminate; try constructor.
Qed.
