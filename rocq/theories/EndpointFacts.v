(** * EndpointFacts: reasoning about runs of the endpoint *)
From Verif Require Import Base BaseFacts Codec CodecSpec CodecFacts Link LinkLayer Primitives Session SessionSpec SessionFacts SessionMain Handshake HandshakeFacts Endpoint EndpointSpec.

Lemma play_app {A} (f : A -> event -> option A) t1 : forall a t2,
  play f a (t1 ++ t2) = match play f a t1 with Some a' => play f a' t2 | None => None end.
Proof. induction t1 as [|e t1 IH]; intros a t2; cbn; auto. destruct (f a e); auto. Qed.

Lemma run_cons_inv C k l ls k' t : run C k (l :: ls) = Ok (k', t) ->
  exists k1 e1 e2, step C k l = Ok (k1, e1) /\ run C k1 ls = Ok (k', e2) /\ t = e1 ++ e2.
Proof.
  cbn. destruct (step C k l) as [[k1 e1]| |] eqn:E1; cbn [obind]; try discriminate.
  destruct (run C k1 ls) as [[k2 e2]| |] eqn:E2; cbn [obind]; try discriminate.
  intros H. inversion H; subst. exists k1, e1, e2. auto.
Qed.

Lemma run_app C : forall ls1 k ls2, run C k (ls1 ++ ls2) =
  match run C k ls1 with
  | Ok (k1, e1) => match run C k1 ls2 with Ok (k2, e2) => Ok (k2, e1 ++ e2) | UB => UB | NoFuel => NoFuel end
  | UB => UB | NoFuel => NoFuel end.
Proof.
  induction ls1 as [|l ls1 IH]; intros k ls2; cbn.
  - destruct (run C k ls2) as [[? ?]| |]; reflexivity.
  - destruct (step C k l) as [[k1 e1]| |]; cbn [obind]; auto. rewrite IH.
    destruct (run C k1 ls1) as [[k2 e2]| |]; cbn [obind]; auto.
    destruct (run C k2 ls2) as [[k3 e3]| |]; cbn [obind]; auto. rewrite app_assoc. reflexivity.
Qed.

(** An automaton accepts every run if it can follow every step. *)
Lemma simulate {A} (f : A -> event -> option A) (R : A -> config -> Prop) (Q : config -> label -> Prop) C :
  (forall a k l k' e, R a k -> Q k l -> step C k l = Ok (k', e) -> exists a', play f a e = Some a' /\ R a' k') ->
  forall ls a k k' t, R a k -> along Q C k ls -> run C k ls = Ok (k', t) -> exists a', play f a t = Some a' /\ R a' k'.
Proof.
  intros Hs. induction ls as [|l ls IH]; intros a k k' t HR HQ H.
  - cbn in H. inversion H; subst. exists a. auto.
  - destruct (run_cons_inv _ _ _ _ _ _ H) as (k1 & e1 & e2 & H1 & H2 & ->).
    cbn in HQ. destruct HQ as [HQ1 HQ2]. rewrite H1 in HQ2.
    destruct (Hs _ _ _ _ _ HR HQ1 H1) as (a1 & P1 & R1).
    destruct (IH _ _ _ _ R1 HQ2 H2) as (a2 & P2 & R2).
    exists a2. rewrite play_app, P1. auto.
Qed.

Lemma along_true C : forall ls k, along (fun _ _ => True) C k ls.
Proof. induction ls as [|l ls IH]; intros k; cbn; auto. split; auto. destruct (step C k l) as [[? ?]| |]; auto. Qed.
Lemma along_impl (Q Q' : config -> label -> Prop) C : (forall k l, Q k l -> Q' k l) -> forall ls k, along Q C k ls -> along Q' C k ls.
Proof.
  intros HQ. induction ls as [|l ls IH]; intros k; cbn; auto. intros [H1 H2]. split; auto.
  destruct (step C k l) as [[? ?]| |]; auto.
Qed.
Lemma along_app Q C : forall ls1 k ls2, along Q C k (ls1 ++ ls2) ->
  along Q C k ls1 /\ (forall k1 e1, run C k ls1 = Ok (k1, e1) -> along Q C k1 ls2).
Proof.
  induction ls1 as [|l ls1 IH]; intros k ls2; cbn.
  - intros H. split; auto. intros k1 e1 E. inversion E; subst. auto.
  - intros [H1 H2]. destruct (step C k l) as [[k1 e1]| |]; cbn [obind].
    + destruct (IH _ _ H2) as [Ha Hb]. repeat split; auto. intros k2 e2 E.
      destruct (run C k1 ls1) as [[? ?]| |]; cbn [obind] in E; try discriminate. inversion E; subst. eapply Hb; eauto.
    + repeat split; auto. discriminate.
    + repeat split; auto. discriminate.
Qed.

(** An invariant of the configurations *)
Lemma invariant (I : config -> Prop) (Q : config -> label -> Prop) C :
  (forall k l k' e, I k -> Q k l -> step C k l = Ok (k', e) -> I k') ->
  forall ls k k' t, I k -> along Q C k ls -> run C k ls = Ok (k', t) -> I k'.
Proof.
  intros Hs. induction ls as [|l ls IH]; intros k k' t HI HQ H.
  - cbn in H. inversion H; subst. auto.
  - destruct (run_cons_inv _ _ _ _ _ _ H) as (k1 & e1 & e2 & H1 & H2 & ->).
    cbn in HQ. destruct HQ as [HQ1 HQ2]. rewrite H1 in HQ2. eauto.
Qed.

(** The shapes of a step *)
Lemma step_inv C k l k' e : step C k l = Ok (k', e) ->
  (k' = k /\ e = []) \/
  (exists x s, l = Ext x /\ k = (s, []) /\ k' = inject s x /\ e = []) \/
  (exists inp s i rest s' pushed, l = Run inp /\ k = (s, i :: rest) /\ exec C s i inp = Ok (s', pushed, e) /\ k' = (s', pushed ++ rest)).
Proof.
  destruct k as [s stk]. unfold step. cbn [fst snd].
  destruct l as [x|inp], stk as [|i rest]; intros H; try (inversion H; subst; left; split; reflexivity).
  - inversion H; subst. right; left. exists x, s. auto.
  - destruct (exec C s i inp) as [[[s' pushed] ev]| |] eqn:E; cbn [obind] in H; try discriminate.
    inversion H; subst. right; right. exists inp, s, i, rest, s', pushed. auto.
Qed.

(** Case analysis of a computation that succeeded *)
Ltac ok_inv H := match type of H with Ok ?a = Ok ?b => let X := fresh in assert (X : a = b) by (injection H; intros; congruence); clear H end.
Ltac ocases H :=
  repeat match type of H with
  | UB = Ok _ => discriminate H
  | NoFuel = Ok _ => discriminate H
  | Ok (_, _, _) = Ok (_, _, _) => injection H; clear H; intros; subst
  | obind ?o _ = Ok _ => destruct o as [?| |] eqn:?; cbn [obind] in H
  | (let (_, _) := ?x in _) = _ => destruct x eqn:?
  | (if ?b then _ else _) = _ => destruct b eqn:?
  | match ?x with _ => _ end = _ => destruct x eqn:?
  end.

Ltac unfold_exec H :=
  unfold exec, enter, start_rx, start_tx, try_read_one, process_message, check_transmit, notify, on_handshake_required,
    on_nonce_change, on_reply_message, on_error_message, on_auth_message, on_session_data, on_request, on_auth_session,
    reply_error in H.

(** All members that a step can read, after a step *)
Ltac eps := unfold on_response_timeout, on_retry_timeout, retry, started, asked, begin_transmit, start_timer, start_session_timer,
  activate, reset_state_on_close, tx_idle, tx_ready in *;
  cbn [ep_open ep_up ep_proc ep_active ep_pending ep_transmitting ep_remainder ep_payload ep_buffer ep_generation ep_state
       ep_ihs ep_required ep_timer ep_stale ep_session_timer ep_session_stale ep_busy
       set_open set_up set_proc set_active set_pending set_transmitting set_remainder set_payload set_buffer set_generation set_state
       set_ihs set_required set_timer set_stale set_session_timer set_session_stale set_busy fst snd app] in *.


Lemma transmit_cases C s sess inp sent sess' s' ev : transmit_session_auth C s sess inp = Ok (sent, sess', s', ev) ->
  (exists e rest, format_session_auth (c_env C) sess (in_now2 inp) (ep_remainder s) = Ok (inr e, rest, sess') /\
     sent = false /\ s' = s /\ ev = []) \/
  (exists frame rest, format_session_auth (c_env C) sess (in_now2 inp) (ep_remainder s) = Ok (inl frame, rest, sess') /\
     sent = in_started inp /\ s' = started (begin_transmit s rest) inp /\
     ev = [EvTx (TxAuth (taken (ep_remainder s) rest)) frame]).
Proof.
  unfold transmit_session_auth. intros H.
  destruct (format_session_auth (c_env C) sess (in_now2 inp) (ep_remainder s)) as [[[r rest] sess1]| |] eqn:F; cbn [obind] in H; try discriminate.
  destruct r as [frame|e]; inversion H; subst; clear H.
  - right. exists frame, rest. unfold begin_transmit. destruct (is_empty (ep_remainder s)); auto.
  - left. exists e, rest. auto.
Qed.

(** Case analysis of a step *)
Ltac transmits := repeat match goal with
  | H : transmit_session_auth _ _ _ _ = Ok _ |- _ =>
      apply transmit_cases in H; destruct H as [(? & ? & ? & ? & ? & ?)|(? & ? & ? & ? & ? & ?)]; subst
  end.
Ltac exec_cases H := unfold_exec H; ocases H; transmits; eps.
Ltac splits := repeat match goal with |- context [if ?b then _ else _] => destruct b eqn:?; eps end.

(** C26 *)
Lemma notifications_exec C s i inp s' pushed e : exec C s i inp = Ok (s', pushed, e) ->
  play notifications (ep_up s) e = Some (ep_up s').
Proof.
  intros H. destruct i; exec_cases H; splits; try reflexivity;
    cbn; repeat match goal with H : ep_up _ = _ |- _ => rewrite H; clear H end; try reflexivity; try congruence.
Qed.

Lemma inject_up s x : ep_up (fst (inject s x)) = ep_up s.
Proof.
  destruct x; cbn; auto.
  - destruct (ep_timer s) as [[|]|]; cbn; unfold on_response_timeout, on_retry_timeout; cbn; destruct (ep_state s); reflexivity.
  - destruct (nth_error (ep_stale s) n) as [[|]|]; cbn; unfold on_response_timeout, on_retry_timeout; cbn; destruct (ep_state s); reflexivity.
  - destruct (ep_session_timer s); reflexivity.
  - destruct (ep_session_stale s); reflexivity.
Qed.

Lemma notifications_run C ls s stk k t : run C (s, stk) ls = Ok (k, t) ->
  play notifications (ep_up s) t = Some (ep_up (fst k)).
Proof.
  intros H.
  destruct (simulate notifications (fun up k => up = ep_up (fst k)) (fun _ _ => True) C) with (ls := ls) (a := ep_up s) (k := (s, stk)) (k' := k) (t := t)
    as (a' & P & ->); auto using along_true.
  intros a k1 l k2 e -> _ Hs. destruct (step_inv _ _ _ _ _ Hs) as [[-> ->]|[(x & s1 & -> & -> & -> & ->)|(inp & s1 & i & rest & s2 & pushed & -> & -> & He & ->)]].
  - exists (ep_up (fst k1)). auto.
  - exists (ep_up s1). cbn [play fst]. rewrite inject_up. auto.
  - exists (ep_up s2). cbn [fst]. split; auto. eapply notifications_exec; eauto.
Qed.

(** ** Sessions inside a step *)
Lemma validate_auth_cases E s m now cap r s' st : validate_session_auth E s m now cap = Ok (r, s', st) ->
  (exists e, r = inr e /\ s' = s) \/ (exists p, r = inl p /\ validate_facts E equal_to_zero s m now cap p s').
Proof.
  intros H. unfold validate_session_auth in H. destruct (validate_spec _ _ _ _ _ _ _ _ _ H) as [(e & -> & -> & _)|(p & -> & F)]; eauto.
Qed.
Lemma validate_data_cases E s m now cap r s' st : validate_session_data E s m now cap = Ok (r, s', st) ->
  (exists e, r = inr e /\ s' = s /\ e <> e_empty_user_data) \/
  (r = inr e_empty_user_data /\ validate_facts E (verify_nonce (s_nonce_mode s)) s m now cap [] s') \/
  (exists b p, r = inl (b :: p) /\ validate_facts E (verify_nonce (s_nonce_mode s)) s m now cap (b :: p) s').
Proof.
  unfold validate_session_data. destruct (validate_with _ _ _ _ _ _) as [[[r0 s1] st0]| |] eqn:V; cbn [obind]; try discriminate.
  destruct (validate_spec _ _ _ _ _ _ _ _ _ V) as [(e & -> & -> & He)|(p & -> & F)]; intros H.
  - injection H as <- <- _. left. eauto.
  - destruct p as [|b p]; cbn [length Nat.eqb] in H; injection H as <- <- _; right; [left|right]; eauto.
Qed.

Lemma mode_read_authentic P mode key m cap p : mode_read P mode key m cap = Ok (inl p) -> authentic P mode key m p.
Proof.
  unfold mode_read. destruct (negb _); [discriminate|]. unfold aead_decrypt, authentic. destruct mode.
  - destruct (_ <? _)%N; [discriminate|]. destruct (secure_equals _ _) eqn:S; [|discriminate].
    intros H. injection H as <-. split; [reflexivity|]. apply secure_equals_spec in S. rewrite <- S. unfold trunc16, mac_input.
    rewrite metadata_bytes_wire. reflexivity.
  - destruct (_ || _); [discriminate|]. destruct (p_gcm_decrypt _ _ _ _ _ _) as [d|] eqn:D; [|discriminate].
    intros H. injection H as <-. rewrite metadata_bytes_wire in D. first [reflexivity | exact D].
Qed.

Lemma same_session_refl s : same_session s s. Proof. repeat split. Qed.
Lemma same_session_sym a b : same_session a b -> same_session b a.
Proof. intros (?&?&?&?&?). repeat split; congruence. Qed.
Lemma same_session_trans a b c : same_session a b -> same_session b c -> same_session a c.
Proof. intros (?&?&?&?&?) (?&?&?&?&?). repeat split; congruence. Qed.
Lemma same_set_rx s n : same_session s (set_rx_nonce s n). Proof. repeat split. Qed.
Lemma same_set_tx s n : same_session s (set_tx_nonce s n). Proof. repeat split. Qed.

Lemma format_no_check_session E s now clear r rest s' : format_no_nonce_check E s now clear = Ok (r, rest, s') ->
  (exists e, r = inr e /\ s' = s) \/ (exists f, r = inl f /\ s' = set_tx_nonce s (nonce_increment (s_tx_nonce s)) /\ s_valid s = true).
Proof.
  unfold format_no_nonce_check. destruct (s_valid s) eqn:V; cbn [negb]; [|intros H; injection H as <- _ <-; eauto].
  destruct (_ <? _)%Z; [intros H; injection H as <- _ <-; eauto|]. destruct (_ <? _)%Z; [intros H; injection H as <- _ <-; eauto|].
  destruct (_ <? _)%Z; [intros H; injection H as <- _ <-; eauto|].
  destruct (mode_write _ _ _ _ _ _) as [[[m|e] rs]| |]; cbn [obind]; try discriminate.
  - destruct (frame_write _ _); intros H; injection H as <- _ <-; eauto.
  - intros H; injection H as <- _ <-; eauto.
Qed.
Lemma format_auth_session E s now clear r rest s' : format_session_auth E s now clear = Ok (r, rest, s') ->
  (exists e, r = inr e /\ s' = s) \/ (exists f, r = inl f /\ s' = set_tx_nonce s (nonce_increment (s_tx_nonce s)) /\ s_valid s = true).
Proof.
  unfold format_session_auth. destruct (negb _); [intros H; injection H as <- _ <-; eauto|]. apply format_no_check_session.
Qed.
Lemma format_data_session E s now clear r rest s' : format_session_data E s now clear = Ok (r, rest, s') ->
  (exists e, r = inr e /\ s' = s) \/ (exists f, r = inl f /\ s' = set_tx_nonce s (nonce_increment (s_tx_nonce s)) /\ s_valid s = true).
Proof.
  unfold format_session_data. destruct (_ <=? _)%N; [intros H; injection H as <- _ <-; eauto|]. apply format_no_check_session.
Qed.

Lemma initiator_finish_session P h i l now salt ikm s ok i' s' : initiator_finish P h i l now salt ikm s = Ok (ok, i', s') ->
  ok = false /\ s' = s \/ ok = true /\ s_valid s' = true /\ s_rx_nonce s' = 0%N /\ s_tx_nonce s' = 0%N.
Proof.
  unfold initiator_finish. destruct (hkdf P salt ikm) as [k1 k2]. destruct (_ <? _)%Z; [intros H; injection H as <- _ <-; auto|].
  unfold initialize. destruct (negb _); intros H; injection H as <- _ <-; cbn; auto.
Qed.
Lemma initialize_session_cases P S h i msg bytes l now s ok i' s' : initialize_session P S h i msg bytes l now s = Ok (ok, i', s') ->
  ok = false /\ s' = s \/ ok = true /\ s_valid s' = true /\ s_rx_nonce s' = 0%N /\ s_tx_nonce s' = 0%N.
Proof.
  unfold initialize_session. intros H. destruct h;
    repeat match type of H with
    | initiator_finish _ _ _ _ _ _ _ _ = _ => apply initiator_finish_session in H; exact H
    | Ok (_, _, _) = Ok _ => injection H as <- _ <-; auto
    | UB = Ok _ => discriminate H
    | NoFuel = Ok _ => discriminate H
    | obind ?o _ = Ok _ => destruct o as [?| |]; cbn [obind] in H
    | (let (_, _) := ?x in _) = _ => destruct x
    | (if ?b then _ else _) = _ => destruct b
    | match ?x with _ => _ end = _ => destruct x
    end; discriminate.
Qed.

Lemma responder_finish_session P msg now salt ikm frame s r s' : responder_finish P msg now salt ikm frame s = Ok (r, s') ->
  (exists f, r = inl f) /\ (s' = s \/ s_valid s' = true /\ s_rx_nonce s' = 0%N /\ s_tx_nonce s' = 0%N).
Proof.
  unfold responder_finish. destruct (hkdf P salt ikm) as [k1 k2]. unfold initialize.
  destruct (negb _); intros H; injection H as <- <-; (split; [eauto|]); [left|right]; cbn; auto.
Qed.
Lemma process_cases E S h ans msg bytes now s r s' : process E S h ans msg bytes now s = Ok (r, s') ->
  (exists e, r = inr e /\ s' = s) \/
  (exists f, r = inl f /\ (s' = s \/ s_valid s' = true /\ s_rx_nonce s' = 0%N /\ s_tx_nonce s' = 0%N)).
Proof.
  unfold process. intros H. destruct h;
    repeat match type of H with
    | responder_finish _ _ _ _ _ _ _ = _ => apply responder_finish_session in H; destruct H as [[f ->] H]; right; exists f; auto
    | Ok (_, _) = Ok _ => injection H as <- <-; left; eauto
    | UB = Ok _ => discriminate H
    | NoFuel = Ok _ => discriminate H
    | obind ?o _ = Ok _ => destruct o as [?| |]; cbn [obind] in H
    | (let (_, _) := ?x in _) = _ => destruct x
    | (if ?b then _ else _) = _ => destruct b
    | match ?x with _ => _ end = _ => destruct x
    end; try discriminate.
Qed.

(** Replace the session computations of a step by what they do *)
Ltac sessions := repeat match goal with
  | H : validate_session_auth _ _ _ _ _ = Ok _ |- _ =>
      apply validate_auth_cases in H; destruct H as [(? & H & ?)|(? & H & ?)]; first [discriminate H|injection H as ?]; subst
  | H : validate_session_data _ _ _ _ _ = Ok _ |- _ =>
      apply validate_data_cases in H; destruct H as [(? & H & ? & ?)|[[H ?]|(? & ? & H & ?)]]; first [discriminate H|injection H as ?]; subst
  | H : format_session_auth _ _ _ _ = Ok _ |- _ =>
      apply format_auth_session in H; destruct H as [(? & H & ?)|(? & H & ? & ?)]; first [discriminate H|injection H as ?]; subst
  | H : format_session_data _ _ _ _ = Ok _ |- _ =>
      apply format_data_session in H; destruct H as [(? & H & ?)|(? & H & ? & ?)]; first [discriminate H|injection H as ?]; subst
  | H : initialize_session _ _ _ _ _ _ _ _ _ = Ok _ |- _ =>
      apply initialize_session_cases in H; destruct H as [(? & ?)|(? & ? & ? & ?)]; subst; cbn [negb] in *; try discriminate
  | H : process _ _ _ _ _ _ _ _ = Ok _ |- _ =>
      apply process_cases in H; destruct H as [(? & H & ?)|(? & H & [?|(? & ? & ?)])]; first [discriminate H|injection H as ?]; subst
  end.
