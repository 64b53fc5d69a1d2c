(** * RecoverFacts: what a closed connection leaves behind *)
From Verif Require Import Base BaseFacts Codec CodecSpec CodecFacts Link LinkLayer Primitives Session SessionSpec SessionFacts SessionMain
  Handshake HandshakeFacts Endpoint EndpointSpec EndpointFacts EndpointMain EndpointRx EndpointTx EndpointClose EndpointTimer Line LineSpec LineFacts RecoverSpec.

(** The responder never remembers that a handshake is required *)
Lemma required_responder C h s i inp s' pushed e : c_role C = Responder h -> exec C s i inp = Ok (s', pushed, e) -> ep_required s = false -> ep_required s' = false.
Proof. intros HC H R. destruct i as [[]| | | | | | | | | | | | |]; exec_cases H; unfold reset_state_on_close in *; rewrite ?HC in *; splits; auto; try discriminate; try congruence. Qed.

Lemma fair_reader k l : fair k l -> reader_ok k l.
Proof. intros [[H1 H2] H3]. split; [exact H1|]. destruct l; cbn in *; auto. intros. apply H3. assumption. Qed.
Lemma inject_required s x : ep_required (fst (inject s x)) = ep_required s.
Proof.
  destruct x; cbn; auto.
  - destruct (ep_timer s) as [[|]|]; cbn; unfold on_response_timeout, on_retry_timeout, retry, start_timer; cbn; destruct (ep_state s); auto.
  - destruct (nth_error (ep_stale s) n) as [[|]|]; cbn; unfold on_response_timeout, on_retry_timeout, retry, start_timer; cbn; destruct (ep_state s); auto.
  - destruct (ep_session_timer s); auto.
  - destruct (ep_session_stale s); auto.
Qed.
Lemma required_run C h ls k t : c_role C = Responder h -> run C (new_endpoint C, []) ls = Ok (k, t) -> ep_required (fst k) = false.
Proof.
  intros HC H. apply (invariant (fun k => ep_required (fst k) = false) (fun _ _ => True) C) with (ls := ls) (k := (new_endpoint C, @nil instr)) (t := t); auto using along_true.
  intros k1 l k2 e HI _ Hs. destruct (step_inv _ _ _ _ _ Hs) as [[-> ->]|[(x & s1 & -> & -> & -> & ->)|(inp & s1 & i & rest & s2 & pushed & -> & -> & He & ->)]].
  - exact HI.
  - rewrite inject_required. exact HI.
  - cbn [fst] in *. eapply required_responder; eauto.
Qed.

(** The flag of the layer itself is cleared when the connection is closed *)
Lemma proc_exec C s i inp s' pushed e : c_via_stack C = false -> exec C s i inp = Ok (s', pushed, e) ->
  ep_proc s' = ep_proc s \/ ep_proc s' = false \/ (i = ICall StartRx /\ ep_payload s <> None).
Proof.
  intros HV H. destruct i as [[]| | | | | | | | | | | | |]; destruct (ep_proc s) eqn:Ep; exec_cases H; rewrite ?HV; splits; auto.
  all: rewrite Ep in *; eps; try discriminate; right; right; split; [reflexivity|]; congruence.
Qed.
Definition unread (k : config) : Prop := ep_open (fst k) = false -> ep_proc (fst k) = false \/ existsb is_tail (snd k) = true.
Lemma proc_run C ls k t : c_via_stack C = false -> along reader_ok C (new_endpoint C, []) ls -> run C (new_endpoint C, []) ls = Ok (k, t) -> unread k.
Proof.
  intros HV HQ H. cut ((exists w, winv w k) /\ unread k); [tauto|].
  apply (invariant (fun k => (exists w, winv w k) /\ unread k) reader_ok C) with (ls := ls) (k := (new_endpoint C, @nil instr)) (t := t); auto.
  2: { split; [exists true; apply winv_new|intros _; left; reflexivity]. }
  intros k1 l k2 e [[w W] HI] Hq Hs. split; [destruct (winv_step _ _ _ _ _ _ W Hq Hs) as (w' & _ & W'); eauto|].
  destruct (step_inv _ _ _ _ _ Hs) as [[-> ->]|[(x & s1 & -> & -> & -> & ->)|(inp & s1 & i & rest & s2 & pushed & -> & -> & He & ->)]].
  - exact HI.
  - unfold unread in *. destruct (inject_rx s1 x) as (_ & _ & _ & E4 & E5). rewrite E4, E5. cbn [fst snd] in *. intros O. left. destruct (HI O) as [X|X]; [exact X|discriminate].
  - unfold unread in *. cbn [fst snd existsb] in *. intros O.
    destruct (open_exec _ _ _ _ _ _ _ He) as [Eo|[->| ->]].
    + rewrite O in Eo. symmetry in Eo. specialize (HI Eo). destruct (w_closed _ _ W Eo) as [-> _]. destruct (w_wiped _ _ W eq_refl) as (_ & Ep & _). cbn [fst] in Ep.
      destruct i as [| | | | | | | | | | | | |]; try (destruct (proc_exec _ _ _ _ _ _ _ HV He) as [X|[X|(X & Y)]]; [rewrite X, existsb_app; destruct HI as [HI|HI]; [left; exact HI|right; cbn in HI; rewrite HI; apply Bool.orb_true_r]|left; exact X|congruence]).
      cbn in He. rewrite HV in He. injection He as <- <- <-. left. reflexivity.
    + cbn in He. destruct (ep_open s1) eqn:Eo; injection He as <- <- <-; cbn in O; congruence.
    + cbn in He. destruct (ep_open s1) eqn:Eo; injection He as <- <- <-.
      * right. reflexivity.
      * destruct (HI eq_refl) as [X|X]; [left; exact X|right; exact X].
Qed.

Lemma disconnected_openable C s : disconnected C s -> drained C s -> openable s.
Proof.
  intros ((ls & t & A & R) & O) V.
  pose proof (along_impl _ _ C fair_reader _ _ A) as A'.
  destruct (wiped_run _ _ _ _ A' R) as (w & _ & W). destruct (w_closed _ _ W O) as [-> _]. destruct (w_wiped _ _ W eq_refl) as (W1 & W2 & _ & W3 & W4). cbn [fst snd] in *.
  destruct W3 as [W3|W3]; [|discriminate]. destruct W4 as [[W4 W5]|W4]; [|discriminate].
  constructor; auto.
  - destruct (c_via_stack C) eqn:EV; [exact (V EV)|]. destruct (proc_run _ _ _ _ EV A' R O) as [X|X]; [exact X|discriminate].
  - destruct (c_role C) eqn:Er.
    + pose proof (hinv_run _ _ _ _ _ Er A R) as Hh. apply (h_closed _ Hh O).
    + exact (required_run _ _ _ _ _ Er R).
Qed.
Lemma disconnected_idle C c s : c_role C = Initiator c -> disconnected C s -> ep_state s = Idle.
Proof. intros Er ((ls & t & A & R) & O). pose proof (hinv_run _ _ _ _ _ Er A R) as Hh. apply (h_closed _ Hh O). Qed.

Lemma recovered L c h : compatible L c h -> forall sa sb x, disconnected (n_ca L) sa -> disconnected (n_cb L) sb -> drained (n_ca L) sa -> drained (n_cb L) sb ->
  reachable_from L (start_line sa sb) x -> invariant_of L c h x.
Proof.
  intros OK sa sb x HA HB DA DB R. apply (line_invariant_start L c h OK sa sb); [exact (disconnected_openable _ _ HA DA)| |exact (disconnected_openable _ _ HB DB)|exact R].
  exact (disconnected_idle _ _ _ (proj1 (co_roles _ _ _ OK)) HA).
Qed.
