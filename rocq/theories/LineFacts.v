(** * LineFacts: two endpoints over a reliable line *)
From Verif Require Import Base BaseFacts Codec CodecSpec CodecFacts Link LinkLayer Primitives Session SessionSpec SessionFacts SessionMain
  Handshake HandshakeSpec HandshakeFacts HandshakeMain HandshakePair Endpoint EndpointSpec EndpointFacts EndpointMain EndpointRx EndpointTx EndpointNonce PairSpec Line LineSpec LineMsgs LineHandshake LineLocal LineSide LineCost.

Definition streams (E : senv) (sess : session) (off : Z) (l : list (Z * list N)) (cs : list (list N)) : Prop :=
  length l = length cs /\ forall k x ck, nth_error l k = Some x -> nth_error cs k = Some ck -> carried E sess off k x ck /\ (k = 0 -> ck = []).

Lemma streams_snoc E sess off l cs x ck : streams E sess off l cs -> carried E sess off (length l) x ck -> (l = [] -> ck = []) -> streams E sess off (l ++ [x]) (cs ++ [ck]).
Proof.
  intros [H1 H2] Hc H0. split; [rewrite !app_length; cbn; lia|]. intros k y c' Hy Hc'. destruct (Nat.lt_ge_cases k (length l)) as [Hk|Hk].
  - rewrite nth_error_app1 in Hy by lia. rewrite nth_error_app1 in Hc' by lia. eauto.
  - assert (k = length l). { assert (k < length (l ++ [x])) by (apply nth_error_Some; congruence). rewrite app_length in *; cbn in *; lia. } subst k.
    rewrite nth_error_app2, Nat.sub_diag in Hy by lia. rewrite nth_error_app2, H1, Nat.sub_diag in Hc' by lia. injection Hy as <-. injection Hc' as <-. split; [exact Hc|]. intros Z. apply H0. destruct l; [reflexivity|discriminate].
Qed.
Lemma streams_nonempty E sess off l cs x : streams E sess off l cs -> In x l -> snd x <> [].
Proof.
  intros [H1 H2] Hx. apply In_nth_error in Hx as [k Hk]. destruct (nth_error cs k) as [ck|] eqn:Ec; [|apply nth_error_None in Ec; assert (k < length l) by (apply nth_error_Some; congruence); lia].
  destruct (H2 _ _ _ Hk Ec) as [(m & M1 & _) _]. rewrite M1. discriminate.
Qed.
Lemma streams_at E sess off l cs k x : streams E sess off l cs -> nth_error l k = Some x -> exists ck, nth_error cs k = Some ck /\ carried E sess off k x ck /\ (k = 0 -> ck = []).
Proof.
  intros [H1 H2] Hk. destruct (nth_error cs k) as [ck|] eqn:Ec; [|apply nth_error_None in Ec; assert (k < length l) by (apply nth_error_Some; congruence); lia]. exists ck. destruct (H2 _ _ _ Hk Ec). auto.
Qed.

Lemma sent_one kind f m ms : Forall2 (fun f m => f = frame_of kind m) [f] ms -> f = frame_of kind m -> ms = [m].
Proof. intros H E. inversion H as [|? y ? l' Hy Hl]; subst. inversion Hl; subst. f_equal. apply frame_of_inj in Hy. auto. Qed.
Lemma sent_none kind ms : Forall2 (fun f m => f = frame_of kind m) [] ms -> ms = [].
Proof. intros H. inversion H. reflexivity. Qed.

Section line.
Variables (L : net) (c : iconf) (h : responder_handshake).
Hypothesis OK : compatible L c h.
Notation request := (request L c).
Notation reply := (reply L h).
Notation is_si := (is_si L c h).
Notation is_sr := (is_sr L c h).
Notation EA := (c_env (n_ca L)).
Notation EB := (c_env (n_cb L)).

Inductive pa (s : endpoint) (k : list instr) (out : list (Z * list N)) (p : nat) (cs : list (list N)) : bool -> Prop :=
| pa0 : out = [] -> p = 0 -> cs = [] -> ep_state s = Idle -> s_valid (ep_active s) = false -> ep_busy s = false ->
    (ep_open s = true -> k = [IHandshakeRequired]) -> pa s k out p cs false
| pa1 i0 t0 : out = [(t0, request)] -> p = 0 -> cs = [] -> ep_state s = WaitForBeginReply -> ep_ihs s = finalize_request_tx (prim L) request (t0 + n_oa L) (snd (begun L c i0)) ->
    s_valid (ep_active s) = false -> ep_open s = true -> pa s k out p cs false
| pa2 t0 t2 x si : out = [(t0, request); (t2, x)] -> p = 1 -> cs = [[]] -> ep_state s = WaitForAuthReply -> is_si (t0 + n_oa L) (t2 + n_oa L) si -> streams EA si (n_oa L) [(t2, x)] cs ->
    ep_pending s = at_nonces si 1 0 -> s_valid (ep_active s) = false -> ep_open s = true -> pa s k out p cs false
| pa3 t0 t2 x tail si : out = (t0, request) :: (t2, x) :: tail -> 2 <= p -> is_si (t0 + n_oa L) (t2 + n_oa L) si -> streams EA si (n_oa L) ((t2, x) :: tail) cs ->
    ep_active s = at_nonces si (N.of_nat (S (length tail))) (N.of_nat (p - 2)) -> pa s k out p cs true.

Inductive pb (s : endpoint) (out : list (Z * list N)) (p : nat) (cs : list (list N)) : bool -> Prop :=
| pb0 : out = [] -> p = 0 -> cs = [] -> s_valid (ep_active s) = false -> pb s out p cs false
| pb1 t1 sr : out = [(t1, reply)] -> p = 1 -> cs = [] -> is_sr (t1 + n_ob L) sr -> ep_pending s = sr -> s_valid (ep_active s) = false -> pb s out p cs false
| pb2 t1 y tail sr : out = (t1, reply) :: y :: tail -> 2 <= p -> is_sr (t1 + n_ob L) sr -> streams EB sr (n_ob L) (y :: tail) cs ->
    ep_active s = at_nonces sr (N.of_nat (S (length tail))) (N.of_nat (p - 2)) -> pb s out p cs true.

Record timing (now : Z) (outA outB : list (Z * list N)) : Prop := {
  tm_a : Forall (fun x => 0 <= fst x <= now)%Z outA;
  tm_b : Forall (fun x => 0 <= fst x <= now)%Z outB;
  tm_ab : forall t1 m r, outB = (t1, m) :: r -> exists t0 m' r', outA = (t0, m') :: r' /\ (t0 <= t1 <= t0 + n_delay L)%Z;
  tm_ba : forall t0 m x r, outA = (t0, m) :: x :: r -> exists t1 m' r', outB = (t1, m') :: r' /\ (t1 <= fst x <= t1 + n_delay L)%Z }.

Notation core d := (fst (d_conf d)).
Notation stack d := (snd (d_conf d)).
Definition inv_with (ea eb : bool) (now : Z) (a b : side) : Prop :=
  side_ok ea a (d_out b) (chunks (d_trace b)) /\ side_ok eb b (d_out a) (chunks (d_trace a)) /\
  pa (core a) (stack a) (d_out a) (processed a) (chunks (d_trace a)) ea /\ pb (core b) (d_out b) (processed b) (chunks (d_trace b)) eb /\
  timing now (d_out a) (d_out b) /\ (0 <= now)%Z /\ length (d_out a) <= n_limit L /\ length (d_out b) <= n_limit L.

Lemma pa_cs s k out p cs e : pa s k out p cs e -> length cs = pred (length out).
Proof. intros [-> _ -> ? ?|? ? -> _ -> ? ?|? ? ? ? -> _ -> ? ?|? ? ? ? ? -> _ ? [H _]]; try reflexivity. cbn in *. lia. Qed.
Lemma pb_cs s out p cs e : pb s out p cs e -> length cs = pred (length out).
Proof. intros [-> _ -> ?|? ? -> _ -> ? ?|? ? ? ? -> _ ? [H _]]; try reflexivity. cbn in *. lia. Qed.
Lemma request_cons : request <> [].
Proof. destruct (begun_some _ _ _ OK new_ihs) as (me & md & _ & E & _). rewrite E. discriminate. Qed.
Lemma pa_nonempty s k out p cs e x : pa s k out p cs e -> In x out -> snd x <> [].
Proof.
  pose proof request_cons as R. intros [-> _ _ ? ?|? ? -> _ _ ? ?|? ? ? ? -> _ _ ? ? S ?|? ? ? ? ? -> _ ? S]; cbn [In]; intros Hin.
  - destruct Hin.
  - destruct Hin as [<-|[]]. exact R.
  - destruct Hin as [<-|Hin]; [exact R|]. eapply streams_nonempty; eauto.
  - destruct Hin as [<-|Hin]; [exact R|]. eapply streams_nonempty; eauto.
Qed.
Lemma pb_nonempty s out p cs e x : pb s out p cs e -> In x out -> snd x <> [].
Proof.
  assert (R : reply <> []) by discriminate. intros [-> _ _ ?|? ? -> _ _ ? ?|? ? ? ? -> _ ? S]; cbn [In]; intros Hin.
  - destruct Hin.
  - destruct Hin as [<-|[]]. exact R.
  - destruct Hin as [<-|Hin]; [exact R|]. eapply streams_nonempty; eauto.
Qed.
Lemma pa_invalid s k out p cs : pa s k out p cs false -> s_valid (ep_active s) = false.
Proof. intros H. inversion H; assumption. Qed.
Lemma pb_invalid s out p cs : pb s out p cs false -> s_valid (ep_active s) = false.
Proof. intros H. inversion H; assumption. Qed.

(** A phase is kept by what does not touch the session *)
Lemma pa_core s s' k k' out p cs e : pa s k out p cs e -> same_core e s s' -> (ep_open s' = ep_open s) -> (ep_busy s = false -> ep_busy s' = false) -> (e = false -> ep_state s = Idle -> ep_open s = false) -> pa s' k' out p cs e.
Proof.
  intros H (C1 & C2 & C3 & C4) Ho Hb Hk. destruct H.
  - specialize (C4 eq_refl). apply pa0; try congruence; auto. intros X. rewrite Ho, (Hk eq_refl H2) in X. discriminate.
  - specialize (C4 eq_refl). apply (pa1 _ _ _ _ _ i0 t0); congruence.
  - specialize (C4 eq_refl). eapply pa2; eauto; congruence.
  - eapply pa3; eauto; congruence.
Qed.
Lemma pb_core s s' out p cs e : pb s out p cs e -> same_core e s s' -> pb s' out p cs e.
Proof.
  intros H (C1 & C2 & C3 & C4). destruct H.
  - apply pb0; congruence.
  - eapply pb1; eauto; congruence.
  - eapply pb2; eauto; congruence.
Qed.

Lemma timing_later now now' a b : timing now a b -> (now <= now')%Z -> timing now' a b.
Proof. intros [] H. constructor; auto; eapply Forall_impl; eauto; cbn; intros; lia. Qed.

(** ** The initiator's steps *)
Definition next_a (calm : Prop) (now' : Z) (a a' b : side) : Prop := exists e more mcs,
  (calm -> cost (d_out b) a' + 22 * length more < cost (d_out b) a) /\
  side_ok e a' (d_out b) (chunks (d_trace b)) /\ pa (core a') (stack a') (d_out a') (processed a') (chunks (d_trace a')) e /\
  d_out a' = d_out a ++ more /\ chunks (d_trace a') = chunks (d_trace a) ++ mcs /\ timing now' (d_out a') (d_out b) /\ length (d_out a') <= n_limit L.

Lemma chunks_app t e : chunks (t ++ e) = chunks t ++ chunks e.
Proof. apply traces_app. Qed.

Lemma timing_send_a now now' a b t x : timing now a b -> (now <= t <= now')%Z -> (0 <= now)%Z ->
  (forall t0 m, a = [(t0, m)] -> exists t1 m' r', b = (t1, m') :: r' /\ (t1 <= t <= t1 + n_delay L)%Z) -> timing now' (a ++ [(t, x)]) b.
Proof.
  intros [T1 T2 T3 T4] H H0 Hba. constructor.
  - apply Forall_app. split; [eapply Forall_impl; [|exact T1]; cbn; intros; lia|]. constructor; [cbn; lia|constructor].
  - eapply Forall_impl; [|exact T2]. cbn. intros. lia.
  - intros t1 m r E. destruct (T3 _ _ _ E) as (t0 & m' & r' & -> & Q). cbn [app]. eauto 6.
  - intros t0 m y r E. destruct a as [|[u v] [|z r0]]; cbn [app] in E.
    + discriminate.
    + injection E as -> -> <- <-. destruct (Hba _ _ eq_refl) as (t1 & m' & r' & -> & Q). eauto 6.
    + injection E as -> -> <- <-. eapply T4. reflexivity.
Qed.
Lemma timing_send_b now now' a b t x : timing now a b -> (now <= t <= now')%Z -> (0 <= now)%Z ->
  (b = [] -> exists t0 m' r', a = (t0, m') :: r' /\ (t0 <= t <= t0 + n_delay L)%Z) -> timing now' a (b ++ [(t, x)]).
Proof.
  intros [T1 T2 T3 T4] H H0 Hab. constructor.
  - eapply Forall_impl; [|exact T1]. cbn. intros. lia.
  - apply Forall_app. split; [eapply Forall_impl; [|exact T2]; cbn; intros; lia|]. constructor; [cbn; lia|constructor].
  - intros t1 m r E. destruct b as [|[u v] r0]; cbn [app] in E.
    + injection E as -> -> <-. destruct (Hab eq_refl) as (t0 & m' & r' & -> & Q). eauto 6.
    + injection E as -> -> <-. eapply T3. reflexivity.
  - intros t0 m y r E. destruct (T4 _ _ _ _ E) as (t1 & m' & r' & -> & Q). cbn [app]. eauto 6.
Qed.

Section a_steps.
Variables (a b : side) (now : Z) (eb : bool).
Notation ob := (d_out b).
Notation cb := (chunks (d_trace b)).
Hypothesis TM : timing now (d_out a) ob.
Hypothesis NW : (0 <= now)%Z.
Hypothesis LA : length (d_out a) <= n_limit L.
Hypothesis LB : length ob <= n_limit L.
Hypothesis PB : pb (core b) ob (processed b) cb eb.
Variables (s : endpoint) (rest : list instr) (inp : input) (t1 t2 : Z) (s' : endpoint) (pushed : list instr) (ev : list event) (ms : list (list N)).
Hypothesis TT : (now <= t1 <= t2)%Z.
Hypothesis TE : (t2 <= n_end L)%Z.
Hypothesis FR : Forall2 (fun f m => f = frame_of (e_kind EA) m) (frames ev) ms.
Hypothesis LM : length (d_out a) + length ms <= n_limit L.

(** The request *)
Lemma a_request : side_ok false a ob cb -> pa (core a) (stack a) (d_out a) (processed a) (chunks (d_trace a)) false ->
  d_conf a = (s, IHandshakeRequired :: rest) -> ep_state s = Idle -> ep_open s = true -> answers_step L (n_oa L) ob a IHandshakeRequired inp t1 t2 -> exec (n_ca L) s IHandshakeRequired inp = Ok (s', pushed, ev) ->
  next_a (calm_calls inp) t2 a (stepped a s' (pushed ++ rest) ev (map (pair t1) ms)) b.
Proof.
  intros HS HP Hd Hs Hop [A1 A2 A3 [A4 A5] [A6 A6'] [A7 A8] A9] HX. rewrite Hd in *. cbn [fst snd] in *.
  assert (P0 : d_out a = [] /\ processed a = 0 /\ chunks (d_trace a) = [] /\ s_valid (ep_active s) = false /\ ep_busy s = false).
  { inversion HP; try congruence. auto 10. }
  destruct P0 as (P1 & P2 & P3 & P6 & P7). rewrite P7 in *. cbn [negb] in A1. specialize (A2 eq_refl).
  destruct (step_request _ _ _ OK _ _ _ _ _ HX Hs A1 A2 A6') as (-> & -> & Es'). cbn [app frames flat_map] in FR.
  pose proof (sent_one _ _ _ _ FR eq_refl) as ->. clear HX.
  destruct HS as [HL HW HT HH HAc HO]. rewrite Hd in *. cbn [fst snd] in *.
  assert (Hpl : ep_payload s = None \/ ep_payload s <> None) by (destruct (ep_payload s); [right; congruence|auto]).
  set (ev := [EvQuery true; EvTx TxRequest (frame_of (e_kind EA) request)]) in *. 
  assert (HL' : local false s' ([] ++ rest) (d_trace a ++ ev)).
  { pose proof (lc_up _ _ _ _ HL) as Hu. eapply local_handshake; eauto; try (rewrite Es'; reflexivity); try discriminate; try reflexivity.
    - rewrite Es'. exact (lc_req _ _ _ _ HL).
    - intros _. rewrite Es'. eps. rewrite A2. reflexivity.
    - intros _. rewrite Es'. split; reflexivity.
    - unfold ev. cbn. intuition discriminate. }
  assert (HW' : wake (waiting ob a <> []) (d_owed a) s' ([] ++ rest)).
  { subst s'. intros W. eps. rewrite Hop. rewrite A2. cbn [orb]. auto. }
  destruct (side_send false a s IHandshakeRequired rest ob cb s' [] ev (map (pair t1) [request])) as [S1 S2]; auto; try discriminate; try reflexivity.
  { constructor; rewrite ?Hd; auto. }
  exists false, (map (pair t1) [request]), []. split; [intros _; eapply cost_step; [exact Hd|unfold ev; cbn; lia|unfold core_cost, held_cost; rewrite Es', P1; eps; rewrite A2, P7; cbn [wsum weight head_cost takes flat_map length app map orb ev]; lia]|]. split; [exact S1|]. split.
  - rewrite S2, P2. cbn [stepped d_conf fst snd d_out d_trace]. rewrite P1, chunks_app, P3. unfold ev. cbn [chunks flat_map app map].
    rewrite Es'. apply (pa1 _ _ _ _ _ (ep_ihs s) t1); eps; auto. rewrite A7. reflexivity.
  - cbn [stepped d_conf fst snd d_out d_trace]. rewrite chunks_app. unfold ev. cbn [chunks flat_map]. split; [reflexivity|]. split; [reflexivity|].
    rewrite P1 in *. split; [|cbn in *; lia]. apply (timing_send_a now t2 [] ob t1); auto. intros; discriminate.
Qed.

(** A message arrives *)
Lemma a_process ea m : side_ok ea a ob cb -> pa (core a) (stack a) (d_out a) (processed a) (chunks (d_trace a)) ea ->
  d_conf a = (s, IProcess m :: rest) -> answers_step L (n_oa L) ob a (IProcess m) inp t1 t2 -> exec (n_ca L) s (IProcess m) inp = Ok (s', pushed, ev) ->
  next_a (calm_calls inp) t2 a (stepped a s' (pushed ++ rest) ev (map (pair t1) ms)) b.
Proof.
  intros HS HP Hd [A1 A2 A3 [A4 A5] [A6 A6'] [A7 A8] A9] HX. pose proof HS as [HL HW HT HH HAc HO]. rewrite Hd in A1, A2, A3, HL, HW, HH, HO. cbn [fst snd] in A1, A2, A3, HL, HW, HH, HO.
  destruct (HH m rest eq_refl) as (Hpos & x & Hx & Hm). specialize (A9 m eq_refl).
  assert (Hts : taken_sent ob a = fst x) by (unfold taken_sent; rewrite (nth_error_nth _ _ _ Hx); reflexivity). rewrite Hts in A9.
  assert (Hproc : processed a = pred (d_taken a)) by (unfold processed; rewrite Hd; cbn [snd at_head]; lia).
  assert (Hst : ep_payload s = None /\ ep_busy s = false /\ ep_open s = true).
  { destruct (lc_stack _ _ _ _ HL) as [X|[(m0 & r & X & _ & X1)|[[X _]|[[X _]|[[X _]|[X _]]]]]]; try discriminate; [inversion X; contradiction|exact X1]. }
  destruct Hst as (Hpl & Hbu & Hop). rewrite Hbu in *. specialize (A2 eq_refl). destruct TM as [TMa TMb TMab TMba].
  rewrite <- Hproc in Hx.
  assert (Hlim : d_out a <> [] -> 0 < n_limit L) by (intros X; destruct (d_out a); [congruence|cbn in LA; lia]).
  assert (Hxt : (0 <= fst x <= now)%Z). { rewrite Forall_forall in TMb. apply TMb. eapply nth_error_In; eauto. }
  rewrite Hd in HP. cbn [fst snd] in HP. inversion HP as [E1 E2 E3 E4 E7 E8 E9|i0 t0 E1 E2 E3 E4 E5 E7 E8|t0 u2 y si E1 E2 E3 E4 E5 E6 E7 E8 E9|t0 u2 y tail si E1 E2 E3 E4 E5]; subst ea; try (assert (Hl0 : 0 < n_limit L) by (apply Hlim; rewrite E1; discriminate)).
  - (* no message can be here *) exfalso. destruct ob as [|[u v] r] eqn:Eb; [destruct (processed a); discriminate|]. destruct (TMab _ _ _ eq_refl) as (? & ? & ? & X & _). congruence.
  - (* the reply *) rewrite E2 in Hx. destruct ob as [|[u v] r] eqn:Eb; [discriminate|]. cbn in Hx. injection Hx as <-. cbn [fst snd] in *. subst v.
    assert (m = reply) as -> by (inversion PB; congruence).
    rewrite E1 in TMab, TMba, TMa. destruct (TMab _ _ _ eq_refl) as (t0' & m' & r' & X & Q). injection X as <- <- <-.
    pose proof (lc_up _ _ _ _ HL) as Hu. destruct (lc_down _ _ _ _ HL Hu) as [R1 R2].
    pose proof (Forall_inv TMa) as Q0. cbn [fst] in Q0.
    destruct (step_auth _ _ _ OK _ _ _ _ _ i0 (t0 + n_oa L) t1 HX E4 E5 R1 A2) as (si & y & i2 & k & Hsi & Hc & -> & Eev & Es' & Ek); try lia; [].
    subst k. rewrite Eev in FR. cbn [frames flat_map app] in FR. pose proof (sent_one _ _ _ _ FR eq_refl) as ->.
    assert (HL' : local false s' ([] ++ rest) (d_trace a ++ ev)).
    { rewrite Eev. eapply local_handshake; eauto; try (rewrite Es'; reflexivity); try discriminate; try reflexivity.
      - rewrite Es'. exact (lc_req _ _ _ _ HL).
      - rewrite Hbu. discriminate.
      - rewrite Hpl. congruence.
      - cbn. intuition discriminate. }
    destruct (side_process false false a s reply rest ((u, reply) :: r) cb s' [] ev (map (pair t1) [y])) as [S1 S2]; auto; try (rewrite Eev; reflexivity); try discriminate.
    { intros W. rewrite Es'. eps. rewrite Hop, A2. cbn [orb]. auto. }
    { left. rewrite Eev. auto. }
    exists false, (map (pair t1) [y]), [[]]. rewrite Eb. split; [intros _; eapply cost_step; [exact Hd|rewrite Eev; cbn; lia|unfold core_cost, held_cost; rewrite Es', Eev, E1; eps; rewrite ?A2, ?Hbu, ?Hop, ?Hpl; cbn [wsum weight head_cost takes flat_map length app map orb]; lia]|]. split; [exact S1|]. split.
    + rewrite S2, E2. cbn [stepped d_conf fst snd d_out d_trace]. rewrite E1, chunks_app, E3. rewrite Eev. cbn [chunks flat_map app map].
      rewrite Es'. rewrite A7 in Hsi. apply (pa2 _ _ _ _ _ t0 t1 y si); eps; auto.
      split; [reflexivity|]. intros [|k] z ck Hz Hck; cbn in Hz, Hck; [|destruct k; discriminate]. injection Hz as <-. injection Hck as <-. auto.
    + cbn [stepped d_conf fst snd d_out d_trace]. rewrite chunks_app, Eev. cbn [chunks flat_map]. split; [reflexivity|]. split; [reflexivity|].
      split; [|rewrite app_length; cbn in *; lia]. eapply (timing_send_a now t2); try lia. { constructor; rewrite ?E1; auto. }
      intros t0' m' X. exists u, reply, r. split; [reflexivity|]. lia.
  - (* the authentication of the responder *) rewrite E2 in Hx. inversion PB as [B1 B2 B3 B5|tr sr B1 B2 B3 B4 B5 B6|tr z tail sr B1 B2 B3 B4 B5]; [rewrite B1 in Hx; discriminate|rewrite B1 in Hx; discriminate|].
    rewrite B1 in Hx. cbn in Hx. injection Hx as <-. destruct (streams_at _ _ _ _ _ 0 _ B4 eq_refl) as (ck & C1 & C2 & C3). specialize (C3 eq_refl). subst ck.
    rewrite E1 in TMab, TMba, TMa. destruct (TMab _ _ _ B1) as (t0' & m' & r' & X & Q). injection X as <- <- <-.
    pose proof (lc_up _ _ _ _ HL) as Hu. pose proof (Forall_inv TMa) as Q0. cbn [fst] in Q0. pose proof (Forall_inv (Forall_inv_tail TMa)) as Q1. cbn [fst] in Q1. subst m.
    destruct (step_open_a _ _ _ OK _ _ _ _ _ t0 tr u2 t1 si sr z HX E5 B3) as (msg & -> & Eev & Es'); auto; try lia; [].
    rewrite Eev in FR. cbn [frames flat_map app] in FR. pose proof (sent_none _ _ FR) as ->.
    assert (HL' : local true s' ([IUpOpen; IAuthPayload None; ISetState Idle] ++ rest) (d_trace a ++ ev)).
    { rewrite Eev. eapply local_handshake; eauto; try (rewrite Es'; reflexivity); try discriminate; try reflexivity.
      - rewrite Hbu. discriminate.
      - rewrite Hpl. congruence.
      - repeat constructor.
      - cbn. auto.
      - cbn. intuition discriminate. }
    destruct (side_process false true a s (snd z) rest ob cb s' [IUpOpen; IAuthPayload None; ISetState Idle] ev []) as [S1 S2]; auto; try (rewrite Eev; reflexivity).
    { intros W. rewrite Es'. eps. specialize (HW W). rewrite Hop in *. destruct HW as [?|[?|[?|[[?|?]|[?|?]]]]]; auto; try congruence; try discriminate.
      - right; right; right; left. cbn. auto.
      - right; right; right; right. cbn. auto. }
    { repeat constructor. }
    { intros _. rewrite Es'. exact Hop. }
    { right. exists []. rewrite Eev, E2. split; [reflexivity|]. split; [lia|exact C1]. }
    cbn [map]. exists true, [], []. split; [intros _; eapply cost_step; [exact Hd|rewrite Eev; cbn; lia|unfold core_cost, held_cost; rewrite Es', Eev; eps; rewrite ?A2, ?Hbu, ?Hop, ?Hpl; cbn [wsum weight head_cost takes flat_map length app map orb]; lia]|]. split; [exact S1|]. split.
    + rewrite S2, E2. cbn [stepped d_conf fst snd d_out d_trace map]. rewrite E1, chunks_app, Eev. cbn [chunks flat_map app]. rewrite app_nil_r.
      rewrite Es'. eapply (pa3 _ _ _ _ _ t0 u2 y [] si); auto; eps; rewrite ?E7; reflexivity.
    + cbn [stepped d_conf fst snd d_out d_trace map]. rewrite chunks_app, Eev. cbn [chunks flat_map]. rewrite !app_nil_r. split; [reflexivity|]. split; [reflexivity|].
      split; [|exact LA]. apply (timing_later now); [constructor; rewrite ?E1; auto|lia].
  - (* data *) inversion PB as [B1 B2 B3 B5|tr sr B1 B2 B3 B4 B5 B6|tr z tailb sr B1 B2 B3 B4 B5].
    { rewrite B1 in Hx. destruct (processed a); discriminate. }
    { rewrite B1 in Hx. destruct (processed a) as [|[|?]]; try lia. cbn in Hx. destruct n; discriminate. }
    rewrite B1 in Hx. destruct (processed a) as [|[|n]] eqn:En; try lia. change (nth_error (z :: tailb) (S n) = Some x) in Hx. destruct (streams_at _ _ _ _ _ _ _ B4 Hx) as (ck & C1 & C2 & _).
    rewrite E1 in TMab, TMba, TMa. destruct (TMab _ _ _ B1) as (t0' & m' & r' & X & Q). injection X as <- <- <-.
    pose proof (Forall_inv TMa) as Q0. cbn [fst] in Q0. pose proof (Forall_inv (Forall_inv_tail TMa)) as Q1. cbn [fst] in Q1. subst m.
    pose proof (si_faces _ _ _ OK t0 tr u2 si sr E3 B3 ltac:(lia) Q) as HF.
    replace (S (S n) - 2) with n in E5 by lia.
    assert (Hlen : S n < n_limit L). { assert (S n < length (z :: tailb)) by (apply nth_error_Some; congruence). rewrite B1 in LB. cbn in *. lia. }
    destruct (co_prims _ _ _ OK) as [_ HE]. destruct (co_buffers _ _ _ OK) as [Hbf _]. destruct (co_delay _ _ _ OK) as (_ & _ & Hpad).
    destruct (step_data L c h OK (n_ca L) EB s inp s' pushed ev si sr (n_oa L) (n_ob L) u2 n x ck (N.of_nat (S (length tail))) t1 HX HF C2 E5 HE Hbf Hpad Hlen) as (msg & -> & Eev & Hne & Es'); auto; try lia.
    rewrite Eev in FR. cbn [frames flat_map app] in FR. pose proof (sent_none _ _ FR) as ->.
    destruct (local_data s (snd x) rest (d_trace a) s' ev _ msg ck (s_crypto_mode si) inp (waiting ob a <> []) (d_owed a) _ HL Hpl Hop Hne Eev ltac:(rewrite E5; reflexivity) Es') as [HL' HW'].
    destruct (side_process true true a s (snd x) rest ob cb s' [INonceChange; IUpRxReady] ev []) as [S1 S2]; auto; try (rewrite Eev; reflexivity).
    { repeat constructor. }
    { intros _. rewrite Es'. exact Hop. }
    { right. exists ck. rewrite Eev, En. split; [reflexivity|]. split; [lia|exact C1]. }
    cbn [map]. exists true, [], []. split; [intros _; apply (cost_step _ _ s (IProcess (snd x)) rest s' [INonceChange; IUpRxReady] ev []); [exact Hd|rewrite Eev; cbn; lia|rewrite Es', Eev; apply (cost_data s); auto]|]. split; [exact S1|]. split.
    + rewrite S2, En. cbn [stepped d_conf fst snd d_out d_trace map]. rewrite E1, chunks_app, Eev. cbn [chunks flat_map app]. rewrite !app_nil_r.
      rewrite Es'. eapply (pa3 _ _ _ _ _ t0 u2 y tail si); auto; lia.
    + cbn [stepped d_conf fst snd d_out d_trace map]. rewrite chunks_app, Eev. cbn [chunks flat_map]. rewrite !app_nil_r. split; [reflexivity|]. split; [reflexivity|].
      split; [|exact LA]. apply (timing_later now); [constructor; rewrite ?E1; auto|lia].
Qed.

(** Data is sent *)
Lemma a_send : side_ok true a ob cb -> pa (core a) (stack a) (d_out a) (processed a) (chunks (d_trace a)) true ->
  d_conf a = (s, ICheckTransmit :: rest) -> ep_busy s = false -> ep_transmitting s = false -> ep_remainder s <> [] ->
  answers_step L (n_oa L) ob a ICheckTransmit inp t1 t2 -> exec (n_ca L) s ICheckTransmit inp = Ok (s', pushed, ev) ->
  next_a (calm_calls inp) t2 a (stepped a s' (pushed ++ rest) ev (map (pair t1) ms)) b.
Proof.
  intros HS HP Hd Hbu Htr Hre [A1 A2 A3 [A4 A5] [A6 A6'] [A7 A8] A9] HX. pose proof HS as [HL HW HT HH HAc HO]. rewrite Hd in A1, A2, A3, HL, HW, HH, HO, HP. cbn [fst snd] in A1, A2, A3, HL, HW, HH, HO, HP.
  rewrite Hbu in A1, A2. cbn [negb] in A1. specialize (A2 eq_refl). pose proof TM as [TMa TMb TMab TMba]. inversion HP as [| | |t0 u2 y tail si E1 E2 E3 E4 E5].
  rewrite E1 in TMab, TMba, TMa. pose proof (Forall_inv TMa) as Q0. cbn [fst] in Q0. pose proof (Forall_inv (Forall_inv_tail TMa)) as Q1. cbn [fst] in Q1.
  destruct (si_known _ _ _ OK _ _ _ E3) as (V & Kl & Tx & Rx & Mn & Mt & St). destruct (co_prims _ _ _ OK) as [HP1 HE]. destruct (co_frames _ _ _ OK) as [Hf _]. destruct (co_end _ _ _ OK) as [He _].
  destruct (step_send L c h OK (n_ca L) s inp s' pushed ev si (n_oa L) (length tail) (N.of_nat (processed a - 2)) t1 HX) as (z & rest' & Hc & -> & Eev & Er & Hb & Es'); auto; try lia.
  { rewrite E1 in LA. cbn in LA. lia. }
  { exact (lc_bytes _ _ _ _ HL). }
  destruct (local_send s rest (d_trace a) s' ev inp _ rest' _ _ (waiting ob a <> []) (waiting ob a <> []) (d_owed a) HL HW (fun x => x) A1 A2 Hbu Eev Er Hre Hb Es') as (HL' & HW' & Ha & Ho').
  assert (Hfr : frames ev = [frame_of (e_kind EA) z]) by (rewrite Eev; reflexivity). pose proof FR as FR'. rewrite Hfr in FR'. pose proof (sent_one _ _ _ _ FR' eq_refl) as Ems. 
  destruct (side_send true a s ICheckTransmit rest ob cb s' [INonceChange] ev (map (pair t1) [z])) as [S1 S2]; auto; try (rewrite Eev; reflexivity); try discriminate.
  { repeat constructor. }
  { rewrite Ho'. exact HO. }
  rewrite Ems in *. exists true, (map (pair t1) [z]), [taken (ep_remainder s) rest']. split; [intros _; eapply (cost_send ob a s rest inp s' ev _ rest' (t1, z)); eauto; [destruct Hc as (? & ? & ? & ? & ? & ? & ? & ? & Hc8); apply Hc8; lia|rewrite E1; cbn; lia]|]. split; [exact S1|]. split.
  - rewrite S2. cbn [stepped d_conf fst snd d_out d_trace map]. rewrite chunks_app. rewrite E1. rewrite Eev. cbn [chunks flat_map app].
    change ((t0, request) :: (u2, y) :: tail ++ [(t1, z)]) with ((t0, request) :: (u2, y) :: (tail ++ [(t1, z)])). apply (pa3 _ _ _ _ _ t0 u2 y (tail ++ [(t1, z)]) si); auto.
    + change ((u2, y) :: tail ++ [(t1, z)]) with (((u2, y) :: tail) ++ [(t1, z)]). apply streams_snoc; auto. discriminate.
    + rewrite Ha. f_equal. rewrite app_length. cbn [length]. lia.
  - cbn [stepped d_conf fst snd d_out d_trace]. rewrite chunks_app, Eev. cbn [chunks flat_map]. split; [reflexivity|]. split; [reflexivity|].
    split; [|rewrite app_length; cbn in *; lia]. apply (timing_send_a now t2); auto. rewrite E1. intros; discriminate.
Qed.

(** The layer is opened *)
Lemma a_open : side_ok false a ob cb -> pa (core a) (stack a) (d_out a) (processed a) (chunks (d_trace a)) false -> d_conf a = (s, ICall LowerOpen :: rest) -> rest = [] -> ep_open s = false ->
  exec (n_ca L) s (ICall LowerOpen) inp = Ok (s', pushed, ev) -> next_a (calm_calls inp) t2 a (stepped a s' (pushed ++ rest) ev (map (pair t1) ms)) b.
Proof.
  intros HS HP Hd -> Hop HX. pose proof HS as [HL HW HT HH HAc HO]. rewrite Hd in HL, HW, HH, HO, HP. cbn [fst snd] in HL, HW, HH, HO, HP.
  cbn [exec enter] in HX. rewrite Hop, (proj1 (co_roles _ _ _ OK)) in HX. injection HX as Es' Ep Eev. pose proof FR as FR'. rewrite <- Eev in FR'. pose proof (sent_none _ _ FR') as Ems.
  inversion HP as [E1 E2 E3 E4 E7 E8 E9|i0 t0 E1 E2 E3 E4 E5 E7 E8|t0 u2 y si E1 E2 E3 E4 E5 E6 E7 E8 E9|]; try congruence.
  assert (Hp : processed (stepped a s' (pushed ++ []) ev (map (pair t1) ms)) = processed a).
  { unfold processed. rewrite Hd, <- Ep, <- Eev. cbn. lia. }
  rewrite Ems in *. cbn [map] in *. exists false, [], []. split; [intros _; eapply cost_step; [exact Hd|rewrite <- Eev; cbn; lia|unfold core_cost, held_cost; rewrite <- Es', <- Ep, <- Eev; eps; rewrite Hop; cbn [wsum weight head_cost takes flat_map length app map]; rewrite Hop; lia]|]. split; [|split].
  - constructor; rewrite ?Hp; cbn [stepped d_conf fst snd d_out d_trace d_taken d_owed].
    + pose proof (lc_up _ _ _ _ HL) as Hu. pose proof (lc_down _ _ _ _ HL Hu) as [R1 R2]. destruct HL. destruct (traces_app (d_trace a) ev) as (T1 & T2 & T3 & T4). rewrite <- Es', <- Ep, <- Eev in *. cbn [chunks offered read_data accepted flat_map app] in T1, T2, T3, T4. rewrite app_nil_r in T1, T2, T3, T4.
      constructor; rewrite ?T1, ?T2, ?T3, ?T4; eps; auto; try congruence.
      * right; right; right; right; right. auto.
      * apply no_close; [auto|cbn; intuition discriminate].
    + intros W. rewrite <- Es', <- Ep. eps. left. apply (waiting_more ob a (takes ev)) in W; [|reflexivity]. specialize (HW W). rewrite Hop in HW. exact HW.
    + rewrite <- Eev. cbn. lia.
    + rewrite <- Ep. discriminate.
    + rewrite (proj2 (proj2 (proj2 (traces_app _ _)))), <- Eev. cbn [accepted flat_map]. rewrite app_nil_r. exact HAc.
    + discriminate.
  - rewrite Hp. cbn [stepped d_conf fst snd d_out d_trace d_taken d_owed]. rewrite chunks_app, <- Eev. cbn [chunks flat_map]. rewrite !app_nil_r. rewrite <- Es', <- Ep. apply pa0; eps; auto.
  - cbn [stepped d_conf fst snd d_out d_trace d_taken d_owed]. rewrite chunks_app, <- Eev. cbn [chunks flat_map]. rewrite !app_nil_r. repeat (split; [reflexivity|]). split; [|exact LA]. apply (timing_later now); auto. lia.
Qed.
End a_steps.

Lemma same_core_refl e x : same_core e x x.
Proof. repeat split. Qed.
Lemma a_call ea eb now a b cl owed : inv_with ea eb now a b -> snd (d_conf a) = [] ->
  (app_call cl = true /\ call_typed cl /\ owed = d_owed a) \/ (cl = LowerOpen /\ ep_open (core a) = false /\ owed = d_owed a) \/
  (cl = LowerTxReady /\ ep_busy (core a) = true /\ owed = d_owed a) \/ (cl = LowerRxReady /\ ep_open (core a) = true) -> next_a False now a (call_in a cl owed) b.
Proof.
  intros (SA & SB & PA & PB & TM & NW & LA & LB) Hk Hc. destruct (side_call _ _ _ _ _ _ SA Hk Hc) as [S1 S2].
  exists ea, [], []. split; [tauto|]. split; [exact S1|]. rewrite !app_nil_r. split; [|auto]. rewrite S2. eapply pa_core; [exact PA|apply same_core_refl|reflexivity|auto|].
  intros -> Hi. cbn [call_in d_conf fst] in *. inversion PA as [E1 E2 E3 E4 E7 E8 E9| | |]; try congruence. destruct (ep_open (core a)) eqn:Eo; auto. specialize (E9 eq_refl). congruence.
Qed.

Lemma a_run ea eb now a b s i rest inp t1 t2 s' pushed ev ms : inv_with ea eb now a b -> d_conf a = (s, i :: rest) -> (now <= t1 <= t2)%Z -> (t2 <= n_end L)%Z -> answers_step L (n_oa L) (d_out b) a i inp t1 t2 ->
  exec (n_ca L) s i inp = Ok (s', pushed, ev) -> Forall2 (fun f m => f = frame_of (e_kind (c_env (n_ca L))) m) (frames ev) ms -> length (d_out a) + length ms <= n_limit L ->
  next_a (calm_calls inp) t2 a (stepped a s' (pushed ++ rest) ev (map (pair t1) ms)) b.
Proof.
  intros I Hd TT TE HA HX FR LM.
  destruct I as (SA & SB & PA & PB & TM & NW & LA & LB). 
    pose proof (sk_local _ _ _ _ SA) as HL. rewrite Hd in HL. cbn [fst snd] in HL. pose proof (stack_head _ _ _ _ (lc_stack _ _ _ _ HL)) as Hi.
    assert (Hquiet : (forall m, i <> IProcess m) -> i <> IHandshakeRequired -> i <> ICall LowerOpen -> (i = ICheckTransmit -> ep_busy s = true \/ ep_transmitting s = true \/ ep_remainder s = [] \/ ea = false) ->
      next_a (calm_calls inp) t2 a (stepped a s' (pushed ++ rest) ev (map (pair t1) ms)) b).
    { intros N1 N2 N3 N4.
      assert (Hnt : forall c', c_role (n_ca L) = Initiator c' -> i = INonceChange -> ea = true -> (N.max (s_tx_nonce (ep_active s)) (s_rx_nonce (ep_active s)) < ic_nonce_trigger c')%N).
      { intros c' Hr Ei Ee. rewrite (proj1 (co_roles _ _ _ OK)) in Hr. injection Hr as <-. destruct (co_limit _ _ _ OK) as [_ Hl]. subst ea.
        inversion PA as [| | |t0 u2 y tail si E1 E2 E3 E4 E5]. rewrite Hd in E5. cbn [fst] in E5. rewrite E5. cbn [at_nonces s_tx_nonce s_rx_nonce set_tx_nonce set_rx_nonce].
        pose proof (sk_taken _ _ _ _ SA) as Ht. unfold processed in *. rewrite E1 in LA. cbn in LA. lia. }
      assert (Hval : ea = false -> s_valid (ep_active s) = false) by (intros ->; pose proof (pa_invalid _ _ _ _ _ PA) as X; rewrite Hd in X; exact X).
      destruct (side_run L (n_ca L) (n_oa L) (d_out b) a s i rest inp t1 t2 s' pushed ev ea (chunks (d_trace b)) SA Hd HA HX) as [Q1 Q2 Q3 Q4 Q5 Q6 Q7]; auto.
      - intros x Hx. eapply pb_nonempty; eauto.
      - rewrite Q3 in FR. rewrite (sent_none _ _ FR). cbn [map]. exists ea, [], []. split; [intros Hcalm; rewrite Nat.add_0_r; eapply cost_quiet; eauto; exact (sk_taken _ _ _ _ Q1)|]. split; [exact Q1|]. rewrite !app_nil_r. cbn [stepped d_out]. rewrite app_nil_r. split; [|split; [reflexivity|split; [|split; [apply (timing_later now); auto; lia|exact LA]]]].
        + rewrite Q6. cbn [stepped d_trace d_conf fst snd]. rewrite chunks_app, Q4, app_nil_r. eapply pa_core; [exact PA|exact Q2|exact Q5|exact Q7|].
          intros Ee Hi'. subst ea. inversion PA as [E1 E2 E3 E4 E7 E8 E9| | |]; try congruence. destruct (ep_open (core a)) eqn:Eo; auto. specialize (E9 eq_refl). rewrite Hd in E9. cbn [snd] in E9. congruence.
        + cbn [stepped d_trace]. rewrite chunks_app, Q4, app_nil_r. reflexivity. }
    destruct Hi as [F|[[m ->]|[Hr Hi]]].
    + assert (N : (forall m, i <> IProcess m) /\ i <> IHandshakeRequired /\ i <> ICall LowerOpen) by (repeat split; intros; intros ->; exact F). destruct N as (N1 & N2 & N3).
      destruct (ep_busy s) eqn:B; [apply Hquiet; auto|]. destruct (ep_transmitting s) eqn:Tr; [apply Hquiet; auto|]. destruct (ep_remainder s) eqn:Re; [apply Hquiet; auto|]. destruct ea; [|apply Hquiet; auto].
      destruct i; try (apply Hquiet; auto; discriminate). eapply a_send; eauto. congruence.
    + eapply a_process; eauto.
    + destruct Hi as [[-> Ho]|[[-> Hb]|[[-> Ho]|(-> & Ho & -> & Hs)]]].
      * destruct ea; [pose proof (sk_open _ _ _ _ SA eq_refl) as X; rewrite Hd in X; cbn in X; congruence|]. eapply a_open; eauto.
      * apply Hquiet; try discriminate; intros; discriminate.
      * apply Hquiet; try discriminate; intros; discriminate.
      * eapply a_request; eauto.
Qed.

Lemma a_step ea eb now a b a' now' : inv_with ea eb now a b -> side_step L (n_ca L) (n_oa L) (d_out b) now a a' now' -> next_a False now' a a' b /\ (now <= now')%Z.
Proof.
  intros I H. destruct H as [K O|K B|K O W|cl K A T|s i rest inp t1 t2 s' pushed ev ms Hd TT TE HA HX FR LM]; try (split; [|lia]).
  - eapply a_call; eauto 10.
  - eapply a_call; eauto 10.
  - eapply a_call; eauto 10.
  - eapply a_call; eauto 10.
  - destruct (a_run _ _ _ _ _ _ _ _ _ _ _ _ _ _ _ I Hd TT TE HA HX FR LM) as (e & more & mcs & _ & R). exists e, more, mcs. split; [tauto|exact R].
Qed.

(** ** The responder's steps *)
Definition next_b (calm : Prop) (now' : Z) (a b b' : side) : Prop := exists e more mcs,
  (calm -> cost (d_out a) b' + 22 * length more < cost (d_out a) b) /\
  side_ok e b' (d_out a) (chunks (d_trace a)) /\ pb (core b') (d_out b') (processed b') (chunks (d_trace b')) e /\
  d_out b' = d_out b ++ more /\ chunks (d_trace b') = chunks (d_trace b) ++ mcs /\ timing now' (d_out a) (d_out b') /\ length (d_out b') <= n_limit L.

Section b_steps.
Variables (a b : side) (now : Z) (ea : bool).
Notation oa := (d_out a).
Notation ca := (chunks (d_trace a)).
Hypothesis TM : timing now oa (d_out b).
Hypothesis NW : (0 <= now)%Z.
Hypothesis LA : length oa <= n_limit L.
Hypothesis LB : length (d_out b) <= n_limit L.
Hypothesis PA : pa (core a) (stack a) oa (processed a) ca ea.
Variables (s : endpoint) (rest : list instr) (inp : input) (t1 t2 : Z) (s' : endpoint) (pushed : list instr) (ev : list event) (ms : list (list N)).
Hypothesis TT : (now <= t1 <= t2)%Z.
Hypothesis TE : (t2 <= n_end L)%Z.
Hypothesis FR : Forall2 (fun f m => f = frame_of (e_kind EB) m) (frames ev) ms.
Hypothesis LM : length (d_out b) + length ms <= n_limit L.

Lemma b_process eb m : side_ok eb b oa ca -> pb (core b) (d_out b) (processed b) (chunks (d_trace b)) eb ->
  d_conf b = (s, IProcess m :: rest) -> answers_step L (n_ob L) oa b (IProcess m) inp t1 t2 -> exec (n_cb L) s (IProcess m) inp = Ok (s', pushed, ev) ->
  next_b (calm_calls inp) t2 a b (stepped b s' (pushed ++ rest) ev (map (pair t1) ms)).
Proof.
  intros HS HP Hd [A1 A2 A3 [A4 A5] [A6 A6'] [A7 A8] A9] HX. pose proof HS as [HL HW HT HH HAc HO]. rewrite Hd in A1, A2, A3, HL, HW, HH, HO. cbn [fst snd] in A1, A2, A3, HL, HW, HH, HO.
  destruct (HH m rest eq_refl) as (Hpos & x & Hx & Hm). specialize (A9 m eq_refl).
  assert (Hts : taken_sent oa b = fst x) by (unfold taken_sent; rewrite (nth_error_nth _ _ _ Hx); reflexivity). rewrite Hts in A9.
  assert (Hproc : processed b = pred (d_taken b)) by (unfold processed; rewrite Hd; cbn [snd at_head]; lia).
  assert (Hst : ep_payload s = None /\ ep_busy s = false /\ ep_open s = true).
  { destruct (lc_stack _ _ _ _ HL) as [X|[(m0 & r & X & _ & X1)|[[X _]|[[X _]|[[X _]|[X _]]]]]]; try discriminate; [inversion X; contradiction|exact X1]. }
  destruct Hst as (Hpl & Hbu & Hop). rewrite Hbu in *. specialize (A2 eq_refl). pose proof TM as [TMa TMb TMab TMba].
  rewrite <- Hproc in Hx.
  assert (Hxt : (0 <= fst x <= now)%Z). { rewrite Forall_forall in TMa. apply TMa. eapply nth_error_In; eauto. }
  rewrite Hd in HP. cbn [fst snd] in HP. inversion HP as [E1 E2 E3 E5|u1 sr E1 E2 E3 E4 E5 E6|u1 y tail sr E1 E2 E3 E4 E5]; subst eb.
  - (* the request *) rewrite E2 in Hx.
    assert (Hreq : exists t0 r, oa = (t0, request) :: r /\ x = (t0, request)).
    { inversion PA as [X1|? t0 X1|t0 u2 z si X1|t0 u2 z tail si X1]; rewrite X1 in Hx; cbn in Hx; try discriminate; injection Hx as <-; eauto. }
    destruct Hreq as (t0 & r & Eo & ->). cbn [fst snd] in *. subst m.
    pose proof (lc_up _ _ _ _ HL) as Hu.
    destruct (step_reply _ _ _ OK _ _ _ _ _ HX A6) as (sr & Hsr & -> & Eev & Es').
    assert (Hfr : frames ev = [frame_of (e_kind EB) reply]) by (rewrite Eev; reflexivity). pose proof FR as FR'. rewrite Hfr in FR'. pose proof (sent_one _ _ _ _ FR' eq_refl) as Ems. rewrite Ems in *.
    assert (HL' : local false s' ([] ++ rest) (d_trace b ++ ev)).
    { rewrite Eev. eapply local_handshake; eauto; try (rewrite Es'; reflexivity); try discriminate; try reflexivity.
      - rewrite Es'. exact (lc_req _ _ _ _ HL).
      - rewrite Hbu. discriminate.
      - rewrite Hpl. congruence.
      - cbn. intuition discriminate. }
    destruct (side_process false false b s request rest oa ca s' [] ev (map (pair t1) [reply])) as [S1 S2]; auto; try (rewrite Eev; reflexivity); try discriminate.
    { intros W. rewrite Es'. eps. rewrite Hop, A2. cbn [orb]. auto. }
    { left. rewrite Eev. auto. }
    exists false, (map (pair t1) [reply]), []. split; [intros _; eapply cost_step; [exact Hd|rewrite Eev; cbn; lia|unfold core_cost, held_cost; rewrite Es', Eev, E1; eps; rewrite ?A2, ?Hbu, ?Hop, ?Hpl; cbn [wsum weight head_cost takes flat_map length app map orb]; lia]|]. split; [exact S1|]. split.
    + rewrite S2, E2. cbn [stepped d_conf fst snd d_out d_trace]. rewrite E1, chunks_app, E3. rewrite Eev. cbn [chunks flat_map app map].
      rewrite Es'. rewrite A7 in Hsr. apply (pb1 _ _ _ _ t1 sr); eps; auto.
    + cbn [stepped d_conf fst snd d_out d_trace]. rewrite chunks_app, Eev. cbn [chunks flat_map]. split; [reflexivity|]. split; [reflexivity|].
      split; [|rewrite app_length; cbn in *; lia]. apply (timing_send_b now t2); auto.
      intros _. exists t0, request, r. split; [exact Eo|]. lia.
  - (* the authentication of the initiator *) rewrite E2 in Hx.
    assert (Hau : exists t0 u2 z tail si, oa = (t0, request) :: (u2, z) :: tail /\ is_si (t0 + n_oa L) (u2 + n_oa L) si /\ streams EA si (n_oa L) ((u2, z) :: tail) ca).
    { inversion PA as [X1|? t0 X1|t0 u2 z si X1 X2 X3 X4 X5 X6|t0 u2 z tail si X1 X2 X3 X4]; [rewrite X1 in Hx; discriminate|rewrite X1 in Hx; discriminate| |]; eauto 12. }
    destruct Hau as (t0 & u2 & z & tail & si & B1 & B3 & B4).
    rewrite B1 in Hx. cbn in Hx. injection Hx as <-. destruct (streams_at _ _ _ _ _ 0 _ B4 eq_refl) as (ck & C1 & C2 & C3). specialize (C3 eq_refl). subst ck.
    destruct (TMba _ _ _ _ B1) as (t1' & m' & r' & X & Q). rewrite E1 in X. injection X as <- <- <-. cbn [fst] in Q.
    pose proof (lc_up _ _ _ _ HL) as Hu. destruct (lc_down _ _ _ _ HL Hu) as [R1 R2]. rewrite E1 in TMb. pose proof (Forall_inv TMb) as Q0. cbn [fst] in Q0. subst m.
    assert (Hl0 : 0 < n_limit L) by (rewrite E1 in LB; cbn in LB; lia).
    destruct (step_open_b _ _ _ OK _ _ _ _ _ t0 u1 u2 t1 t2 si sr (u2, z) HX B3 E4) as (msg & w & Hc & -> & Eev & Es'); auto; try lia.
    assert (Hfr : frames ev = [frame_of (e_kind EB) w]) by (rewrite Eev; reflexivity). pose proof FR as FR'. rewrite Hfr in FR'. pose proof (sent_one _ _ _ _ FR' eq_refl) as Ems. rewrite Ems in *.
    assert (HL' : local true s' ([IUpOpen; IAuthPayload None] ++ rest) (d_trace b ++ ev)).
    { rewrite Eev. eapply local_handshake; eauto; try (rewrite Es'; reflexivity); try discriminate; try reflexivity.
      - rewrite Es'. exact (lc_req _ _ _ _ HL).
      - rewrite Hbu. discriminate.
      - rewrite Hpl. congruence.
      - repeat constructor.
      - cbn. auto.
      - cbn. intuition discriminate. }
    destruct (side_process false true b s (snd (u2, z)) rest oa ca s' [IUpOpen; IAuthPayload None] ev (map (pair t1) [w])) as [S1 S2]; auto; try (rewrite Eev; reflexivity).
    { intros W. rewrite Es'. eps. rewrite Hop, A2. cbn [orb]. auto. }
    { repeat constructor. }
    { intros _. rewrite Es'. exact Hop. }
    { right. exists []. rewrite Eev, E2. split; [reflexivity|]. split; [lia|exact C1]. }
    exists true, (map (pair t1) [w]), [[]]. split; [intros _; eapply cost_step; [exact Hd|rewrite Eev; cbn; lia|unfold core_cost, held_cost; rewrite Es', Eev, E1; eps; rewrite ?A2, ?Hbu, ?Hop, ?Hpl; cbn [wsum weight head_cost takes flat_map length app map orb]; lia]|]. split; [exact S1|]. split.
    + rewrite S2, E2. cbn [stepped d_conf fst snd d_out d_trace map]. rewrite E1, chunks_app, E3, Eev. cbn [chunks flat_map app].
      rewrite Es'. eapply (pb2 _ _ _ _ u1 (t1, w) [] sr); auto.
      split; [reflexivity|]. intros [|k] zz ck Hz Hck; cbn in Hz, Hck; [|destruct k; discriminate]. injection Hz as <-. injection Hck as <-. auto.
    + cbn [stepped d_conf fst snd d_out d_trace]. rewrite chunks_app, Eev. cbn [chunks flat_map]. split; [reflexivity|]. split; [reflexivity|].
      split; [|rewrite app_length; cbn in *; lia]. apply (timing_send_b now t2); auto. rewrite E1. discriminate.
  - (* data *)
    assert (Hau : exists t0 u2 z taila si, oa = (t0, request) :: (u2, z) :: taila /\ is_si (t0 + n_oa L) (u2 + n_oa L) si /\ streams EA si (n_oa L) ((u2, z) :: taila) ca).
    { inversion PA as [X1|? t0 X1|t0 u2 z si X1 X2 X3 X4 X5 X6|t0 u2 z taila si X1 X2 X3 X4].
      - rewrite X1 in Hx. destruct (processed b); discriminate.
      - rewrite X1 in Hx. destruct (processed b) as [|[|n]]; try lia. cbn in Hx. destruct n; discriminate.
      - eauto 12.
      - eauto 12. }
    destruct Hau as (t0 & u2 & z & taila & si & B1 & B3 & B4).
    rewrite B1 in Hx. destruct (processed b) as [|[|n]] eqn:En; try lia. change (nth_error ((u2, z) :: taila) (S n) = Some x) in Hx. destruct (streams_at _ _ _ _ _ _ _ B4 Hx) as (ck & C1 & C2 & _).
    destruct (TMba _ _ _ _ B1) as (t1' & m' & r' & X & Q). rewrite E1 in X. injection X as <- <- <-. cbn [fst] in Q.
    rewrite E1 in TMb. pose proof (Forall_inv TMb) as Q0. cbn [fst] in Q0. subst m.
    pose proof (sr_faces _ _ _ OK t0 u1 u2 si sr B3 E3 ltac:(lia) Q) as HF.
    replace (S (S n) - 2) with n in E5 by lia.
    assert (Hlen : S n < n_limit L). { assert (S n < length ((u2, z) :: taila)) by (apply nth_error_Some; congruence). rewrite B1 in LA. cbn in *. lia. }
    destruct (co_prims _ _ _ OK) as [_ HE]. destruct (co_buffers _ _ _ OK) as [_ Hbf]. destruct (co_delay _ _ _ OK) as (_ & Hpad & _).
    destruct (step_data L c h OK (n_cb L) EA s inp s' pushed ev sr si (n_ob L) (n_oa L) u1 n x ck (N.of_nat (S (length tail))) t1 HX HF C2 E5 (eq_sym HE) Hbf Hpad Hlen) as (msg & -> & Eev & Hne & Es'); auto; try lia.
    assert (Hfr : frames ev = []) by (rewrite Eev; reflexivity). pose proof FR as FR'. rewrite Hfr in FR'. pose proof (sent_none _ _ FR') as Ems. rewrite Ems in *.
    destruct (local_data s (snd x) rest (d_trace b) s' ev _ msg ck (s_crypto_mode sr) inp (waiting oa b <> []) (d_owed b) _ HL Hpl Hop Hne Eev ltac:(rewrite E5; reflexivity) Es') as [HL' HW'].
    destruct (side_process true true b s (snd x) rest oa ca s' [INonceChange; IUpRxReady] ev []) as [S1 S2]; auto; try (rewrite Eev; reflexivity).
    { repeat constructor. }
    { intros _. rewrite Es'. exact Hop. }
    { right. exists ck. rewrite Eev, En. split; [reflexivity|]. split; [lia|exact C1]. }
    cbn [map]. exists true, [], []. split; [intros _; apply (cost_step _ _ s (IProcess (snd x)) rest s' [INonceChange; IUpRxReady] ev []); [exact Hd|rewrite Eev; cbn; lia|rewrite Es', Eev; apply (cost_data s); auto]|]. split; [exact S1|]. split.
    + rewrite S2, En. cbn [stepped d_conf fst snd d_out d_trace map]. rewrite E1, chunks_app, Eev. cbn [chunks flat_map app]. rewrite !app_nil_r.
      rewrite Es'. eapply (pb2 _ _ _ _ u1 y tail sr); auto; lia.
    + cbn [stepped d_conf fst snd d_out d_trace map]. rewrite chunks_app, Eev. cbn [chunks flat_map]. rewrite !app_nil_r. split; [reflexivity|]. split; [reflexivity|].
      split; [|exact LB]. apply (timing_later now); [exact TM|lia].
Qed.

Lemma b_send : side_ok true b oa ca -> pb (core b) (d_out b) (processed b) (chunks (d_trace b)) true ->
  d_conf b = (s, ICheckTransmit :: rest) -> ep_busy s = false -> ep_transmitting s = false -> ep_remainder s <> [] ->
  answers_step L (n_ob L) oa b ICheckTransmit inp t1 t2 -> exec (n_cb L) s ICheckTransmit inp = Ok (s', pushed, ev) ->
  next_b (calm_calls inp) t2 a b (stepped b s' (pushed ++ rest) ev (map (pair t1) ms)).
Proof.
  intros HS HP Hd Hbu Htr Hre [A1 A2 A3 [A4 A5] [A6 A6'] [A7 A8] A9] HX. pose proof HS as [HL HW HT HH HAc HO]. rewrite Hd in A1, A2, A3, HL, HW, HH, HO, HP. cbn [fst snd] in A1, A2, A3, HL, HW, HH, HO, HP.
  rewrite Hbu in A1, A2. cbn [negb] in A1. specialize (A2 eq_refl). pose proof TM as [TMa TMb TMab TMba]. inversion HP as [| |u1 y tail sr E1 E2 E3 E4 E5].
  rewrite E1 in TMb. pose proof (Forall_inv TMb) as Q0. cbn [fst] in Q0.
  destruct (sr_known _ _ _ OK _ _ E3) as (V & Kl & Tx & Rx & Mn & Mt & St). destruct (co_prims _ _ _ OK) as [HP1 HE]. destruct (co_frames _ _ _ OK) as [_ Hf]. destruct (co_end _ _ _ OK) as [_ He].
  destruct (step_send L c h OK (n_cb L) s inp s' pushed ev sr (n_ob L) (length tail) (N.of_nat (processed b - 2)) t1 HX) as (z & rest' & Hc & -> & Eev & Er & Hb & Es'); auto; try lia.
  { rewrite HE. exact HP1. }
  { rewrite E1 in LB. cbn in LB. lia. }
  { exact (lc_bytes _ _ _ _ HL). }
  destruct (local_send s rest (d_trace b) s' ev inp _ rest' _ _ (waiting oa b <> []) (waiting oa b <> []) (d_owed b) HL HW (fun x => x) A1 A2 Hbu Eev Er Hre Hb Es') as (HL' & HW' & Ha & Ho').
  assert (Hfr : frames ev = [frame_of (e_kind EB) z]) by (rewrite Eev; reflexivity). pose proof FR as FR'. rewrite Hfr in FR'. pose proof (sent_one _ _ _ _ FR' eq_refl) as Ems. 
  destruct (side_send true b s ICheckTransmit rest oa ca s' [INonceChange] ev (map (pair t1) [z])) as [S1 S2]; auto; try (rewrite Eev; reflexivity); try discriminate.
  { repeat constructor. }
  { rewrite Ho'. exact HO. }
  rewrite Ems in *. exists true, (map (pair t1) [z]), [taken (ep_remainder s) rest']. split; [intros _; eapply (cost_send oa b s rest inp s' ev _ rest' (t1, z)); eauto; [destruct Hc as (? & ? & ? & ? & ? & ? & ? & ? & Hc8); apply Hc8; lia|rewrite E1; cbn; lia]|]. split; [exact S1|]. split.
  - rewrite S2. cbn [stepped d_conf fst snd d_out d_trace map]. rewrite chunks_app. rewrite E1. rewrite Eev. cbn [chunks flat_map app].
    apply (pb2 _ _ _ _ u1 y (tail ++ [(t1, z)]) sr); auto.
    + change (y :: tail ++ [(t1, z)]) with ((y :: tail) ++ [(t1, z)]). apply streams_snoc; auto. discriminate.
    + rewrite Ha. f_equal. rewrite app_length. cbn [length]. lia.
  - cbn [stepped d_conf fst snd d_out d_trace]. rewrite chunks_app, Eev. cbn [chunks flat_map]. split; [reflexivity|]. split; [reflexivity|].
    split; [|rewrite app_length; cbn in *; lia]. apply (timing_send_b now t2); auto. rewrite E1. discriminate.
Qed.

(** The layer is opened *)
Lemma b_open : side_ok false b oa ca -> pb (core b) (d_out b) (processed b) (chunks (d_trace b)) false -> d_conf b = (s, ICall LowerOpen :: rest) -> rest = [] -> ep_open s = false ->
  exec (n_cb L) s (ICall LowerOpen) inp = Ok (s', pushed, ev) -> next_b (calm_calls inp) t2 a b (stepped b s' (pushed ++ rest) ev (map (pair t1) ms)).
Proof.
  intros HS HP Hd -> Hop HX. pose proof HS as [HL HW HT HH HAc HO]. rewrite Hd in HL, HW, HH, HO, HP. cbn [fst snd] in HL, HW, HH, HO, HP.
  cbn [exec enter] in HX. rewrite Hop, (proj2 (co_roles _ _ _ OK)) in HX. injection HX as Es' Ep Eev. pose proof FR as FR'. rewrite <- Eev in FR'. pose proof (sent_none _ _ FR') as Ems.
  assert (Hp : processed (stepped b s' (pushed ++ []) ev (map (pair t1) ms)) = processed b).
  { unfold processed. rewrite Hd, <- Ep, <- Eev. cbn. lia. }
  rewrite Ems in *. cbn [map] in *. exists false, [], []. split; [intros _; eapply cost_step; [exact Hd|rewrite <- Eev; cbn; lia|unfold core_cost, held_cost; rewrite <- Es', <- Ep, <- Eev; eps; rewrite Hop; cbn [wsum weight head_cost takes flat_map length app map]; rewrite Hop; lia]|]. split; [|split].
  - constructor; rewrite ?Hp; cbn [stepped d_conf fst snd d_out d_trace d_taken d_owed].
    + pose proof (lc_up _ _ _ _ HL) as Hu. pose proof (lc_down _ _ _ _ HL Hu) as [R1 R2]. destruct HL. destruct (traces_app (d_trace b) ev) as (T1 & T2 & T3 & T4). rewrite <- Es', <- Ep, <- Eev in *. cbn [chunks offered read_data accepted flat_map app] in T1, T2, T3, T4. rewrite app_nil_r in T1, T2, T3, T4.
      constructor; rewrite ?T1, ?T2, ?T3, ?T4; eps; auto; try congruence.
      * left. constructor.
      * apply no_close; [auto|cbn; intuition discriminate].
    + intros W. rewrite <- Es', <- Ep. eps. left. apply (waiting_more oa b (takes ev)) in W; [|reflexivity]. specialize (HW W). rewrite Hop in HW. exact HW.
    + rewrite <- Eev. cbn. lia.
    + rewrite <- Ep. discriminate.
    + rewrite (proj2 (proj2 (proj2 (traces_app _ _)))), <- Eev. cbn [accepted flat_map]. rewrite app_nil_r. exact HAc.
    + discriminate.
  - rewrite Hp. cbn [stepped d_conf fst snd d_out d_trace d_taken d_owed]. rewrite chunks_app, <- Eev. cbn [chunks flat_map]. rewrite !app_nil_r. rewrite <- Es'. eapply pb_core; [exact HP|]. repeat split; reflexivity.
  - cbn [stepped d_conf fst snd d_out d_trace d_taken d_owed]. rewrite chunks_app, <- Eev. cbn [chunks flat_map]. rewrite !app_nil_r. repeat (split; [reflexivity|]). split; [|exact LB]. apply (timing_later now); auto. lia.
Qed.
End b_steps.

Lemma b_call ea eb now a b cl owed : inv_with ea eb now a b -> snd (d_conf b) = [] ->
  (app_call cl = true /\ call_typed cl /\ owed = d_owed b) \/ (cl = LowerOpen /\ ep_open (core b) = false /\ owed = d_owed b) \/
  (cl = LowerTxReady /\ ep_busy (core b) = true /\ owed = d_owed b) \/ (cl = LowerRxReady /\ ep_open (core b) = true) -> next_b False now a b (call_in b cl owed).
Proof.
  intros (SA & SB & PA & PB & TM & NW & LA & LB) Hk Hc. destruct (side_call _ _ _ _ _ _ SB Hk Hc) as [S1 S2].
  exists eb, [], []. split; [tauto|]. split; [exact S1|]. rewrite !app_nil_r. split; [|auto]. rewrite S2. exact PB.
Qed.

Lemma b_run ea eb now a b s i rest inp t1 t2 s' pushed ev ms : inv_with ea eb now a b -> d_conf b = (s, i :: rest) -> (now <= t1 <= t2)%Z -> (t2 <= n_end L)%Z -> answers_step L (n_ob L) (d_out a) b i inp t1 t2 ->
  exec (n_cb L) s i inp = Ok (s', pushed, ev) -> Forall2 (fun f m => f = frame_of (e_kind (c_env (n_cb L))) m) (frames ev) ms -> length (d_out b) + length ms <= n_limit L ->
  next_b (calm_calls inp) t2 a b (stepped b s' (pushed ++ rest) ev (map (pair t1) ms)).
Proof.
  intros I Hd TT TE HA HX FR LM.
  destruct I as (SA & SB & PA & PB & TM & NW & LA & LB). 
    pose proof (sk_local _ _ _ _ SB) as HL. rewrite Hd in HL. cbn [fst snd] in HL. pose proof (stack_head _ _ _ _ (lc_stack _ _ _ _ HL)) as Hi.
    assert (Hquiet : (forall m, i <> IProcess m) -> i <> IHandshakeRequired -> i <> ICall LowerOpen -> (i = ICheckTransmit -> ep_busy s = true \/ ep_transmitting s = true \/ ep_remainder s = [] \/ eb = false) ->
      next_b (calm_calls inp) t2 a b (stepped b s' (pushed ++ rest) ev (map (pair t1) ms))).
    { intros N1 N2 N3 N4.
      assert (Hnt : forall c', c_role (n_cb L) = Initiator c' -> i = INonceChange -> eb = true -> (N.max (s_tx_nonce (ep_active s)) (s_rx_nonce (ep_active s)) < ic_nonce_trigger c')%N).
      { intros c' Hr Ei Ee. rewrite (proj2 (co_roles _ _ _ OK)) in Hr. discriminate. }
      assert (Hval : eb = false -> s_valid (ep_active s) = false) by (intros ->; pose proof (pb_invalid _ _ _ _ PB) as X; rewrite Hd in X; exact X).
      destruct (side_run L (n_cb L) (n_ob L) (d_out a) b s i rest inp t1 t2 s' pushed ev eb (chunks (d_trace a)) SB Hd HA HX) as [Q1 Q2 Q3 Q4 Q5 Q6 Q7]; auto.
      - intros x Hx. eapply pa_nonempty; eauto.
      - rewrite Q3 in FR. rewrite (sent_none _ _ FR). cbn [map]. exists eb, [], []. split; [intros Hcalm; rewrite Nat.add_0_r; eapply cost_quiet; eauto; exact (sk_taken _ _ _ _ Q1)|]. split; [exact Q1|]. rewrite !app_nil_r. cbn [stepped d_out]. rewrite app_nil_r. split; [|split; [reflexivity|split; [|split; [apply (timing_later now); auto; lia|exact LB]]]].
        + rewrite Q6. cbn [stepped d_trace d_conf fst snd]. rewrite chunks_app, Q4, app_nil_r. eapply pb_core; [exact PB|exact Q2].
        + cbn [stepped d_trace]. rewrite chunks_app, Q4, app_nil_r. reflexivity. }
    destruct Hi as [F|[[m ->]|[Hr Hi]]].
    + assert (N : (forall m, i <> IProcess m) /\ i <> IHandshakeRequired /\ i <> ICall LowerOpen) by (repeat split; intros; intros ->; exact F). destruct N as (N1 & N2 & N3).
      destruct (ep_busy s) eqn:B; [apply Hquiet; auto|]. destruct (ep_transmitting s) eqn:Tr; [apply Hquiet; auto|]. destruct (ep_remainder s) eqn:Re; [apply Hquiet; auto|]. destruct eb; [|apply Hquiet; auto].
      destruct i; try (apply Hquiet; auto; discriminate). eapply b_send; eauto. congruence.
    + eapply b_process; eauto.
    + destruct Hi as [[-> Ho]|[[-> Hb]|[[-> Ho]|(-> & Ho & -> & Hs)]]].
      * destruct eb; [pose proof (sk_open _ _ _ _ SB eq_refl) as X; rewrite Hd in X; cbn in X; congruence|]. eapply b_open; eauto.
      * apply Hquiet; try discriminate; intros; discriminate.
      * apply Hquiet; try discriminate; intros; discriminate.
      * cbn [exec] in HX. rewrite (proj2 (co_roles _ _ _ OK)) in HX. injection HX as <- <- <-. subst rest.
        assert (HW : wake (waiting (d_out a) b <> []) (d_owed b) s []).
        { pose proof (sk_wake _ _ _ _ SB) as HW. rewrite Hd in HW. cbn [fst snd] in HW. intros W. specialize (HW W). rewrite Ho in *. destruct HW as [?|[?|[?|[[X|[]]|[X|[]]]]]]; auto; discriminate. }
        destruct (side_send false b s IHandshakeRequired [] (d_out a) (chunks (d_trace a)) s [] [] (map (pair t1) ms)) as [S1 S2]; auto; try discriminate.
        { eapply local_frame; eauto; try discriminate. left. constructor. unfold silent. cbn. tauto. }
        rewrite (sent_none _ _ FR) in *. cbn [map app] in *. exists false, [], []. split; [intros _; eapply (cost_step _ _ s IHandshakeRequired [] s [] [] []); [exact Hd|pose proof (sk_taken _ _ _ _ SB); cbn; lia|cbn [wsum weight head_cost takes flat_map length app map]; lia]|]. split; [exact S1|]. rewrite S2. cbn [stepped d_conf fst snd d_out d_trace]. rewrite Hd in PB. cbn [fst] in PB. rewrite !app_nil_r. repeat (split; [first [exact PB|reflexivity]|]). split; [apply (timing_later now); auto; lia|exact LB].
Qed.

Lemma b_step ea eb now a b b' now' : inv_with ea eb now a b -> side_step L (n_cb L) (n_ob L) (d_out a) now b b' now' -> next_b False now' a b b' /\ (now <= now')%Z.
Proof.
  intros I H. destruct H as [K O|K B|K O W|cl K A T|s i rest inp t1 t2 s' pushed ev ms Hd TT TE HA HX FR LM]; try (split; [|lia]).
  - eapply b_call; eauto 10.
  - eapply b_call; eauto 10.
  - eapply b_call; eauto 10.
  - eapply b_call; eauto 10.
  - destruct (b_run _ _ _ _ _ _ _ _ _ _ _ _ _ _ _ I Hd TT TE HA HX FR LM) as (e & more & mcs & _ & R). exists e, more, mcs. split; [tauto|exact R].
Qed.

(** ** The whole line *)
Lemma inv_step x y : (exists ea eb, inv_with ea eb (l_now x) (l_a x) (l_b x)) -> line_step L x y -> exists ea eb, inv_with ea eb (l_now y) (l_a y) (l_b y).
Proof.
  intros (ea & eb & I) [a' now' H|b' now' H]; cbn [l_now l_a l_b].
  - destruct (a_step _ _ _ _ _ _ _ I H) as [(e & more & mcs & _ & N1 & N2 & N3 & N4 & N5 & N6) Hn]. destruct I as (SA & SB & PA & PB & TM & NW & LA & LB).
    destruct (side_grow _ _ _ _ more mcs SB (pa_cs _ _ _ _ _ _ PA)) as [G1 G2]. exists e, eb. rewrite N3 in *. rewrite N4 in *. split; [exact N1|]. split; [rewrite N3, N4; exact G1|].
    split; [rewrite N3, N4; exact N2|]. rewrite G2. split; [exact PB|]. rewrite N3. split; [exact N5|]. split; [lia|]. split; [exact N6|exact LB].
  - destruct (b_step _ _ _ _ _ _ _ I H) as [(e & more & mcs & _ & N1 & N2 & N3 & N4 & N5 & N6) Hn]. destruct I as (SA & SB & PA & PB & TM & NW & LA & LB).
    destruct (side_grow _ _ _ _ more mcs SA (pb_cs _ _ _ _ _ PB)) as [G1 G2]. exists ea, e. rewrite N3 in *. rewrite N4 in *. split; [rewrite N3, N4; exact G1|]. split; [exact N1|].
    rewrite G2. split; [exact PA|]. split; [rewrite N3, N4; exact N2|]. rewrite N3. split; [exact N5|]. split; [lia|]. split; [exact LA|exact N6].
Qed.

(** An endpoint to which a connection can be opened *)
Record openable (s : endpoint) : Prop := {
  oa_open : ep_open s = false; oa_up : ep_up s = false; oa_proc : ep_proc s = false; oa_active : s_valid (ep_active s) = false;
  oa_trans : ep_transmitting s = false; oa_rem : ep_remainder s = []; oa_payload : ep_payload s = None; oa_required : ep_required s = false }.
Lemma inv_start sa sb : openable sa -> ep_state sa = Idle -> openable sb -> inv_with false false 0 (start_side sa) (start_side sb).
Proof.
  intros HA Hi HB.
  assert (S0 : forall s, openable s -> side_ok false (start_side s) [] []).
  { intros s [H1 H2 H3 H4 H5 H6 H7 H8]. constructor; cbn [start_side d_conf d_trace d_out d_taken d_owed fst snd]; try reflexivity; try discriminate.
    - constructor; eps; rewrite ?H5, ?H6, ?H7, ?H2; try reflexivity; try discriminate; try congruence; auto; try (left; constructor); try constructor; try (cbn; tauto).
      unfold held. eps. rewrite H7. reflexivity.
    - intros W. destruct (W eq_refl). }
  split; [apply S0, HA|]. split; [apply S0, HB|]. destruct HA, HB. split; [apply pa0; cbn [start_side d_conf fst snd d_out d_trace]; eps; try reflexivity; auto; congruence|]. split; [apply pb0; try reflexivity; auto|].
  split; [constructor; try constructor; intros; discriminate|]. cbn. lia.
Qed.
Lemma openable_new C : openable (new_endpoint C).
Proof. constructor; reflexivity. Qed.
Lemma inv_new : inv_with false false 0 (new_side (n_ca L)) (new_side (n_cb L)).
Proof. apply (inv_start (new_endpoint (n_ca L)) (new_endpoint (n_cb L))); auto using openable_new. Qed.

Definition invariant_of (x : line) : Prop := exists ea eb, inv_with ea eb (l_now x) (l_a x) (l_b x).
Lemma line_invariant_from x0 x : invariant_of x0 -> reachable_from L x0 x -> invariant_of x.
Proof. intros H0. induction 1; [exact H0|]. eapply inv_step; eauto. Qed.
Theorem line_invariant x : reachable L x -> invariant_of x.
Proof. apply line_invariant_from. exists false, false. exact inv_new. Qed.
Theorem line_invariant_start sa sb x : openable sa -> ep_state sa = Idle -> openable sb -> reachable_from L (start_line sa sb) x -> invariant_of x.
Proof. intros HA Hi HB. apply line_invariant_from. exists false, false. exact (inv_start _ _ HA Hi HB). Qed.

Lemma concat_nonempty (l : list (list N)) : concat (filter nonempty l) = concat l.
Proof. induction l as [|[|n p] l IH]; cbn; rewrite ?IH; reflexivity. Qed.
Lemma held_concat est s k t : local est s k t -> exists r, concat (read_data t) ++ r = concat (accepted t) /\ (ep_payload s = None -> r = []).
Proof.
  intros HL. pose proof (lc_got _ _ _ _ HL) as H. apply (f_equal (@concat _)) in H. rewrite concat_app, concat_nonempty in H. exists (concat (held s)). split; [exact H|]. unfold held. intros ->. reflexivity.
Qed.

(** What an application got is a beginning of what the other one gave *)
Lemma side_prefix est d out cs est' e : side_ok est d out cs -> local est' (core e) (stack e) (d_trace e) -> cs = chunks (d_trace e) -> exists r, got d ++ r = given e.
Proof.
  intros HS HE ->. destruct (held_concat _ _ _ _ (sk_local _ _ _ _ HS)) as (r & H & _). unfold got, given. rewrite (lc_given _ _ _ _ HE).
  rewrite (sk_acc _ _ _ _ HS) in H. exists (r ++ concat (skipn (pred (processed d)) (chunks (d_trace e))) ++ ep_remainder (core e)).
  rewrite app_assoc, H, app_assoc, <- concat_app, firstn_skipn. reflexivity.
Qed.
Theorem line_prefix x : invariant_of x -> (exists r, got (l_b x) ++ r = given (l_a x)) /\ (exists r, got (l_a x) ++ r = given (l_b x)).
Proof.
  intros (ea & eb & SA & SB & _). split; eapply side_prefix; eauto using sk_local.
Qed.

Lemma rest_taken est d out cs : side_ok est d out cs -> at_rest d -> processed d = length out.
Proof.
  intros HS (R1 & R2 & R3 & R4 & R5). assert (W : waiting out d = []).
  { destruct (waiting out d) as [|w ws] eqn:E; [reflexivity|]. pose proof (sk_wake _ _ _ _ HS) as HW. assert (X : waiting out d <> []) by congruence. specialize (HW X). rewrite R1, R2, R3, R4, R5 in HW. cbn in HW. intuition congruence. }
  unfold processed. rewrite R2. cbn [at_head]. pose proof (sk_taken _ _ _ _ HS). unfold waiting in W. apply (f_equal (@length _)) in W. rewrite skipn_length in W. cbn in W. lia.
Qed.
Lemma rest_all d out e est' : side_ok true d out (chunks (d_trace e)) -> at_rest d -> length (chunks (d_trace e)) = pred (length out) -> local est' (core e) (stack e) (d_trace e) -> at_rest e ->
  given e = got d /\ told_open d.
Proof.
  intros HS R Hl HE RE. pose proof (rest_taken _ _ _ _ HS R) as Hp. destruct R as (R1 & R2 & R3 & R4 & R5). destruct RE as (T1 & T2 & T3 & T4 & T5). split.
  - destruct (held_concat _ _ _ _ (sk_local _ _ _ _ HS)) as (r & H & Hr). rewrite (Hr R5), app_nil_r, (sk_acc _ _ _ _ HS), Hp, <- Hl, firstn_all in H. unfold got, given. rewrite H, (lc_given _ _ _ _ HE).
    destruct (ep_remainder (core e)) eqn:Er; [apply app_nil_r|]. destruct (lc_rem _ _ _ _ HE) as [X|X]; [congruence|congruence|]. rewrite T2 in X. destruct X.
  - pose proof (lc_up _ _ _ _ (sk_local _ _ _ _ HS)) as U. cbn in U. rewrite R2 in U. destruct U as [U|[]]. split; [apply (lc_told _ _ _ _ (sk_local _ _ _ _ HS) U)|apply (lc_closed _ _ _ _ (sk_local _ _ _ _ HS))].
Qed.

Theorem line_delivered x : invariant_of x -> at_rest (l_a x) -> at_rest (l_b x) ->
  (given (l_a x) = got (l_b x) /\ given (l_b x) = got (l_a x)) /\ (told_open (l_a x) /\ told_open (l_b x)).
Proof.
  intros (ea & eb & SA & SB & PA & PB & TM & NW & LA & LB) RA RB.
  pose proof (rest_taken _ _ _ _ SA RA) as HA. pose proof (rest_taken _ _ _ _ SB RB) as HB. 
  pose proof (pa_cs _ _ _ _ _ _ PA) as CA. pose proof (pb_cs _ _ _ _ _ PB) as CB.
  assert (E : ea = true /\ eb = true).
  { destruct RA as (R1 & R2 & _). rewrite HA in PA. rewrite HB in PB. inversion PA as [O1 P1 X1 X2 X5 X6 X7|? ? O1 P1|? ? ? ? O1 P1|? ? ? ? ? O1 P1]; inversion PB as [O2 P2|? ? O2 P2|? ? ? ? O2 P2]; auto; rewrite O1, O2 in *; cbn in *; try lia.
    specialize (X7 R1). congruence. }
  destruct E as [-> ->]. destruct (rest_all _ _ _ _ SB RB CA (sk_local _ _ _ _ SA) RA) as [Q1 Q2]. destruct (rest_all _ _ _ _ SA RA CB (sk_local _ _ _ _ SB) RB) as [Q3 Q4]. auto.
Qed.
End line.
