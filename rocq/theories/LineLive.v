(** * LineLive: everything is delivered *)
From Verif Require Import Base BaseFacts Codec CodecSpec CodecFacts Link LinkLayer Primitives Session SessionSpec SessionFacts SessionMain
  Handshake HandshakeSpec HandshakeFacts HandshakeMain HandshakePair Endpoint EndpointSpec EndpointFacts EndpointMain EndpointRx EndpointTx EndpointNonce PairSpec Line LineSpec LineMsgs LineHandshake LineLocal LineSide LineCost LineFacts.

(** ** Calm steps are steps *)
Lemma calm_side L C off out now d d' now' : ep_open (fst (d_conf d)) = ep_open (fst (d_conf d)) -> side_calm L C off out now d d' now' -> side_step L C off out now d d' now'.
Proof.
  intros _ [K O|K B|K O W|K P|s i rest inp t1 t2 s' pushed ev ms Hd TT TE HA HC HX FR LM].
  - apply ss_open; auto.
  - apply ss_sent; auto.
  - apply ss_arrived; auto.
  - apply ss_call; cbn; auto.
  - eapply ss_run; eauto.
Qed.
Lemma calm_line L x y : line_calm L x y -> line_step L x y.
Proof. intros [a' now' H|b' now' H]; [apply ls_a|apply ls_b]; apply calm_side; auto. Qed.

(** ** What a step can push *)
Lemma calls_head l : at_head (map ICall l) = 0.
Proof. destruct l; reflexivity. Qed.
Lemma pushed_head C s i inp s' pushed ev : exec C s i inp = Ok (s', pushed, ev) -> at_head pushed <= takes ev.
Proof.
  intros H. destruct i as [[]| | | | | | | | | | | | |]; exec_cases H; splits; try (cbn [at_head app]; lia); try (cbn; lia).
  all: rewrite calls_head; lia.
Qed.
Lemma calm_data inp : calm_calls inp -> in_progress (map ICall (in_calls inp)) = 0.
Proof. intros [-> | ->]; reflexivity. Qed.
Lemma pushed_data C s i inp s' pushed ev : exec C s i inp = Ok (s', pushed, ev) -> calm_calls inp -> in_progress pushed + length (concat (offered ev)) <= in_progress [i].
Proof.
  intros H Hc. pose proof (calm_data _ Hc) as Hd. destruct i as [[]| | | | | | | | | | | | |]; exec_cases H; splits; try (cbn; lia).
  all: try (cbn [offered flat_map app concat length in_progress fold_right]; rewrite ?app_length; cbn [length]; lia).
  all: try (rewrite Hd; cbn; lia).
Qed.

(** ** Every step can be made *)
Lemma quiet_exec C L off out est d s i rest inp t1 t2 cs : side_ok est d out cs -> d_conf d = (s, i :: rest) -> answers_step L off out d i inp t1 t2 ->
  (forall m, i <> IProcess m) -> i <> IHandshakeRequired -> (i = ICheckTransmit -> ep_busy s = true \/ ep_transmitting s = true \/ ep_remainder s = [] \/ est = false) ->
  (est = false -> s_valid (ep_active s) = false) -> exists s' pushed ev, exec C s i inp = Ok (s', pushed, ev).
Proof.
  intros HS Hd [A1 A2 A3 _ _ _ _] N1 N2 N4 Hv. pose proof (sk_local _ _ _ _ HS) as HL. rewrite Hd in HL, A1, A2, A3. cbn [fst snd] in *.
  pose proof (stack_head _ _ _ _ (lc_stack _ _ _ _ HL)) as Hi. pose proof (lc_pl _ _ _ _ HL) as Hp.
  assert (Ea : asked s inp = s) by (unfold asked; rewrite A1, negb_involutive; destruct s; reflexivity).
  destruct Hi as [F|[[m ->]|[-> Hi]]]; [|destruct (N1 m eq_refl)|].
  - destruct i as [c0| | | | | | | | | | |p|h0|]; cbn in F; try contradiction; cbn [exec].
    + destruct c0; try contradiction; cbn [enter].
      * unfold start_tx. destruct (ep_open s && ep_up s && tx_idle s); eauto.
      * unfold start_rx. destruct (ep_proc s); cbn [set_proc set_payload ep_payload].
        { eauto. }
        destruct (ep_payload s) as [p|] eqn:Pl; [|eauto]. destruct (Hp p eq_refl) as (b & Hb & _). rewrite Hb. cbn [obind]. eauto.
    + unfold try_read_one. rewrite Ea. destruct (in_ready inp); cbn [negb]; [|eauto]. destruct (ep_payload s); [eauto|]. destruct (in_message inp); eauto.
    + unfold check_transmit. rewrite Ea. destruct (s_valid (ep_active s)) eqn:V; cbn [negb]; [|eauto].
      assert (G : in_ready inp && tx_ready s = false).
      { rewrite A1. unfold tx_ready. destruct (N4 eq_refl) as [X|[X|[X|X]]]; [rewrite X; reflexivity|rewrite X; apply andb_false_r|rewrite X; cbn; rewrite !andb_false_r; reflexivity|specialize (Hv X); congruence]. }
      rewrite G. cbn [negb]. eauto.
    + unfold notify. destruct (ep_up s); eauto.
    + unfold notify. destruct (ep_up s); eauto.
    + unfold notify. destruct (ep_up s); eauto.
    + unfold on_nonce_change. destruct (c_role C) as [c|h]; [|eauto]. destruct (_ <=? _)%N; eauto.
    + destruct (c_role C); eauto.
    + destruct p; [contradiction|]. eauto.
    + eauto.
  - destruct Hi as [[-> Ho]|[[-> Hb]|[[-> Ho]|[-> _]]]]; try congruence; cbn [exec enter].
    + rewrite Ho. destruct (c_role C); eauto.
    + destruct (ep_open (set_busy s false)); eauto.
    + rewrite Ho. eauto.
Qed.

Definition can_run (L : net) (C : econf) (d : side) (s : endpoint) (i : instr) (inp : input) : Prop := exists s' pushed ev ms,
  exec C s i inp = Ok (s', pushed, ev) /\ Forall2 (fun f m => f = frame_of (e_kind (c_env C)) m) (frames ev) ms /\ length (d_out d) + length ms <= n_limit L.

Lemma streams_count E sess off l cs : streams E sess off l cs -> length l <= S (length (concat cs)).
Proof.
  intros [H1 H2]. destruct l as [|x l]; [cbn; lia|]. destruct cs as [|c0 cs]; [discriminate|]. cbn [length concat] in *. rewrite app_length. injection H1 as H1.
  enough (length l <= length (concat cs)) by lia.
  assert (Q : Forall (fun ck => ck <> []) cs).
  { apply Forall_forall. intros ck Hc. apply In_nth_error in Hc as [k Hk]. destruct (nth_error l k) as [y|] eqn:Ey; [|apply nth_error_None in Ey; assert (k < length cs) by (apply nth_error_Some; congruence); lia].
    destruct (H2 (S k) y ck Ey Hk) as [(? & ? & ? & ? & ? & ? & ? & ? & X) _]. apply X. lia. }
  rewrite H1. clear - Q. induction Q as [|ck cs Hc _ IH]; cbn; [lia|]. rewrite app_length. destruct ck; [congruence|]. cbn. lia.
Qed.

Section live.
Variables (L : net) (c : iconf) (h : responder_handshake).
Hypothesis OK : compatible L c h.
Notation request := (request L c).
Notation reply := (reply L h).
Notation is_si := (is_si L c h).
Notation is_sr := (is_sr L c h).
Notation EA := (c_env (n_ca L)).
Notation EB := (c_env (n_cb L)).
Notation core d := (fst (d_conf d)).
Notation stack d := (snd (d_conf d)).
Notation pa := (pa L c h).
Notation pb := (pb L c h).
Notation inv_with := (inv_with L c h).

Section a_steps.
Variables (a b : side) (now : Z) (eb : bool).
Notation ob := (d_out b).
Notation cb := (chunks (d_trace b)).
Hypothesis TM : timing L now (d_out a) ob.
Hypothesis NW : (0 <= now)%Z.
Hypothesis LA : length (d_out a) <= n_limit L.
Hypothesis LB : length ob <= n_limit L.
Hypothesis PB : pb (core b) ob (processed b) cb eb.
Variables (s : endpoint) (rest : list instr) (inp : input) (t1 t2 : Z).
Hypothesis TT : (now <= t1 <= t2)%Z.
Hypothesis TE : (t2 <= n_end L)%Z.
Hypothesis RM : room L a.

Lemma a_can_request : pa (core a) (stack a) (d_out a) (processed a) (chunks (d_trace a)) false ->
  d_conf a = (s, IHandshakeRequired :: rest) -> ep_state s = Idle -> answers_step L (n_oa L) ob a IHandshakeRequired inp t1 t2 -> can_run L (n_ca L) a s IHandshakeRequired inp.
Proof.
  intros HP Hd Hs [A1 A2 A3 [A4 A5] [A6 A6'] [A7 A8] A9]. unfold room in RM. rewrite Hd in *. cbn [fst snd] in *.
  assert (P0 : d_out a = [] /\ ep_busy s = false).
  { inversion HP; try congruence. auto 10. }
  destruct P0 as (P1 & P7). rewrite P7 in *. cbn [negb] in A1. specialize (A2 eq_refl).
  destruct (step_request_gen _ _ _ OK _ s inp eq_refl Hs A1 A2 A6') as (s' & pushed & ev & HX & -> & -> & Es').
  exists s', [], [EvQuery true; EvTx TxRequest (frame_of (e_kind EA) request)], [request]. split; [exact HX|]. split; [repeat constructor|]. rewrite P1. cbn [length]. lia.
Qed.

Lemma a_can_process ea m : side_ok ea a ob cb -> pa (core a) (stack a) (d_out a) (processed a) (chunks (d_trace a)) ea ->
  d_conf a = (s, IProcess m :: rest) -> answers_step L (n_oa L) ob a (IProcess m) inp t1 t2 -> can_run L (n_ca L) a s (IProcess m) inp.
Proof.
  intros HS HP Hd [A1 A2 A3 [A4 A5] [A6 A6'] [A7 A8] A9]. pose proof HS as [HL HW HT HH HAc HO]. rewrite Hd in A1, A2, A3, HL, HW, HH, HO. cbn [fst snd] in A1, A2, A3, HL, HW, HH, HO.
  destruct (HH m rest eq_refl) as (Hpos & x & Hx & Hm). specialize (A9 m eq_refl).
  assert (Hts : taken_sent ob a = fst x) by (unfold taken_sent; rewrite (nth_error_nth _ _ _ Hx); reflexivity). rewrite Hts in A9.
  assert (Hproc : processed a = pred (d_taken a)) by (unfold processed; rewrite Hd; cbn [snd at_head]; lia).
  assert (Hst : ep_payload s = None /\ ep_busy s = false /\ ep_open s = true).
  { destruct (lc_stack _ _ _ _ HL) as [X|[(m0 & r & X & _ & X1)|[[X _]|[[X _]|[[X _]|[X _]]]]]]; try discriminate; [inversion X; contradiction|exact X1]. }
  destruct Hst as (Hpl & Hbu & Hop). rewrite Hbu in *. specialize (A2 eq_refl). destruct TM as [TMa TMb TMab TMba].
  rewrite <- Hproc in Hx. unfold room in RM.
  assert (Hl0 : 0 < n_limit L) by lia.
  assert (Hxt : (0 <= fst x <= now)%Z). { rewrite Forall_forall in TMb. apply TMb. eapply nth_error_In; eauto. }
  rewrite Hd in HP. cbn [fst snd] in HP. inversion HP as [E1 E2 E3 E4 E7 E8 E9|i0 t0 E1 E2 E3 E4 E5 E7 E8|t0 u2 y si E1 E2 E3 E4 E5 E6 E7 E8 E9|t0 u2 y tail si E1 E2 E3 E4 E5]; subst ea.
  - (* no message can be here *) exfalso. destruct ob as [|[u v] r] eqn:Eb; [destruct (processed a); discriminate|]. destruct (TMab _ _ _ eq_refl) as (? & ? & ? & X & _). congruence.
  - (* the reply *) rewrite E2 in Hx. destruct ob as [|[u v] r] eqn:Eb; [discriminate|]. cbn in Hx. injection Hx as <-. cbn [fst snd] in *. subst v.
    assert (m = reply) as -> by (inversion PB; congruence).
    rewrite E1 in TMab, TMba, TMa. destruct (TMab _ _ _ eq_refl) as (t0' & m' & r' & X & Q). injection X as <- <- <-.
    pose proof (lc_up _ _ _ _ HL) as Hu. destruct (lc_down _ _ _ _ HL Hu) as [R1 R2].
    pose proof (Forall_inv TMa) as Q0. cbn [fst] in Q0.
    destruct (step_auth_gen _ _ _ OK _ s inp i0 (t0 + n_oa L) t1 eq_refl E4 E5 R1 A2) as (s' & pushed & ev & HX & si & y & i2 & k & Hsi & Hc & -> & Eev & Es' & Ek); try lia; [].
    exists s', [], ev, [y]. split; [exact HX|]. rewrite Eev. split; [repeat constructor|]. rewrite E1. cbn [length]. lia.
  - (* the authentication of the responder *) rewrite E2 in Hx. inversion PB as [B1 B2 B3 B5|tr sr B1 B2 B3 B4 B5 B6|tr z tail sr B1 B2 B3 B4 B5]; [rewrite B1 in Hx; discriminate|rewrite B1 in Hx; discriminate|].
    rewrite B1 in Hx. cbn in Hx. injection Hx as <-. destruct (streams_at _ _ _ _ _ 0 _ B4 eq_refl) as (ck & C1 & C2 & C3). specialize (C3 eq_refl). subst ck.
    rewrite E1 in TMab, TMba, TMa. destruct (TMab _ _ _ B1) as (t0' & m' & r' & X & Q). injection X as <- <- <-.
    pose proof (lc_up _ _ _ _ HL) as Hu. pose proof (Forall_inv TMa) as Q0. cbn [fst] in Q0. pose proof (Forall_inv (Forall_inv_tail TMa)) as Q1. cbn [fst] in Q1. subst m.
    destruct (step_open_a_gen _ _ _ OK _ s inp t0 tr u2 t1 si sr z eq_refl E5 B3) as (s' & pushed & ev & HX & msg & -> & Eev & Es'); auto; try lia; [].
    exists s', [IUpOpen; IAuthPayload None; ISetState Idle], ev, []. split; [exact HX|]. rewrite Eev. split; [constructor|]. cbn [length]. lia.
  - (* data *) inversion PB as [B1 B2 B3 B5|tr sr B1 B2 B3 B4 B5 B6|tr z tailb sr B1 B2 B3 B4 B5].
    { rewrite B1 in Hx. destruct (processed a); discriminate. }
    { rewrite B1 in Hx. destruct (processed a) as [|[|?]]; try lia. cbn in Hx. destruct n; discriminate. }
    rewrite B1 in Hx. destruct (processed a) as [|[|n]] eqn:En; try lia. change (nth_error (z :: tailb) (S n) = Some x) in Hx. destruct (streams_at _ _ _ _ _ _ _ B4 Hx) as (ck & C1 & C2 & _).
    rewrite E1 in TMab, TMba, TMa. destruct (TMab _ _ _ B1) as (t0' & m' & r' & X & Q). injection X as <- <- <-.
    pose proof (Forall_inv TMa) as Q0. cbn [fst] in Q0. pose proof (Forall_inv (Forall_inv_tail TMa)) as Q1. cbn [fst] in Q1. subst m.
    pose proof (si_faces _ _ _ OK t0 tr u2 si sr E3 B3 ltac:(lia) Q) as HF.
    replace (S (S n) - 2) with n in E5 by lia.
    assert (Hlen : S n < n_limit L). { assert (S n < length (z :: tailb)) by (apply nth_error_Some; congruence). rewrite B1 in LB. cbn in *. lia. }
    destruct (co_prims _ _ _ OK) as [_ HE]. destruct (co_buffers _ _ _ OK) as [Hbf _]. destruct (co_delay _ _ _ OK) as (_ & _ & Hpad).
    destruct (step_data_gen L c h OK _ (n_ca L) EB s inp si sr (n_oa L) (n_ob L) u2 n x ck (N.of_nat (S (length tail))) t1 eq_refl HF C2 E5 HE Hbf Hpad Hlen) as (s' & pushed & ev & HX & msg & -> & Eev & Hne & Es'); auto; try lia.
    exists s', [INonceChange; IUpRxReady], ev, []. split; [exact HX|]. rewrite Eev. split; [constructor|]. cbn [length]. lia.
Qed.

Lemma a_can_send : side_ok true a ob cb -> pa (core a) (stack a) (d_out a) (processed a) (chunks (d_trace a)) true ->
  d_conf a = (s, ICheckTransmit :: rest) -> ep_busy s = false -> ep_transmitting s = false -> ep_remainder s <> [] ->
  answers_step L (n_oa L) ob a ICheckTransmit inp t1 t2 -> can_run L (n_ca L) a s ICheckTransmit inp.
Proof.
  intros HS HP Hd Hbu Htr Hre [A1 A2 A3 [A4 A5] [A6 A6'] [A7 A8] A9]. pose proof HS as [HL HW HT HH HAc HO]. rewrite Hd in A1, A2, A3, HL, HW, HH, HO, HP. cbn [fst snd] in A1, A2, A3, HL, HW, HH, HO, HP.
  rewrite Hbu in A1, A2. cbn [negb] in A1. specialize (A2 eq_refl). pose proof TM as [TMa TMb TMab TMba]. inversion HP as [| | |t0 u2 y tail si E1 E2 E3 E4 E5].
  rewrite E1 in TMab, TMba, TMa. pose proof (Forall_inv TMa) as Q0. cbn [fst] in Q0. pose proof (Forall_inv (Forall_inv_tail TMa)) as Q1. cbn [fst] in Q1.
  destruct (si_known _ _ _ OK _ _ _ E3) as (V & Kl & Tx & Rx & Mn & Mt & St). destruct (co_prims _ _ _ OK) as [HP1 HE]. destruct (co_frames _ _ _ OK) as [Hf _]. destruct (co_end _ _ _ OK) as [He _].
  assert (Hlim : 3 + length tail <= n_limit L).
  { unfold room, given in RM. rewrite (lc_given _ _ _ _ HL), app_length in RM. apply streams_count in E4. cbn [length] in E4. destruct (ep_remainder s); [congruence|]. cbn [length] in RM. lia. }
  destruct (step_send_gen L c h OK _ (n_ca L) s inp si (n_oa L) (length tail) (N.of_nat (processed a - 2)) t1 eq_refl) as (s' & pushed & ev & HX & z & rest' & Hc & -> & Eev & Er & Hb & Es'); auto; try lia.
  { exact (lc_bytes _ _ _ _ HL). }
  exists s', [INonceChange], ev, [z]. split; [exact HX|]. rewrite Eev. split; [repeat constructor|]. rewrite E1. cbn [length]. lia.
Qed.
End a_steps.

Section b_steps.
Variables (a b : side) (now : Z) (ea : bool).
Notation oa := (d_out a).
Notation ca := (chunks (d_trace a)).
Hypothesis TM : timing L now oa (d_out b).
Hypothesis NW : (0 <= now)%Z.
Hypothesis LA : length oa <= n_limit L.
Hypothesis LB : length (d_out b) <= n_limit L.
Hypothesis PA : pa (core a) (stack a) oa (processed a) ca ea.
Variables (s : endpoint) (rest : list instr) (inp : input) (t1 t2 : Z).
Hypothesis TT : (now <= t1 <= t2)%Z.
Hypothesis TE : (t2 <= n_end L)%Z.
Hypothesis RM : room L b.

Lemma b_can_process eb m : side_ok eb b oa ca -> pb (core b) (d_out b) (processed b) (chunks (d_trace b)) eb ->
  d_conf b = (s, IProcess m :: rest) -> answers_step L (n_ob L) oa b (IProcess m) inp t1 t2 -> can_run L (n_cb L) b s (IProcess m) inp.
Proof.
  intros HS HP Hd [A1 A2 A3 [A4 A5] [A6 A6'] [A7 A8] A9]. pose proof HS as [HL HW HT HH HAc HO]. rewrite Hd in A1, A2, A3, HL, HW, HH, HO. cbn [fst snd] in A1, A2, A3, HL, HW, HH, HO.
  destruct (HH m rest eq_refl) as (Hpos & x & Hx & Hm). specialize (A9 m eq_refl).
  assert (Hts : taken_sent oa b = fst x) by (unfold taken_sent; rewrite (nth_error_nth _ _ _ Hx); reflexivity). rewrite Hts in A9.
  assert (Hproc : processed b = pred (d_taken b)) by (unfold processed; rewrite Hd; cbn [snd at_head]; lia).
  assert (Hst : ep_payload s = None /\ ep_busy s = false /\ ep_open s = true).
  { destruct (lc_stack _ _ _ _ HL) as [X|[(m0 & r & X & _ & X1)|[[X _]|[[X _]|[[X _]|[X _]]]]]]; try discriminate; [inversion X; contradiction|exact X1]. }
  destruct Hst as (Hpl & Hbu & Hop). rewrite Hbu in *. specialize (A2 eq_refl). pose proof TM as [TMa TMb TMab TMba].
  rewrite <- Hproc in Hx. unfold room in RM.
  assert (Hxt : (0 <= fst x <= now)%Z). { rewrite Forall_forall in TMa. apply TMa. eapply nth_error_In; eauto. }
  rewrite Hd in HP. cbn [fst snd] in HP. inversion HP as [E1 E2 E3 E5|u1 sr E1 E2 E3 E4 E5 E6|u1 y tail sr E1 E2 E3 E4 E5]; subst eb.
  - (* the request *) rewrite E2 in Hx.
    assert (Hreq : exists t0 r, oa = (t0, request) :: r /\ x = (t0, request)).
    { inversion PA as [X1|? t0 X1|t0 u2 z si X1|t0 u2 z tail si X1]; rewrite X1 in Hx; cbn in Hx; try discriminate; injection Hx as <-; eauto. }
    destruct Hreq as (t0 & r & Eo & ->). cbn [fst snd] in *. subst m.
    destruct (step_reply_gen _ _ _ OK _ s inp eq_refl A6) as (s' & pushed & ev & HX & sr & Hsr & -> & Eev & Es').
    exists s', [], ev, [reply]. split; [exact HX|]. rewrite Eev. split; [repeat constructor|]. rewrite E1. cbn [length]. lia.
  - (* the authentication of the initiator *) rewrite E2 in Hx.
    assert (Hau : exists t0 u2 z tail si, oa = (t0, request) :: (u2, z) :: tail /\ is_si (t0 + n_oa L) (u2 + n_oa L) si /\ streams EA si (n_oa L) ((u2, z) :: tail) ca).
    { inversion PA as [X1|? t0 X1|t0 u2 z si X1 X2 X3 X4 X5 X6|t0 u2 z tail si X1 X2 X3 X4]; [rewrite X1 in Hx; discriminate|rewrite X1 in Hx; discriminate| |]; eauto 12. }
    destruct Hau as (t0 & u2 & z & tail & si & B1 & B3 & B4).
    rewrite B1 in Hx. cbn in Hx. injection Hx as <-. destruct (streams_at _ _ _ _ _ 0 _ B4 eq_refl) as (ck & C1 & C2 & C3). specialize (C3 eq_refl). subst ck.
    destruct (TMba _ _ _ _ B1) as (t1' & m' & r' & X & Q). rewrite E1 in X. injection X as <- <- <-. cbn [fst] in Q.
    pose proof (lc_up _ _ _ _ HL) as Hu. destruct (lc_down _ _ _ _ HL Hu) as [R1 R2]. rewrite E1 in TMb. pose proof (Forall_inv TMb) as Q0. cbn [fst] in Q0. subst m.
    assert (Hl0 : 0 < n_limit L) by lia.
    destruct (step_open_b_gen _ _ _ OK _ s inp t0 u1 u2 t1 t2 si sr (u2, z) eq_refl B3 E4) as (s' & pushed & ev & HX & msg & w & Hc & -> & Eev & Es'); auto; try lia.
    exists s', [IUpOpen; IAuthPayload None], ev, [w]. split; [exact HX|]. rewrite Eev. split; [repeat constructor|]. rewrite E1. cbn [length]. lia.
  - (* data *)
    assert (Hau : exists t0 u2 z taila si, oa = (t0, request) :: (u2, z) :: taila /\ is_si (t0 + n_oa L) (u2 + n_oa L) si /\ streams EA si (n_oa L) ((u2, z) :: taila) ca).
    { inversion PA as [X1|? t0 X1|t0 u2 z si X1 X2 X3 X4 X5 X6|t0 u2 z taila si X1 X2 X3 X4].
      - rewrite X1 in Hx. destruct (processed b); discriminate.
      - rewrite X1 in Hx. destruct (processed b) as [|[|n]]; try lia. cbn in Hx. destruct n; discriminate.
      - eauto 12.
      - eauto 12. }
    destruct Hau as (t0 & u2 & z & taila & si & B1 & B3 & B4).
    rewrite B1 in Hx. destruct (processed b) as [|[|n]] eqn:En; try lia. change (nth_error ((u2, z) :: taila) (S n) = Some x) in Hx. destruct (streams_at _ _ _ _ _ _ _ B4 Hx) as (ck & C1 & C2 & _).
    destruct (TMba _ _ _ _ B1) as (t1' & m' & r' & X & Q). rewrite E1 in X. injection X as <- <- <-. cbn [fst] in Q.
    rewrite E1 in TMb. pose proof (Forall_inv TMb) as Q0. cbn [fst] in Q0. subst m.
    pose proof (sr_faces _ _ _ OK t0 u1 u2 si sr B3 E3 ltac:(lia) Q) as HF.
    replace (S (S n) - 2) with n in E5 by lia.
    assert (Hlen : S n < n_limit L). { assert (S n < length ((u2, z) :: taila)) by (apply nth_error_Some; congruence). rewrite B1 in LA. cbn in *. lia. }
    destruct (co_prims _ _ _ OK) as [_ HE]. destruct (co_buffers _ _ _ OK) as [_ Hbf]. destruct (co_delay _ _ _ OK) as (_ & Hpad & _).
    destruct (step_data_gen L c h OK _ (n_cb L) EA s inp sr si (n_ob L) (n_oa L) u1 n x ck (N.of_nat (S (length tail))) t1 eq_refl HF C2 E5 (eq_sym HE) Hbf Hpad Hlen) as (s' & pushed & ev & HX & msg & -> & Eev & Hne & Es'); auto; try lia.
    exists s', [INonceChange; IUpRxReady], ev, []. split; [exact HX|]. rewrite Eev. split; [constructor|]. cbn [length]. lia.
Qed.

Lemma b_can_send : side_ok true b oa ca -> pb (core b) (d_out b) (processed b) (chunks (d_trace b)) true ->
  d_conf b = (s, ICheckTransmit :: rest) -> ep_busy s = false -> ep_transmitting s = false -> ep_remainder s <> [] ->
  answers_step L (n_ob L) oa b ICheckTransmit inp t1 t2 -> can_run L (n_cb L) b s ICheckTransmit inp.
Proof.
  intros HS HP Hd Hbu Htr Hre [A1 A2 A3 [A4 A5] [A6 A6'] [A7 A8] A9]. pose proof HS as [HL HW HT HH HAc HO]. rewrite Hd in A1, A2, A3, HL, HW, HH, HO, HP. cbn [fst snd] in A1, A2, A3, HL, HW, HH, HO, HP.
  rewrite Hbu in A1, A2. cbn [negb] in A1. specialize (A2 eq_refl). pose proof TM as [TMa TMb TMab TMba]. inversion HP as [| |u1 y tail sr E1 E2 E3 E4 E5].
  rewrite E1 in TMb. pose proof (Forall_inv TMb) as Q0. cbn [fst] in Q0.
  destruct (sr_known _ _ _ OK _ _ E3) as (V & Kl & Tx & Rx & Mn & Mt & St). destruct (co_prims _ _ _ OK) as [HP1 HE]. destruct (co_frames _ _ _ OK) as [_ Hf]. destruct (co_end _ _ _ OK) as [_ He].
  assert (Hlim : 3 + length tail <= n_limit L).
  { unfold room, given in RM. rewrite (lc_given _ _ _ _ HL), app_length in RM. apply streams_count in E4. cbn [length] in E4. destruct (ep_remainder s); [congruence|]. cbn [length] in RM. lia. }
  destruct (step_send_gen L c h OK _ (n_cb L) s inp sr (n_ob L) (length tail) (N.of_nat (processed b - 2)) t1 eq_refl) as (s' & pushed & ev & HX & z & rest' & Hc & -> & Eev & Er & Hb & Es'); auto; try lia.
  { rewrite HE. exact HP1. }
  { exact (lc_bytes _ _ _ _ HL). }
  exists s', [INonceChange], ev, [z]. split; [exact HX|]. rewrite Eev. split; [repeat constructor|]. rewrite E1. cbn [length]. lia.
Qed.
End b_steps.

Lemma a_can ea eb now a b s i rest inp t1 t2 : inv_with ea eb now a b -> d_conf a = (s, i :: rest) -> (now <= t1 <= t2)%Z -> (t2 <= n_end L)%Z ->
  answers_step L (n_oa L) (d_out b) a i inp t1 t2 -> room L a -> can_run L (n_ca L) a s i inp.
Proof.
  intros (SA & SB & PA & PB & TM & NW & LA & LB) Hd TT TE HA RM.
  pose proof (sk_local _ _ _ _ SA) as HL. rewrite Hd in HL. cbn [fst snd] in HL. pose proof (stack_head _ _ _ _ (lc_stack _ _ _ _ HL)) as Hi.
  assert (Hquiet : (forall m, i <> IProcess m) -> i <> IHandshakeRequired -> (i = ICheckTransmit -> ep_busy s = true \/ ep_transmitting s = true \/ ep_remainder s = [] \/ ea = false) -> can_run L (n_ca L) a s i inp).
  { intros N1 N2 N4.
    assert (Hnt : forall c', c_role (n_ca L) = Initiator c' -> i = INonceChange -> ea = true -> (N.max (s_tx_nonce (ep_active s)) (s_rx_nonce (ep_active s)) < ic_nonce_trigger c')%N).
    { intros c' Hr Ei Ee. rewrite (proj1 (co_roles _ _ _ OK)) in Hr. injection Hr as <-. destruct (co_limit _ _ _ OK) as [_ Hl]. subst ea.
      inversion PA as [| | |t0 u2 y tail si E1 E2 E3 E4 E5]. rewrite Hd in E5. cbn [fst] in E5. rewrite E5. cbn [at_nonces s_tx_nonce s_rx_nonce set_tx_nonce set_rx_nonce].
      pose proof (sk_taken _ _ _ _ SA) as Ht. unfold processed in *. rewrite E1 in LA. cbn in LA. lia. }
    assert (Hval : ea = false -> s_valid (ep_active s) = false) by (intros ->; pose proof (pa_invalid _ _ _ _ _ _ _ _ PA) as X; rewrite Hd in X; exact X).
    destruct (quiet_exec (n_ca L) _ _ _ _ _ _ _ _ _ _ _ _ SA Hd HA N1 N2 N4 Hval) as (s' & pushed & ev & HX). exists s', pushed, ev, []. split; [exact HX|].
    assert (Hf : frames ev = []); [|rewrite Hf; split; [constructor|cbn [length]; lia]].
    assert (D : i = ICall LowerOpen \/ i <> ICall LowerOpen) by (destruct i as [[]| | | | | | | | | | | | |]; auto; right; discriminate). destruct D as [->|N3].
    - cbn [exec enter] in HX. destruct (ep_open s); [injection HX as _ _ <-; reflexivity|]. destruct (c_role (n_ca L)); injection HX as _ _ <-; reflexivity.
    - destruct (side_run L (n_ca L) (n_oa L) (d_out b) a s i rest inp t1 t2 s' pushed ev ea (chunks (d_trace b)) SA Hd HA HX) as [Q1 Q2 Q3 Q4 Q5 Q6 Q7]; auto.
      intros x Hx. eapply pb_nonempty; eauto. }
  destruct Hi as [F|[[m ->]|[Hr Hi]]].
  - assert (N : (forall m, i <> IProcess m) /\ i <> IHandshakeRequired) by (repeat split; intros; intros ->; exact F). destruct N as (N1 & N2).
    destruct (ep_busy s) eqn:B; [apply Hquiet; auto|]. destruct (ep_transmitting s) eqn:Tr; [apply Hquiet; auto|]. destruct (ep_remainder s) eqn:Re; [apply Hquiet; auto|]. destruct ea; [|apply Hquiet; auto].
    destruct i; try (apply Hquiet; auto; discriminate). eapply a_can_send; eauto. congruence.
  - eapply a_can_process; eauto.
  - destruct Hi as [[-> Ho]|[[-> Hb]|[[-> Ho]|(-> & Ho & -> & Hs)]]]; try (apply Hquiet; try discriminate; intros; discriminate).
    eapply a_can_request; eauto.
Qed.
Lemma b_can ea eb now a b s i rest inp t1 t2 : inv_with ea eb now a b -> d_conf b = (s, i :: rest) -> (now <= t1 <= t2)%Z -> (t2 <= n_end L)%Z ->
  answers_step L (n_ob L) (d_out a) b i inp t1 t2 -> room L b -> can_run L (n_cb L) b s i inp.
Proof.
  intros (SA & SB & PA & PB & TM & NW & LA & LB) Hd TT TE HA RM.
  pose proof (sk_local _ _ _ _ SB) as HL. rewrite Hd in HL. cbn [fst snd] in HL. pose proof (stack_head _ _ _ _ (lc_stack _ _ _ _ HL)) as Hi.
  assert (Hquiet : (forall m, i <> IProcess m) -> i <> IHandshakeRequired -> (i = ICheckTransmit -> ep_busy s = true \/ ep_transmitting s = true \/ ep_remainder s = [] \/ eb = false) -> can_run L (n_cb L) b s i inp).
  { intros N1 N2 N4.
    assert (Hval : eb = false -> s_valid (ep_active s) = false) by (intros ->; pose proof (pb_invalid _ _ _ _ _ _ _ PB) as X; rewrite Hd in X; exact X).
    destruct (quiet_exec (n_cb L) _ _ _ _ _ _ _ _ _ _ _ _ SB Hd HA N1 N2 N4 Hval) as (s' & pushed & ev & HX). exists s', pushed, ev, []. split; [exact HX|].
    assert (Hf : frames ev = []); [|rewrite Hf; split; [constructor|cbn [length]; lia]].
    assert (D : i = ICall LowerOpen \/ i <> ICall LowerOpen) by (destruct i as [[]| | | | | | | | | | | | |]; auto; right; discriminate). destruct D as [->|N3].
    - cbn [exec enter] in HX. destruct (ep_open s); [injection HX as _ _ <-; reflexivity|]. destruct (c_role (n_cb L)); injection HX as _ _ <-; reflexivity.
    - destruct (side_run L (n_cb L) (n_ob L) (d_out a) b s i rest inp t1 t2 s' pushed ev eb (chunks (d_trace a)) SB Hd HA HX) as [Q1 Q2 Q3 Q4 Q5 Q6 Q7]; auto.
      + intros x Hx. eapply pa_nonempty; eauto.
      + intros c' Hr. rewrite (proj2 (co_roles _ _ _ OK)) in Hr. discriminate. }
  destruct Hi as [F|[[m ->]|[Hr Hi]]].
  - assert (N : (forall m, i <> IProcess m) /\ i <> IHandshakeRequired) by (repeat split; intros; intros ->; exact F). destruct N as (N1 & N2).
    destruct (ep_busy s) eqn:B; [apply Hquiet; auto|]. destruct (ep_transmitting s) eqn:Tr; [apply Hquiet; auto|]. destruct (ep_remainder s) eqn:Re; [apply Hquiet; auto|]. destruct eb; [|apply Hquiet; auto].
    destruct i; try (apply Hquiet; auto; discriminate). eapply b_can_send; eauto. congruence.
  - eapply b_can_process; eauto.
  - destruct Hi as [[-> Ho]|[[-> Hb]|[[-> Ho]|(-> & Ho & -> & Hs)]]]; try (apply Hquiet; try discriminate; intros; discriminate).
    exists s, [], [], []. cbn [exec]. rewrite (proj2 (co_roles _ _ _ OK)). split; [reflexivity|]. split; [constructor|cbn [length]; lia].
Qed.

(** ** The work left *)
Definition total (x : line) : nat := cost (d_out (l_b x)) (l_a x) + cost (d_out (l_a x)) (l_b x).
Lemma cost_same out d : cost out (informed out out d) <= cost out d.
Proof. pose proof (cost_informed out [] d) as X. rewrite app_nil_r in X. cbn [length] in X. lia. Qed.
Lemma calm_total ea eb x y : inv_with ea eb (l_now x) (l_a x) (l_b x) -> line_calm L x y -> total y < total x.
Proof.
  intros I [a' now' H|b' now' H]; unfold total; cbn [l_a l_b informed d_out].
  - destruct H as [K O|K B|K O W|K P|s i rest inp t1 t2 s' pushed ev ms Hd TT TE HA HC HX FR LM].
    + pose proof (cost_call (d_out (l_b x)) (l_a x) LowerOpen (d_owed (l_a x)) K ltac:(auto 10)). pose proof (cost_same (d_out (l_a x)) (l_b x)). cbn [call_in d_out] in *. lia.
    + pose proof (cost_call (d_out (l_b x)) (l_a x) LowerTxReady (d_owed (l_a x)) K ltac:(auto 10)). pose proof (cost_same (d_out (l_a x)) (l_b x)). cbn [call_in d_out] in *. lia.
    + pose proof (cost_call (d_out (l_b x)) (l_a x) LowerRxReady false K ltac:(auto 10)). pose proof (cost_same (d_out (l_a x)) (l_b x)). cbn [call_in d_out] in *. lia.
    + pose proof (cost_call (d_out (l_b x)) (l_a x) StartRx (d_owed (l_a x)) K ltac:(auto 10)). pose proof (cost_same (d_out (l_a x)) (l_b x)). cbn [call_in d_out] in *. lia.
    + destruct (a_run _ _ _ OK _ _ _ _ _ _ _ _ _ _ _ _ _ _ _ I Hd TT TE HA HX FR LM) as (e & more & mcs & N0 & N1 & N2 & N3 & N4 & N5 & N6). specialize (N0 HC).
      fold (stepped (l_a x) s' (pushed ++ rest) ev (map (pair t1) ms)). rewrite N3. pose proof (cost_informed (d_out (l_a x)) more (l_b x)). lia.
  - destruct H as [K O|K B|K O W|K P|s i rest inp t1 t2 s' pushed ev ms Hd TT TE HA HC HX FR LM].
    + pose proof (cost_call (d_out (l_a x)) (l_b x) LowerOpen (d_owed (l_b x)) K ltac:(auto 10)). pose proof (cost_same (d_out (l_b x)) (l_a x)). cbn [call_in d_out] in *. lia.
    + pose proof (cost_call (d_out (l_a x)) (l_b x) LowerTxReady (d_owed (l_b x)) K ltac:(auto 10)). pose proof (cost_same (d_out (l_b x)) (l_a x)). cbn [call_in d_out] in *. lia.
    + pose proof (cost_call (d_out (l_a x)) (l_b x) LowerRxReady false K ltac:(auto 10)). pose proof (cost_same (d_out (l_b x)) (l_a x)). cbn [call_in d_out] in *. lia.
    + pose proof (cost_call (d_out (l_a x)) (l_b x) StartRx (d_owed (l_b x)) K ltac:(auto 10)). pose proof (cost_same (d_out (l_b x)) (l_a x)). cbn [call_in d_out] in *. lia.
    + destruct (b_run _ _ _ OK _ _ _ _ _ _ _ _ _ _ _ _ _ _ _ I Hd TT TE HA HX FR LM) as (e & more & mcs & N0 & N1 & N2 & N3 & N4 & N5 & N6). specialize (N0 HC).
      fold (stepped (l_b x) s' (pushed ++ rest) ev (map (pair t1) ms)). rewrite N3. pose proof (cost_informed (d_out (l_b x)) more (l_a x)). lia.
Qed.

(** ** There is always something that can be done, until everything is *)
Definition punctual (out : list (Z * list N)) (d : side) (now : Z) : Prop := forall m rest, stack d = IProcess m :: rest -> (now <= taken_sent out d + n_delay L)%Z.
Definition plain_input (off : Z) (out : list (Z * list N)) (now : Z) (d : side) : input :=
  {| in_now := (now + off)%Z; in_now2 := (now + off)%Z; in_ready := negb (ep_busy (fst (d_conf d)));
     in_message := if ep_open (fst (d_conf d)) then match waiting out d with (_, m) :: _ => m | [] => [] end else [];
     in_started := true; in_calls := []; in_answers := n_ans L; in_ianswers := n_ia L; in_scratch := [] |}.
Lemma plain_ok off out now d s i rest : d_conf d = (s, i :: rest) -> punctual out d now -> answers_step L off out d i (plain_input off out now d) now now.
Proof. intros Hd HP. constructor; cbn; auto. intros m ->. apply (HP m rest). rewrite Hd. reflexivity. Qed.
Lemma idle_calm C off out now d : stack d = [] -> (exists d' now', side_calm L C off out now d d' now') \/ at_rest d.
Proof.
  intros K. destruct (ep_open (core d)) eqn:O; [|left; do 2 eexists; apply sc_open; auto]. destruct (ep_busy (core d)) eqn:B; [left; do 2 eexists; apply sc_sent; auto|].
  destruct (d_owed d) eqn:W; [left; do 2 eexists; apply sc_arrived; auto|]. destruct (ep_payload (core d)) eqn:P; [left; do 2 eexists; apply sc_read; auto; congruence|]. right. repeat split; auto.
Qed.
Lemma progress ea eb x : inv_with ea eb (l_now x) (l_a x) (l_b x) -> (l_now x <= n_end L)%Z -> room L (l_a x) -> room L (l_b x) ->
  punctual (d_out (l_b x)) (l_a x) (l_now x) -> punctual (d_out (l_a x)) (l_b x) (l_now x) -> (exists y, line_calm L x y) \/ (at_rest (l_a x) /\ at_rest (l_b x)).
Proof.
  intros I He Ra Rb Pa Pb.
  assert (A : (exists a' now', side_calm L (n_ca L) (n_oa L) (d_out (l_b x)) (l_now x) (l_a x) a' now') \/ at_rest (l_a x)).
  { destruct (d_conf (l_a x)) as [s [|i rest]] eqn:Hd; [apply idle_calm; rewrite Hd; reflexivity|]. left. pose proof (plain_ok (n_oa L) _ _ _ _ _ _ Hd Pa) as HA.
    destruct (a_can _ _ _ _ _ _ _ _ _ (l_now x) (l_now x) I Hd ltac:(lia) He HA Ra) as (s' & pushed & ev & ms & HX & FR & LM). do 2 eexists. eapply sc_run; eauto; lia. }
  assert (B : (exists b' now', side_calm L (n_cb L) (n_ob L) (d_out (l_a x)) (l_now x) (l_b x) b' now') \/ at_rest (l_b x)).
  { destruct (d_conf (l_b x)) as [s [|i rest]] eqn:Hd; [apply idle_calm; rewrite Hd; reflexivity|]. left. pose proof (plain_ok (n_ob L) _ _ _ _ _ _ Hd Pb) as HA.
    destruct (b_can _ _ _ _ _ _ _ _ _ (l_now x) (l_now x) I Hd ltac:(lia) He HA Rb) as (s' & pushed & ev & ms & HX & FR & LM). do 2 eexists. eapply sc_run; eauto; lia. }
  destruct A as [(a' & now' & A)|A]; [left; eexists; apply lc_a; exact A|]. destruct B as [(b' & now' & B)|B]; [left; eexists; apply lc_b; exact B|]. right. auto.
Qed.

(** ** What lasts *)
Lemma in_progress_app k k' : in_progress (k ++ k') = in_progress k + in_progress k'.
Proof. unfold in_progress. induction k as [|i k IH]; cbn [app fold_right]; [reflexivity|]. rewrite IH. lia. Qed.
Lemma room_calm C off out now d d' now' : room L d -> side_calm L C off out now d d' now' -> room L d'.
Proof.
  unfold room, given. intros R [K O|K B|K O W|K P|s i rest inp t1 t2 s' pushed ev ms Hd TT TE HA HC HX FR LM]; try (cbn [call_in d_conf d_trace snd in_progress fold_right]; rewrite K in R; cbn in *; lia).
  cbn [d_conf snd d_trace]. rewrite Hd in R. cbn [snd] in R. pose proof (pushed_data _ _ _ _ _ _ _ HX HC) as X. rewrite (proj1 (traces_app _ _)), concat_app, app_length, in_progress_app.
  change (i :: rest) with ([i] ++ rest) in R. rewrite in_progress_app in R. lia.
Qed.
Lemma Forall_skipn_le {A} (P : A -> Prop) n m l : n <= m -> Forall P (skipn n l) -> Forall P (skipn m l).
Proof.
  intros H F. rewrite Forall_forall in *. intros x Hx. apply F. replace m with (n + (m - n)) in Hx by lia. remember (m - n) as k eqn:Ek. clear Ek F H. revert l Hx. induction n as [|n IH]; intros l Hx.
  - cbn [plus skipn] in *. rewrite <- (firstn_skipn k l), in_app_iff. auto.
  - destruct l as [|y l]; [rewrite skipn_nil in Hx; destruct Hx|]. cbn [plus skipn] in *. apply IH. exact Hx.
Qed.
Lemma unprocessed_calm C off out now d d' now' P e cs : side_ok e d out cs -> Forall P (unprocessed out d) -> side_calm L C off out now d d' now' -> Forall P (unprocessed out d').
Proof.
  unfold unprocessed. intros HS F [K O|K B|K O W|K Q|s i rest inp t1 t2 s' pushed ev ms Hd TT TE HA HC HX FR LM]; try (cbn [call_in d_conf d_taken snd]; rewrite K in F; exact F).
  cbn [d_conf snd d_taken]. rewrite Hd in F. cbn [snd] in F. pose proof (pushed_head _ _ _ _ _ _ _ HX) as X. pose proof (sk_local _ _ _ _ HS) as HL. rewrite Hd in HL. cbn [fst snd] in HL.
  pose proof (stack_fine _ _ _ _ (lc_stack _ _ _ _ HL)) as Hf. apply fine_no_process, no_process_head in Hf.
  assert (Y : match pushed ++ rest with IProcess _ :: _ => 1 | _ => 0 end <= takes ev) by (destruct pushed as [|p pushed]; [fold (at_head rest) in *; cbn [app]; fold (at_head rest); lia|destruct p; cbn in *; lia]).
  eapply Forall_skipn_le; [|exact F]. lia.
Qed.
Lemma unprocessed_informed P out more d : Forall P (unprocessed out d) -> Forall P more -> Forall P (unprocessed (out ++ more) (informed out (out ++ more) d)).
Proof.
  unfold unprocessed. cbn [informed d_conf d_taken]. intros F G. rewrite skipn_app. apply Forall_app. split; [exact F|]. apply (Forall_skipn_le P 0); [lia|exact G].
Qed.
Lemma calm_out C off out now d d' now' : side_calm L C off out now d d' now' -> exists more, d_out d' = d_out d ++ more /\ Forall (fun m => now <= fst m)%Z more /\ (now <= now')%Z.
Proof.
  intros [K O|K B|K O W|K Q|s i rest inp t1 t2 s' pushed ev ms Hd TT TE HA HC HX FR LM]; try (exists []; rewrite app_nil_r; split; [reflexivity|split; [constructor|lia]]).
  exists (map (pair t1) ms). split; [reflexivity|]. split; [|lia]. rewrite Forall_map. apply Forall_forall. intros m _. cbn. lia.
Qed.
Lemma timely_informed deadline now out more d : (deadline <= now + n_delay L)%Z -> Forall (fun m => deadline <= fst m + n_delay L)%Z (unprocessed out d) -> Forall (fun m => now <= fst m)%Z more ->
  Forall (fun m => deadline <= fst m + n_delay L)%Z (unprocessed (out ++ more) (informed out (out ++ more) d)).
Proof. intros H F G. apply unprocessed_informed; [exact F|]. eapply Forall_impl; [|exact G]. cbn. intros. lia. Qed.

Lemma in_time_calm ea eb deadline x y : inv_with ea eb (l_now x) (l_a x) (l_b x) -> in_time L deadline x -> line_calm L x y -> in_time L deadline y.
Proof.
  intros (SA & SB & _) (T1 & T2 & T3 & T4) [a' now' H|b' now' H]; unfold in_time; cbn [l_now l_a l_b informed d_out]; destruct (calm_out _ _ _ _ _ _ _ H) as (more & M1 & M2 & M3); (split; [exact T1|]; split; [lia|]).
  - split; [eapply unprocessed_calm; eauto|]. rewrite M1. eapply timely_informed; eauto.
  - split; [|eapply unprocessed_calm; eauto]. rewrite M1. eapply timely_informed; eauto.
Qed.
Lemma in_time_punctual deadline now out d e cs : side_ok e d out cs -> Forall (fun m => deadline <= fst m + n_delay L)%Z (unprocessed out d) -> (now <= deadline)%Z -> punctual out d now.
Proof.
  intros HS F Hn m rest Hk. destruct (sk_head _ _ _ _ HS m rest Hk) as (Hp & x & Hx & _). unfold unprocessed in F. rewrite Hk in F. unfold taken_sent. rewrite (nth_error_nth _ _ _ Hx).
  assert (X : In x (skipn (d_taken d - 1) out)). { replace (d_taken d - 1) with (pred (d_taken d)) by lia. apply nth_error_split in Hx as (l1 & l2 & -> & Hl). rewrite <- Hl, skipn_app, skipn_all, Nat.sub_diag. cbn. auto. }
  rewrite Forall_forall in F. specialize (F _ X). lia.
Qed.

Theorem line_inevitable deadline x : invariant_of L c h x -> room L (l_a x) -> room L (l_b x) -> in_time L deadline x ->
  inevitable L (fun y => (deadline < l_now y)%Z \/ all_delivered y) x.
Proof.
  remember (total x) as n eqn:En. revert x En. induction n as [n IH] using lt_wf_ind. intros x -> R Ra Rb T.
  destruct (Z.lt_ge_cases deadline (l_now x)) as [Hl|Hl]; [apply iv_now; auto|].
  pose proof R as (ea & eb & I). pose proof I as (SA & SB & _). pose proof T as (T1 & T2 & T3 & T4).
  destruct (progress _ _ _ I ltac:(lia) Ra Rb (in_time_punctual _ _ _ _ _ _ SA T3 Hl) (in_time_punctual _ _ _ _ _ _ SB T4 Hl)) as [P|[P Q]].
  - apply iv_next; [exact P|]. intros y Hy. apply (IH (total y)); auto.
    + eapply calm_total; eauto.
    + eapply inv_step; [exact OK|exact R|apply calm_line, Hy].
    + destruct Hy as [a' now' H|b' now' H]; cbn [l_a]; [exact (room_calm _ _ _ _ _ _ _ Ra H)|exact Ra].
    + destruct Hy as [a' now' H|b' now' H]; cbn [l_b]; [exact Rb|exact (room_calm _ _ _ _ _ _ _ Rb H)].
    + eapply in_time_calm; eauto.
  - apply iv_now. right. destruct (line_delivered _ _ _ _ R P Q) as ((D1 & D2) & D3 & D4). repeat split; auto; apply P || apply Q || apply D3 || apply D4.
Qed.

Theorem line_never_stuck x : invariant_of L c h x ->
  (forall s i rest inp t1 t2, d_conf (l_a x) = (s, i :: rest) -> (l_now x <= t1 <= t2)%Z -> (t2 <= n_end L)%Z -> room L (l_a x) ->
    answers_step L (n_oa L) (d_out (l_b x)) (l_a x) i inp t1 t2 -> can_run L (n_ca L) (l_a x) s i inp) /\
  (forall s i rest inp t1 t2, d_conf (l_b x) = (s, i :: rest) -> (l_now x <= t1 <= t2)%Z -> (t2 <= n_end L)%Z -> room L (l_b x) ->
    answers_step L (n_ob L) (d_out (l_a x)) (l_b x) i inp t1 t2 -> can_run L (n_cb L) (l_b x) s i inp).
Proof.
  intros (ea & eb & I). split; intros s i rest inp t1 t2 Hd TT TE RM HA; [eapply a_can|eapply b_can]; eauto.
Qed.
End live.
