(** * TunnelLive: two proxies get everything through *)
From Verif Require Import Base BaseFacts Codec CodecSpec CodecFacts Link LinkLayer Primitives Session SessionSpec SessionFacts SessionMain
  Handshake HandshakeSpec HandshakeFacts HandshakeMain HandshakePair Endpoint EndpointSpec EndpointFacts EndpointMain EndpointRx EndpointTx EndpointNonce PairSpec Line LineSpec LineMsgs LineHandshake LineLocal LineSide LineCost LineFacts LineLive Tunnel TunnelSpec TunnelFacts.

Lemma starting_length k : length (starting k) = in_progress k.
Proof. unfold starting, in_progress. induction k as [|[[]| | | | | | | | | | | | |] k IH]; cbn [flat_map fold_right app length]; rewrite ?app_length, ?IH; reflexivity. Qed.
Lemma has_room_room L p : stn p -> has_room L p -> room L (t_side p).
Proof. unfold has_room, room. intros HT H. rewrite (tn_sent _ HT), !app_length, starting_length in H. lia. Qed.

Section live.
Variables (L : net) (c : iconf) (h : responder_handshake).
Hypothesis OK : compatible L c h.

(** ** The work left *)
Definition work (x : tunnel) : nat := total (line_of x) + 50 * (length (t_in (u_a x)) + length (t_in (u_b x))).
Lemma cost_takes out p p' : takes_data p p' -> cost out (t_side p') + 50 * length (t_in p') < cost out (t_side p) + 50 * length (t_in p) /\ d_out (t_side p') = d_out (t_side p).
Proof.
  intros (data & K & Hn & E & E2 & _). rewrite E, app_length, E2. split; [|reflexivity]. unfold cost. change (waiting out (call_in (t_side p) (StartTx data) (d_owed (t_side p)))) with (waiting out (t_side p)).
  cbn [call_in d_conf fst snd d_owed d_out]. rewrite K. cbn [stack_cost wsum head_cost weight]. destruct data; [congruence|]. cbn [length]. lia.
Qed.
Lemma work_less x y : reachable L (line_of x) -> stn (u_a x) -> stn (u_b x) -> tunnel_calm L x y -> work y < work x.
Proof.
  intros R HA HB H. destruct (line_invariant _ _ _ OK _ R) as (ea & eb & I). unfold work. destruct H as [a' now' H|b' now' H]; cbn [u_a u_b told with_side t_in].
  - destruct (station_kind _ _ _ _ _ _ _ _ HA H) as [(X & -> & _)|(-> & X)].
    + pose proof (calm_total _ _ _ OK _ _ _ _ I (lc_a L (line_of x) _ _ X)) as T. unfold line_of in *. cbn [u_now u_a u_b told with_side t_side l_now l_a l_b] in *. lia.
    + destruct (cost_takes (d_out (t_side (u_b x))) _ _ X) as [T1 T2]. unfold total, line_of. cbn [u_a u_b told with_side t_side l_a l_b informed d_out]. rewrite T2. pose proof (cost_same (d_out (t_side (u_a x))) (t_side (u_b x))). cbn [informed d_out] in *. lia.
  - destruct (station_kind _ _ _ _ _ _ _ _ HB H) as [(X & -> & _)|(-> & X)].
    + pose proof (calm_total _ _ _ OK _ _ _ _ I (lc_b L (line_of x) _ _ X)) as T. unfold line_of in *. cbn [u_now u_a u_b told with_side t_side l_now l_a l_b] in *. lia.
    + destruct (cost_takes (d_out (t_side (u_a x))) _ _ X) as [T1 T2]. unfold total, line_of. cbn [u_a u_b told with_side t_side l_a l_b informed d_out]. rewrite T2. pose proof (cost_same (d_out (t_side (u_b x))) (t_side (u_a x))). cbn [informed d_out] in *. lia.
Qed.

(** ** Something can be done *)
Definition proxy_input (off : Z) (out : list (Z * list N)) (now : Z) (p : station) (i : instr) : input :=
  let q := plain_input L off out now (t_side p) in
  {| in_now := in_now q; in_now2 := in_now2 q; in_ready := in_ready q; in_message := in_message q; in_started := true; in_calls := upper_calls p i;
     in_answers := n_ans L; in_ianswers := n_ia L; in_scratch := [] |}.
Lemma proxy_input_ok off out now p s i rest : d_conf (t_side p) = (s, i :: rest) -> punctual L out (t_side p) now -> answers_step L off out (t_side p) i (proxy_input off out now p i) now now.
Proof.
  intros Hd HP. constructor; cbn; auto.
  - unfold upper_calls. destruct i; try (destruct (t_tx p)); cbn; repeat constructor.
  - intros m ->. apply (HP m rest). rewrite Hd. reflexivity.
Qed.
Lemma idle_station C off out now p : stn p -> stack (t_side p) = [] -> (exists p', station_step L C off out now p p' now) \/ proxy_at_rest p.
Proof.
  intros HT K. destruct (ep_open (core (t_side p))) eqn:O; [|left; eexists; apply st_open; auto]. destruct (ep_busy (core (t_side p))) eqn:B; [left; eexists; apply st_sent; auto|].
  destruct (d_owed (t_side p)) eqn:W; [left; eexists; apply st_arrived; auto|]. destruct (t_tx p) as [sl|] eqn:T.
  { destruct (tn_tx _ HT _ T) as (_ & _ & _ & b & E & _). left. eexists. eapply st_written; eauto. }
  destruct (t_rx p) eqn:R; [|right; repeat split; auto; congruence]. destruct (t_in p) as [|x l] eqn:E; [right; repeat split; auto|].
  left. eexists. eapply (st_received L C off out now p [x] l); auto. split; [cbn; lia|]. unfold socket_buffer. cbn [length]. lia.
Qed.
Lemma tunnel_progress x : reachable L (line_of x) -> stn (u_a x) -> stn (u_b x) -> (u_now x <= n_end L)%Z -> has_room L (u_a x) -> has_room L (u_b x) ->
  punctual L (d_out (t_side (u_b x))) (t_side (u_a x)) (u_now x) -> punctual L (d_out (t_side (u_a x))) (t_side (u_b x)) (u_now x) -> (exists y, tunnel_calm L x y /\ u_now y = u_now x) \/ (proxy_at_rest (u_a x) /\ proxy_at_rest (u_b x)).
Proof.
  intros R HA HB He Ra Rb Pa Pb. destruct (line_invariant _ _ _ OK _ R) as (ea & eb & I). cbn [line_of l_now l_a l_b] in I.
  assert (A : (exists a', station_step L (n_ca L) (n_oa L) (d_out (t_side (u_b x))) (u_now x) (u_a x) a' (u_now x)) \/ proxy_at_rest (u_a x)).
  { destruct (d_conf (t_side (u_a x))) as [s [|i rest]] eqn:Hd; [apply idle_station; auto; rewrite Hd; reflexivity|]. left. pose proof (proxy_input_ok (n_oa L) _ _ _ _ _ _ Hd Pa) as HI.
    destruct (a_can _ _ _ OK _ _ _ _ _ _ _ _ _ (u_now x) (u_now x) I Hd ltac:(lia) He HI (has_room_room _ _ HA Ra)) as (s' & pushed & ev & ms & HX & FR & LM). eexists. eapply st_run; eauto; lia. }
  assert (B : (exists b', station_step L (n_cb L) (n_ob L) (d_out (t_side (u_a x))) (u_now x) (u_b x) b' (u_now x)) \/ proxy_at_rest (u_b x)).
  { destruct (d_conf (t_side (u_b x))) as [s [|i rest]] eqn:Hd; [apply idle_station; auto; rewrite Hd; reflexivity|]. left. pose proof (proxy_input_ok (n_ob L) _ _ _ _ _ _ Hd Pb) as HI.
    destruct (b_can _ _ _ OK _ _ _ _ _ _ _ _ _ (u_now x) (u_now x) I Hd ltac:(lia) He HI (has_room_room _ _ HB Rb)) as (s' & pushed & ev & ms & HX & FR & LM). eexists. eapply st_run; eauto; lia. }
  destruct A as [(a' & A)|A]; [left; eexists; split; [apply tc_a; exact A|reflexivity]|]. destruct B as [(b' & B)|B]; [left; eexists; split; [apply tc_b; exact B|reflexivity]|]. right. auto.
Qed.

(** ** What lasts *)
Lemma station_sent C off out now p p' now' : stn p -> station_step L C off out now p p' now' -> t_sent p' = t_sent p.
Proof. intros HT H. destruct (station_kind _ _ _ _ _ _ _ _ HT H) as [(_ & _ & X)|(_ & d & _ & _ & _ & _ & X)]; exact X. Qed.
Lemma same_unprocessed out d : unprocessed out (informed out out d) = unprocessed out d.
Proof. reflexivity. Qed.
Lemma takes_time out p p' : takes_data p p' -> d_out (t_side p') = d_out (t_side p) /\ unprocessed out (t_side p') = unprocessed out (t_side p).
Proof. intros (data & K & _ & _ & -> & _). split; [reflexivity|]. unfold unprocessed. cbn [call_in d_taken d_conf snd]. rewrite K. reflexivity. Qed.
Lemma tunnel_time deadline x y : reachable L (line_of x) -> stn (u_a x) -> stn (u_b x) -> tunnel_in_time L deadline x -> tunnel_calm L x y -> tunnel_in_time L deadline y.
Proof.
  intros R HA HB T H. destruct (line_invariant _ _ _ OK _ R) as (ea & eb & I). unfold tunnel_in_time in *. destruct H as [a' now' H|b' now' H].
  - destruct (station_kind _ _ _ _ _ _ _ _ HA H) as [(X & _ & _)|(-> & X)]; [exact (in_time_calm _ _ _ _ _ _ _ _ I T (lc_a L (line_of x) _ _ X))|].
    destruct (takes_time (d_out (t_side (u_b x))) _ _ X) as [E1 E2]. unfold in_time in *. cbn [u_now u_a u_b told with_side t_side l_now l_a l_b informed d_out] in *. rewrite E1, E2. exact T.
  - destruct (station_kind _ _ _ _ _ _ _ _ HB H) as [(X & _ & _)|(-> & X)]; [exact (in_time_calm _ _ _ _ _ _ _ _ I T (lc_b L (line_of x) _ _ X))|].
    destruct (takes_time (d_out (t_side (u_a x))) _ _ X) as [E1 E2]. unfold in_time in *. cbn [u_now u_a u_b told with_side t_side l_now l_a l_b informed d_out] in *. rewrite E1, E2. exact T.
Qed.

Theorem tunnel_gets_through deadline x : tunnel_reachable L x -> has_room L (u_a x) -> has_room L (u_b x) -> tunnel_in_time L deadline x ->
  tunnel_inevitable L (fun y => (deadline < u_now y)%Z \/ all_through y) x.
Proof.
  remember (work x) as n eqn:En. revert x En. induction n as [n IH] using lt_wf_ind. intros x -> R Ra Rb T.
  destruct (Z.lt_ge_cases deadline (u_now x)) as [Hl|Hl]; [apply ti_now; auto|].
  destruct (tunnel_invariant _ _ _ OK _ R) as (Rl & A & B). destruct (line_invariant _ _ _ OK _ Rl) as (ea & eb & SA & SB & _). cbn [line_of l_now l_a l_b] in *. pose proof T as (T1 & T2 & T3 & T4). cbn [l_now l_a l_b] in *.
  destruct (tunnel_progress _ Rl A B ltac:(lia) Ra Rb (in_time_punctual _ _ _ _ _ _ _ SA T3 Hl) (in_time_punctual _ _ _ _ _ _ _ SB T4 Hl)) as [(y0 & P & _)|[P Q]].
  - apply ti_next; [exists y0; exact P|]. intros y Hy. apply (IH (work y)); auto.
    + apply work_less; auto.
    + eapply tr_step; eauto.
    + unfold has_room in *. destruct Hy as [a' now' H|b' now' H]; cbn [u_a told with_side t_sent]; [rewrite (station_sent _ _ _ _ _ _ _ A H)|]; exact Ra.
    + unfold has_room in *. destruct Hy as [a' now' H|b' now' H]; cbn [u_b told with_side t_sent]; [|rewrite (station_sent _ _ _ _ _ _ _ B H)]; exact Rb.
    + eapply tunnel_time; eauto.
  - apply ti_now. right. exact (proj1 (tunnel_delivered _ _ _ OK _ R P Q)).
Qed.
(** If the steps take no time, it can be done *)
Theorem tunnel_can x : tunnel_reachable L x -> has_room L (u_a x) -> has_room L (u_b x) -> tunnel_in_time L (u_now x) x ->
  exists y, tunnel_reachable L y /\ u_now y = u_now x /\ t_sent (u_a y) = t_sent (u_a x) /\ t_sent (u_b y) = t_sent (u_b x) /\ proxy_at_rest (u_a y) /\ proxy_at_rest (u_b y).
Proof.
  remember (work x) as n eqn:En. revert x En. induction n as [n IH] using lt_wf_ind. intros x -> R Ra Rb T.
  destruct (tunnel_invariant _ _ _ OK _ R) as (Rl & A & B). destruct (line_invariant _ _ _ OK _ Rl) as (ea & eb & SA & SB & _). cbn [line_of l_now l_a l_b] in *. pose proof T as (T1 & T2 & T3 & T4). cbn [l_now l_a l_b] in *.
  destruct (tunnel_progress _ Rl A B ltac:(lia) Ra Rb (in_time_punctual _ _ _ _ _ _ _ SA T3 (Z.le_refl _)) (in_time_punctual _ _ _ _ _ _ _ SB T4 (Z.le_refl _))) as [(y & P & E)|[P Q]]; [|exists x; auto 10].
  assert (S : t_sent (u_a y) = t_sent (u_a x) /\ t_sent (u_b y) = t_sent (u_b x)).
  { destruct P as [a' now' H|b' now' H]; cbn [u_a u_b told with_side t_sent]; split; auto; eapply station_sent; eauto. }
  destruct S as [S1 S2]. unfold has_room in *. destruct (IH (work y)) with (x := y) as (z & Z1 & Z2 & Z3 & Z4 & Z5 & Z6); auto.
  - apply work_less; auto.
  - eapply tr_step; eauto.
  - rewrite S1. exact Ra.
  - rewrite S2. exact Rb.
  - rewrite E. eapply tunnel_time; eauto.
  - exists z. rewrite Z2, Z3, Z4. auto 10.
Qed.
End live.
