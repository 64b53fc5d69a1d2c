(** * LinkLayerBus: a link layer that receives the frames of several stations *)
From Verif Require Import Base BaseFacts Codec Link LinkSpec LinkFacts LinkMain LinkLayer LinkLayerSpec LinkLayerFacts.
Local Open Scope nat_scope.

Lemma bus_first local future rest l : PI local future rest l -> Forall (frame_ok 4092) rest -> ll_processing l = false ->
  has_result (ll_parser l) = true -> exists f rest', rest = f :: rest' /\ rd (lp_context (ll_parser l)) = f /\
    ll_remainder l ++ concat (ll_rx_queue l) ++ future = flat_map frame_bytes rest'.
Proof.
  intros (H1 & H2 & H3 & H4 & [(A & B & C)|(A & c0 & u & B & C & D & F)]) Hm Hp Hr; [congruence|].
  destruct rest as [|f rest].
  - cbn in F. apply app_eq_nil in F as [F _]. subst u. rewrite crun_nil in D. unfold psc in D. injection D as D _.
    unfold has_result in Hr. rewrite <- D in Hr. discriminate.
  - inversion Hm as [|x y M1 M3]; subst x y. cbn [flat_map] in F.
    destruct (crun_frame retry1 c0 f (flat_map frame_bytes rest) B) as (c' & E1 & R1 & _); [rewrite C; exact M1|rewrite C; lia|].
    pose proof (crun_stop retry1 u _ _ D Hr (ll_remainder l ++ concat (ll_rx_queue l) ++ future)) as X.
    rewrite F, E1 in X. injection X as X1 X2 X3. exists f, rest. split; [reflexivity|]. rewrite <- X2. auto.
Qed.

Lemma bus_start_rx local future rest l : PI local future rest l -> Forall (frame_ok 4092) rest ->
  exists l' ret, ll_start_rx l = Ok (ret, l') /\
  ((ret = [] /\ PI local future rest l') \/
   (exists f rest', rest = f :: rest' /\ f_payload f = ret /\ mine local f /\ PI local future rest' l')).
Proof.
  intros HP Hm. unfold ll_start_rx.
  set (l1 := if ll_processing l then set_processing (ll_discard l) false else l).
  assert (H1 : PI local future rest l1 /\ ll_processing l1 = false).
  { unfold l1. destruct (ll_processing l) eqn:E; [|auto]. split; [apply PI_discard; assumption|auto]. }
  destruct H1 as (HP1 & Hp1). clearbody l1.
  unfold ll_start_rx_impl.
  destruct (get_frame_spec l1) as (l2 & E & G); [apply HP1|].
  rewrite E. cbn [obind]. pose proof (PI_get_frame _ _ _ _ _ HP1 G) as HP2.
  assert (Hp2 : ll_processing l2 = false) by (rewrite (gf_proc _ _ G); exact Hp1).
  destruct (has_result (ll_parser l2)) eqn:Hr.
  - destruct (bus_first _ _ _ _ HP2 Hm Hp2 Hr) as (f & rest' & -> & R & F).
    inversion Hm as [|x y M1 M4]; subst x y.
    unfold link_read. rewrite Hr. fold (rd (lp_context (ll_parser l2))). rewrite R.
    pose proof HP2 as (L & Q & I2 & M & _). rewrite L. destruct (N.eqb_spec (f_destination f) local) as [Ed|Ed]; cbn [obind].
    + destruct (f_payload f) as [|x pl] eqn:Ep; [eexists _, _; split; [reflexivity|]; left; auto|].
      eexists _, _. split; [reflexivity|]. right. exists f, rest'. split; [reflexivity|].
      split; [exact Ep|]. split; [split; [exact M1|split; [exact Ed|congruence]]|]. unfold PI, set_processing. cbn. auto 10.
    + eexists _, _; split; [reflexivity|]; left; auto.
  - cbn [obind]. eexists _, _. split; [reflexivity|]. left. auto.
Qed.

Lemma bus_run local : forall ops l rest future, PI local (arrivals ops ++ future) rest l -> Forall (frame_ok 4092) rest ->
  Forall chunk_ok ops -> ~ In LClose ops ->
  exists l' out d rest', ll_run l ops = Ok (l', out) /\ rest = d ++ rest' /\ deliveries out = map f_payload d /\ Forall (mine local) d /\
    PI local future rest' l'.
Proof.
  induction ops as [|o ops IH]; intros l rest future HP Hm Hc Hn; cbn [ll_run].
  - exists l, [], [], rest. auto.
  - inversion Hc as [|x y Ho Hc']; subst x y.
    assert (Hn' : ~ In LClose ops) by (intros H; apply Hn; right; exact H).
    assert (Simple : forall l1 out1, ll_step l o = Ok (l1, out1) -> deliveries out1 = [] ->
      PI local (arrivals ops ++ future) rest l1 ->
      exists l' out d rest', (let* (l1, out1) := ll_step l o in let* (l2, out2) := ll_run l1 ops in Ok (l2, out1 ++ out2)) = Ok (l', out) /\
        rest = d ++ rest' /\ deliveries out = map f_payload d /\ Forall (mine local) d /\ PI local future rest' l').
    { intros l1 out1 E1 D1 P1. rewrite E1. cbn [obind].
      destruct (IH l1 rest future P1 Hm Hc' Hn') as (l2 & o2 & d & rest' & E2 & R & D & DM & P2). rewrite E2. cbn [obind].
      exists l2, (out1 ++ o2), d, rest'. split; [reflexivity|]. split; [exact R|].
      unfold deliveries in *. rewrite flat_map_app, D1. auto. }
    destruct o as [| | | |ch| |dd]; cbn [ll_step] in *.
    + destruct (ll_open l); (eapply Simple; [reflexivity|reflexivity|exact HP]).
    + exfalso. apply Hn. left. reflexivity.
    + destruct (ll_open l); (eapply Simple; [reflexivity|reflexivity|exact HP]).
    + destruct (ll_open l); [|eapply Simple; [reflexivity|reflexivity|exact HP]].
      destruct (get_frame_spec l) as (l2 & E & G); [apply HP|]. rewrite E in *. cbn [obind] in *.
      eapply Simple; [reflexivity| |exact (PI_get_frame _ _ _ _ _ HP G)]. destruct (has_result _); reflexivity.
    + eapply Simple; [reflexivity|reflexivity|]. destruct HP as (H1 & H2 & H3 & H4 & H5).
      unfold PI. cbn [ll_local ll_parser ll_remainder ll_rx_queue ll_processing].
      split; [exact H1|]. split; [apply Forall_app; split; [exact H2|repeat constructor; exact Ho]|].
      split; [exact H3|]. split; [exact H4|]. rewrite concat_app. cbn [concat]. rewrite app_nil_r.
      unfold arrivals in *. cbn [flat_map] in H5.
      destruct H5 as [(A & B & C)|(A & c0 & u & B & C & D & F)].
      * left. rewrite <- !app_assoc in *. auto.
      * right. split; [exact A|]. exists c0, u. rewrite <- !app_assoc in *. auto.
    + destruct (bus_start_rx local _ rest l HP Hm) as (l1 & ret & E & [(-> & P1)|(f & rest1 & -> & <- & M1 & P1)]);
        rewrite E in *; cbn [obind] in *.
      * eapply Simple; [reflexivity|reflexivity|exact P1].
      * inversion Hm; subst.
        destruct (IH l1 rest1 future P1) as (l2 & o2 & d & rest' & E2 & R & D & DM & P2); try assumption.
        rewrite E2. cbn [obind]. eexists _, _, (f :: d), rest'. split; [reflexivity|].
        split; [rewrite R; reflexivity|]. split; [|split; [constructor; assumption|exact P2]].
        destruct (f_payload f) eqn:Ep; [destruct M1 as (_ & _ & M1); congruence|]. unfold deliveries in *. cbn [flat_map app map]. rewrite D, Ep. reflexivity.
    + eapply Simple; [reflexivity|reflexivity|exact HP].
Qed.
Lemma bus_new local remote fs future ops : arrivals ops ++ future = flat_map frame_bytes fs -> PI local (arrivals ops ++ future) fs (new_link_layer local remote).
Proof.
  intros Ha. unfold PI, new_link_layer. cbn [ll_local ll_parser ll_remainder ll_rx_queue ll_processing].
  split; [reflexivity|]. split; [constructor|]. split; [apply (new_pinv 4092)|]. split; [reflexivity|].
  right. split; [reflexivity|]. exists (new_context max_config_payload_size), []. rewrite crun_nil.
  split; [apply (new_pinv 4092)|]. split; [reflexivity|]. split; [reflexivity|]. cbn [app concat]. exact Ha.
Qed.
