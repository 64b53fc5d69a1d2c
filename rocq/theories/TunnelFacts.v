(** * TunnelFacts: two proxies over a reliable line *)
From Verif Require Import Base BaseFacts Codec CodecSpec CodecFacts Link LinkLayer Primitives Session SessionSpec SessionFacts SessionMain
  Handshake HandshakeSpec HandshakeFacts HandshakeMain HandshakePair Endpoint EndpointSpec EndpointFacts EndpointMain EndpointRx EndpointTx EndpointNonce PairSpec Line LineSpec LineMsgs LineHandshake LineLocal LineSide LineCost LineFacts LineLive Tunnel TunnelSpec.

Notation core d := (fst (d_conf d)).
Notation stack d := (snd (d_conf d)).
Definition is_upcall (i : instr) : bool :=
  match i with ICall (StartTx _) | ICall StartRx | IUpOpen | IUpTxReady | IUpRxReady => true | _ => false end.
Definition starting (k : list instr) : list N := flat_map (fun i => match i with ICall (StartTx d) => d | _ => [] end) k.

Record stn (p : station) : Prop := {
  tn_rx : t_rx p = true -> ep_up (core (t_side p)) = true /\ ep_remainder (core (t_side p)) = [] /\ ep_transmitting (core (t_side p)) = false /\ (forall d, ~ In (ICall (StartTx d)) (stack (t_side p)));
  tn_norx : t_rx p = false -> ep_up (core (t_side p)) = false \/ ep_remainder (core (t_side p)) <> [] \/ ep_transmitting (core (t_side p)) = true \/ In IUpTxReady (stack (t_side p)) \/
     exists d, d <> [] /\ stack (t_side p) = [ICall (StartTx d)] /\ ep_up (core (t_side p)) = true /\ ep_remainder (core (t_side p)) = [] /\ ep_transmitting (core (t_side p)) = false;
  tn_start : forall d, In (ICall (StartTx d)) (stack (t_side p)) -> d <> [] /\ stack (t_side p) = [ICall (StartTx d)] /\ ep_up (core (t_side p)) = true /\ ep_remainder (core (t_side p)) = [] /\ ep_transmitting (core (t_side p)) = false;
  tn_tx : forall sl, t_tx p = Some sl -> ep_payload (core (t_side p)) = Some sl /\ ep_proc (core (t_side p)) = true /\ ~ In (ICall StartRx) (stack (t_side p)) /\
     exists b, slice_bytes (core (t_side p)) sl = Ok b /\ t_out p ++ b = got (t_side p);
  tn_notx : t_tx p = None -> t_out p = got (t_side p) /\ (ep_proc (core (t_side p)) = true -> stack (t_side p) = [ICall StartRx]) /\
     (ep_payload (core (t_side p)) <> None -> In IUpRxReady (stack (t_side p)) \/ In (ICall StartRx) (stack (t_side p)));
  tn_rxcall : forall i r, stack (t_side p) = i :: r -> ~ In (ICall StartRx) r;
  tn_open : forall i r, stack (t_side p) = i :: r -> ~ In IUpOpen r;
  tn_held : ep_payload (core (t_side p)) <> None -> ep_up (core (t_side p)) = true;
  tn_ready : In IUpTxReady (stack (t_side p)) -> ep_up (core (t_side p)) = true /\ ep_remainder (core (t_side p)) = [] /\ ep_transmitting (core (t_side p)) = false;
  tn_sent : t_sent p = given (t_side p) ++ starting (stack (t_side p)) ++ t_in p;
  tn_opened : In EvUpOpen (d_trace (t_side p)) -> ep_up (core (t_side p)) = true;
  tn_refused : never_refused p;
  tn_bytes : bytes_ok (t_in p) }.

Lemma stn_new C : stn (new_station C).
Proof.
  constructor; cbn; try tauto; try congruence; try discriminate; auto.
  - intros _. repeat split; auto; discriminate.
  - unfold never_refused. cbn. tauto.
  - constructor.
Qed.

(** ** Steps the upper layer does not notice *)
Lemma no_upcall i k : Forall (fun j => is_upcall j = false) k -> In i k -> is_upcall i = false.
Proof. intros H. rewrite Forall_forall in H. apply H. Qed.
Lemma starting_plain k : Forall (fun j => is_upcall j = false) k -> starting k = [].
Proof. induction 1 as [|i k Hi _ IH]; [reflexivity|]. unfold starting in *. cbn [flat_map]. rewrite IH. destruct i as [[]| | | | | | | | | | | | |]; cbn in *; auto; discriminate. Qed.
Lemma starting_app k k' : starting (k ++ k') = starting k ++ starting k'.
Proof. apply flat_map_app. Qed.
Definition unseen (e : event) : bool := match e with EvUpOpen | EvUpTxReady | EvRead _ | EvAccept _ | EvReject _ => false | _ => true end.
Lemma unseen_ev ev : forallb unseen ev = true -> existsb starts_rx ev = false /\ existsb returned ev = false /\ offered ev = [] /\ read_data ev = [] /\ ~ In EvUpOpen ev /\ forall d, ~ In (EvReject d) ev.
Proof.
  induction ev as [|e ev IH]; [cbn; tauto|]. intros H. cbn [forallb] in H. apply andb_prop in H as [H1 H2]. destruct (IH H2) as (A & B & C & D & E & F). unfold offered, read_data in *. cbn [existsb flat_map In]. rewrite A, B, C, D.
  destruct e; cbn in H1 |- *; try discriminate; repeat split; auto; try (intros [X|X]; [discriminate|auto]); intros d [X|X]; try discriminate; eapply F; eauto.
Qed.

Section step.
Variables (p : station) (s : endpoint) (i : instr) (rest : list instr) (s' : endpoint) (pushed : list instr) (ev : list event) (d' : side).
Hypothesis HT : stn p.
Hypothesis Hd : d_conf (t_side p) = (s, i :: rest).
Hypothesis Hd' : d_conf d' = (s', pushed ++ rest).
Hypothesis Ht' : d_trace d' = d_trace (t_side p) ++ ev.
Lemma given_app : given d' = given (t_side p) ++ concat (offered ev).
Proof. unfold given. rewrite Ht', (proj1 (traces_app _ _)), concat_app. reflexivity. Qed.
Lemma got_app : got d' = got (t_side p) ++ concat (read_data ev).
Proof. unfold got. rewrite Ht', (proj1 (proj2 (proj2 (traces_app _ _)))), concat_app. reflexivity. Qed.
Lemma after_unseen : forallb unseen ev = true -> upper_after p d' ev = with_side p d' /\ given d' = given (t_side p) /\ got d' = got (t_side p).
Proof.
  intros H. destruct (unseen_ev _ H) as (A & B & C & D & _). rewrite given_app, got_app, C, D. unfold upper_after, with_side. rewrite A, B, orb_false_r. cbn [concat]. rewrite !app_nil_r. repeat split. destruct (t_tx p); reflexivity.
Qed.

(** Neither the data nor the calls change; the transmission of the data may go on *)
Lemma stn_plain : is_upcall i = false -> Forall (fun j => is_upcall j = false) pushed -> forallb unseen ev = true ->
  ep_up s' = ep_up s -> ep_payload s' = ep_payload s -> ep_proc s' = ep_proc s -> (forall sl, ep_payload s = Some sl -> slice_bytes s' sl = slice_bytes s sl) ->
  (ep_remainder s' = ep_remainder s /\ ep_transmitting s' = ep_transmitting s) \/ (ep_remainder s <> [] /\ ep_transmitting s' = true) ->
  stn (upper_after p d' ev).
Proof.
  intros Hi Hp He E1 E2 E3 E4 E5. destruct (after_unseen He) as (-> & G1 & G2). destruct (unseen_ev _ He) as (_ & _ & _ & _ & U1 & U2).
  assert (Hin : forall j, is_upcall j = true -> In j (pushed ++ rest) <-> In j (i :: rest)).
  { intros j Hj. rewrite in_app_iff. cbn [In]. split; intros [X|X]; auto; [rewrite (no_upcall _ _ Hp X) in Hj; discriminate|congruence]. }
  assert (Hns : forall x d, stack (t_side p) = [ICall (StartTx d)] -> is_upcall x = is_upcall x -> False) by (intros x d X _; rewrite Hd in X; cbn [snd] in X; injection X as -> _; discriminate).
  destruct HT. rewrite Hd in *. cbn [fst snd] in *.
  constructor; cbn [with_side t_side t_rx t_tx t_in t_out t_sent]; rewrite ?Hd', ?G1, ?G2; cbn [fst snd]; rewrite ?E1, ?E2, ?E3.
  - intros R. destruct (tn_rx0 R) as (X1 & X2 & X3 & X4). destruct E5 as [[Y1 Y2]|[Y1 _]]; [|congruence]. rewrite Y1, Y2. repeat split; auto. intros d X. apply (X4 d). apply Hin; auto.
  - intros R. destruct (tn_norx0 R) as [X|[X|[X|[X|(d & _ & X & _)]]]].
    + auto.
    + destruct E5 as [[Y1 Y2]|[_ Y2]]; [rewrite Y1; auto|auto].
    + destruct E5 as [[Y1 Y2]|[_ Y2]]; [rewrite Y2; auto|auto].
    + right; right; right; left. apply Hin; auto.
    + destruct (Hns i d X eq_refl).
  - intros d X. apply Hin in X; [|reflexivity]. destruct (tn_start0 d X) as (_ & Y & _). destruct (Hns i d Y eq_refl).
  - intros sl R. destruct (tn_tx0 sl R) as (X1 & X2 & X3 & b & X4 & X5). repeat split; auto. { intros X. apply X3. apply Hin; auto. } exists b. rewrite E4; auto.
  - intros R. destruct (tn_notx0 R) as (X1 & X2 & X3). repeat split; auto.
    + intros X. specialize (X2 X). injection X2 as -> _. discriminate.
    + intros X. destruct (X3 X); [left|right]; apply Hin; auto.
  - intros j r X Y. assert (Z : In (ICall StartRx) (pushed ++ rest)) by (rewrite X; cbn; auto). apply Hin in Z; [|reflexivity]. destruct Z as [Z|Z]; [subst i; discriminate|]. exact (tn_rxcall0 _ _ eq_refl Z).
  - intros j r X Y. assert (Z : In IUpOpen (pushed ++ rest)) by (rewrite X; cbn; auto). apply Hin in Z; [|reflexivity]. destruct Z as [Z|Z]; [subst i; discriminate|]. exact (tn_open0 _ _ eq_refl Z).
  - exact tn_held0.
  - intros X. apply Hin in X; [|reflexivity]. destruct (tn_ready0 X) as (X1 & X2 & X3). destruct E5 as [[Y1 Y2]|[Y1 _]]; [|congruence]. rewrite Y1, Y2. auto.
  - rewrite tn_sent0. f_equal. f_equal. rewrite starting_app, (starting_plain _ Hp). change (i :: rest) with ([i] ++ rest). rewrite starting_app, (starting_plain [i]); [reflexivity|auto].
  - rewrite Ht', in_app_iff. intros [X|X]; [auto|destruct (U1 X)].
  - intros d. cbn [with_side t_side]. rewrite Ht', in_app_iff. intros [X|X]; [exact (tn_refused0 _ X)|exact (U2 _ X)].
  - exact tn_bytes0.
Qed.

(** A notification that the layer is open was started *)
Lemma stn_opens r : pushed = IUpOpen :: r -> is_upcall i = false -> Forall (fun j => is_upcall j = false) r -> forallb unseen ev = true -> ~ In IUpOpen rest ->
  ep_up s' = ep_up s -> ep_payload s' = ep_payload s -> ep_proc s' = ep_proc s -> (forall sl, ep_payload s = Some sl -> slice_bytes s' sl = slice_bytes s sl) ->
  (ep_remainder s' = ep_remainder s /\ ep_transmitting s' = ep_transmitting s) \/ (ep_remainder s <> [] /\ ep_transmitting s' = true) ->
  stn (upper_after p d' ev).
Proof.
  intros Ep Hi Hp He Hno E1 E2 E3 E4 E5. destruct (after_unseen He) as (-> & G1 & G2). destruct (unseen_ev _ He) as (_ & _ & _ & _ & U1 & U2).
  assert (Hin : forall j, is_upcall j = true -> j <> IUpOpen -> In j (pushed ++ rest) <-> In j (i :: rest)).
  { intros j Hj Hjo. rewrite Ep, in_app_iff. cbn [In]. split; [intros [[X|X]|X]|intros [X|X]]; auto; try congruence. rewrite (no_upcall _ _ Hp X) in Hj. discriminate. }
  assert (Hns : forall x d, stack (t_side p) = [ICall (StartTx d)] -> is_upcall x = is_upcall x -> False) by (intros x d X _; rewrite Hd in X; cbn [snd] in X; injection X as -> _; discriminate).
  destruct HT. rewrite Hd in *. cbn [fst snd] in *.
  constructor; cbn [with_side t_side t_rx t_tx t_in t_out t_sent]; rewrite ?Hd', ?G1, ?G2; cbn [fst snd]; rewrite ?E1, ?E2, ?E3.
  - intros R. destruct (tn_rx0 R) as (X1 & X2 & X3 & X4). destruct E5 as [[Y1 Y2]|[Y1 _]]; [|congruence]. rewrite Y1, Y2. repeat split; auto. intros d X. apply (X4 d). apply Hin; auto; discriminate.
  - intros R. destruct (tn_norx0 R) as [X|[X|[X|[X|(d & _ & X & _)]]]].
    + auto.
    + destruct E5 as [[Y1 Y2]|[_ Y2]]; [rewrite Y1; auto|auto].
    + destruct E5 as [[Y1 Y2]|[_ Y2]]; [rewrite Y2; auto|auto].
    + right; right; right; left. apply Hin; auto; discriminate.
    + destruct (Hns i d X eq_refl).
  - intros d X. apply Hin in X; [|reflexivity|discriminate]. destruct (tn_start0 d X) as (_ & Y & _). destruct (Hns i d Y eq_refl).
  - intros sl R. destruct (tn_tx0 sl R) as (X1 & X2 & X3 & b & X4 & X5). repeat split; auto. { intros X. apply X3. apply Hin; auto; discriminate. } exists b. rewrite E4; auto.
  - intros R. destruct (tn_notx0 R) as (X1 & X2 & X3). repeat split; auto.
    + intros X. specialize (X2 X). injection X2 as -> _. discriminate.
    + intros X. destruct (X3 X); [left|right]; apply Hin; auto; discriminate.
  - intros j k X Y. rewrite Ep in X. cbn [app] in X. injection X as _ <-. apply in_app_iff in Y as [Y|Y]; [pose proof (no_upcall _ _ Hp Y); discriminate|]. exact (tn_rxcall0 _ _ eq_refl Y).
  - intros j k X Y. rewrite Ep in X. cbn [app] in X. injection X as _ <-. apply in_app_iff in Y as [Y|Y]; [pose proof (no_upcall _ _ Hp Y); discriminate|]. exact (Hno Y).
  - exact tn_held0.
  - intros X. apply Hin in X; [|reflexivity|discriminate]. destruct (tn_ready0 X) as (X1 & X2 & X3). destruct E5 as [[Y1 Y2]|[Y1 _]]; [|congruence]. rewrite Y1, Y2. auto.
  - rewrite tn_sent0. f_equal. f_equal. rewrite Ep, starting_app. change (starting (IUpOpen :: r)) with (starting r). rewrite (starting_plain _ Hp). change (i :: rest) with ([i] ++ rest). rewrite starting_app, (starting_plain [i]); [reflexivity|auto].
  - rewrite Ht', in_app_iff. intros [X|X]; [auto|destruct (U1 X)].
  - intros d. cbn [with_side t_side]. rewrite Ht', in_app_iff. intros [X|X]; [exact (tn_refused0 _ X)|exact (U2 _ X)].
  - exact tn_bytes0.
Qed.

(** Data arrived *)
Lemma stn_data : pushed = [INonceChange; IUpRxReady] -> is_upcall i = false -> forallb unseen ev = true -> ep_payload s = None -> ep_up s = true ->
  ep_up s' = ep_up s -> ep_proc s' = ep_proc s -> ep_remainder s' = ep_remainder s -> ep_transmitting s' = ep_transmitting s ->
  stn (upper_after p d' ev).
Proof.
  intros Ep Hi He Hpl Hup E1 E3 E5 E6. destruct (after_unseen He) as (-> & G1 & G2). destruct (unseen_ev _ He) as (_ & _ & _ & _ & U1 & U2).
  assert (Hin : forall j, is_upcall j = true -> j <> IUpRxReady -> In j (pushed ++ rest) <-> In j (i :: rest)).
  { intros j Hj Hjo. rewrite Ep, in_app_iff. cbn [In]. split; [intros [[X|[X|[]]]|X]|intros [X|X]]; auto; subst; try congruence; try discriminate. }
  assert (Hns : forall x d, stack (t_side p) = [ICall (StartTx d)] -> is_upcall x = is_upcall x -> False) by (intros x d X _; rewrite Hd in X; cbn [snd] in X; injection X as -> _; discriminate).
  destruct HT. rewrite Hd in *. cbn [fst snd] in *.
  constructor; cbn [with_side t_side t_rx t_tx t_in t_out t_sent]; rewrite ?Hd', ?G1, ?G2; cbn [fst snd]; rewrite ?E1, ?E3, ?E5, ?E6.
  - intros R. destruct (tn_rx0 R) as (X1 & X2 & X3 & X4). repeat split; auto. intros d X. apply (X4 d). apply Hin; auto; discriminate.
  - intros R. destruct (tn_norx0 R) as [X|[X|[X|[X|(d & _ & X & _)]]]]; auto.
    + right; right; right; left. apply Hin; auto; discriminate.
    + destruct (Hns i d X eq_refl).
  - intros d X. apply Hin in X; [|reflexivity|discriminate]. destruct (tn_start0 d X) as (_ & Y & _). destruct (Hns i d Y eq_refl).
  - intros sl R. destruct (tn_tx0 sl R) as (X1 & _). congruence.
  - intros R. destruct (tn_notx0 R) as (X1 & X2 & X3). repeat split; auto.
    + intros X. specialize (X2 X). injection X2 as -> _. discriminate.
    + intros _. left. rewrite Ep. cbn. auto.
  - intros j r X Y. assert (Z : In (ICall StartRx) (pushed ++ rest)) by (rewrite X; cbn; auto). apply Hin in Z; [|reflexivity|discriminate]. destruct Z as [Z|Z]; [subst i; discriminate|]. exact (tn_rxcall0 _ _ eq_refl Z).
  - intros j r X Y. assert (Z : In IUpOpen (pushed ++ rest)) by (rewrite X; cbn; auto). apply Hin in Z; [|reflexivity|discriminate]. destruct Z as [Z|Z]; [subst i; discriminate|]. exact (tn_open0 _ _ eq_refl Z).
  - auto.
  - intros X. apply Hin in X; [|reflexivity|discriminate]. auto.
  - rewrite tn_sent0. f_equal. f_equal. rewrite Ep, starting_app. cbn [starting flat_map app]. fold (starting rest). destruct i as [[]| | | | | | | | | | | | |]; cbn in *; try discriminate; reflexivity.
  - rewrite Ht', in_app_iff. intros [X|X]; [auto|destruct (U1 X)].
  - intros d. cbn [with_side t_side]. rewrite Ht', in_app_iff. intros [X|X]; [exact (tn_refused0 _ X)|exact (U2 _ X)].
  - exact tn_bytes0.
Qed.

(** Removing the instruction at the top *)
Lemma in_below j : In j rest -> In j (stack (t_side p)).
Proof. rewrite Hd. cbn. auto. Qed.
Lemma no_start_below d : (forall d, i <> ICall (StartTx d)) -> ~ In (ICall (StartTx d)) rest.
Proof. intros Hi X. destruct (tn_start _ HT d (in_below _ X)) as (_ & Y & _). rewrite Hd in Y. cbn [snd] in Y. injection Y as Y _. exact (Hi d Y). Qed.
Lemma below_rxcall j r : rest = j :: r -> ~ In (ICall StartRx) r.
Proof. intros X Y. apply (tn_rxcall _ HT i rest); [rewrite Hd; reflexivity|]. rewrite X. cbn. auto. Qed.
Lemma below_open j r : rest = j :: r -> ~ In IUpOpen r.
Proof. intros X Y. apply (tn_open _ HT i rest); [rewrite Hd; reflexivity|]. rewrite X. cbn. auto. Qed.

(** A notification that is not due, or that the upper layer does not react to *)
Lemma stn_drop : i = IUpOpen \/ i = IUpRxReady -> s' = s -> pushed = [] -> forallb unseen ev = true -> (i = IUpRxReady -> t_tx p <> None \/ ep_payload s = None) ->
  stn (upper_after p d' ev).
Proof.
  intros Hi Es Ep He Hrx. destruct (after_unseen He) as (-> & G1 & G2). destruct (unseen_ev _ He) as (_ & _ & _ & _ & U1 & U2).
  assert (Hns : forall d, ~ In (ICall (StartTx d)) rest) by (intros d; apply no_start_below; intros d0; destruct Hi; congruence).
  pose proof below_rxcall as B1. pose proof below_open as B2.
  destruct HT. rewrite Hd in *. cbn [fst snd] in *. subst pushed. cbn [app] in *.
  constructor; cbn [with_side t_side t_rx t_tx t_in t_out t_sent]; rewrite ?Hd', ?G1, ?G2; cbn [fst snd]; rewrite ?Es; auto.
  - intros R. destruct (tn_rx0 R) as (X1 & X2 & X3 & X4). auto.
  - intros R. destruct (tn_norx0 R) as [X|[X|[X|[X|(d & _ & X & _)]]]]; auto.
    + destruct X as [X|X]; [destruct Hi; congruence|]. auto.
    + destruct Hi as [-> | ->]; discriminate.
  - intros d X. destruct (Hns d X).
  - intros sl R. destruct (tn_tx0 sl R) as (X1 & X2 & X3 & X4). repeat split; auto. intros X. apply X3. cbn. auto.
  - intros R. destruct (tn_notx0 R) as (X1 & X2 & X3). repeat split; auto.
    + intros X. specialize (X2 X). destruct Hi as [-> | ->]; discriminate.
    + intros X. destruct (X3 X) as [[Y|Y]|[Y|Y]]; auto; [destruct (Hrx Y); congruence|]. destruct Hi; congruence.
  - intros X. apply tn_ready0. cbn. auto.
  - rewrite tn_sent0. destruct Hi as [-> | ->]; reflexivity.
  - rewrite Ht', in_app_iff. intros [X|X]; [auto|destruct (U1 X)].
  - intros d. cbn [with_side t_side]. rewrite Ht', in_app_iff. intros [X|X]; [exact (tn_refused0 _ X)|exact (U2 _ X)].
Qed.

(** The layer is open: the socket is read *)
Lemma stn_open : i = IUpOpen -> s' = set_up s true -> pushed = [] -> ev = [EvUpOpen] -> ep_up s = false -> ep_remainder s = [] -> ep_transmitting s = false ->
  stn (upper_after p d' ev).
Proof.
  intros Hi Es Ep He Hup Hr Htr.
  assert (Hns : forall d, ~ In (ICall (StartTx d)) rest) by (intros d; apply no_start_below; intros d0; congruence).
  pose proof below_rxcall as B1. pose proof below_open as B2. pose proof given_app as G1. pose proof got_app as G2. rewrite He in G1, G2. cbn [offered read_data flat_map concat] in G1, G2. rewrite app_nil_r in G1, G2.
  destruct HT. rewrite Hd in *. cbn [fst snd] in *. subst pushed ev. cbn [app] in *.
  unfold upper_after. cbn [existsb starts_rx returned]. rewrite orb_true_r. cbn [orb].
  constructor; cbn [t_side t_rx t_tx t_in t_out t_sent]; rewrite ?Hd', ?G1, ?G2; cbn [fst snd]; rewrite ?Es; cbn [set_up ep_up ep_remainder ep_transmitting ep_payload ep_proc]; auto; try discriminate.
  - intros d X. destruct (Hns d X).
  - intros sl R. destruct (t_tx p) as [sl0|] eqn:Et; [|discriminate]. injection R as ->. destruct (tn_tx0 sl eq_refl) as (X1 & _). rewrite tn_held0 in Hup; congruence.
  - intros R. destruct (t_tx p) as [sl0|] eqn:Et; [discriminate|]. destruct (tn_notx0 eq_refl) as (X1 & X2 & X3). repeat split; auto.
    + intros X. specialize (X2 X). rewrite Hi in X2. discriminate.
    + intros X. rewrite tn_held0 in Hup; congruence.
  - rewrite tn_sent0, Hi. reflexivity.
  - intros d. cbn [t_side]. rewrite Ht', in_app_iff. intros [X|[X|[]]]; [exact (tn_refused0 _ X)|discriminate].
Qed.

(** The data was transmitted: the socket is read *)
Lemma stn_ready : i = IUpTxReady -> s' = s -> pushed = [] -> ev = [EvUpTxReady] -> stn (upper_after p d' ev).
Proof.
  intros Hi Es Ep He.
  assert (Hns : forall d, ~ In (ICall (StartTx d)) rest) by (intros d; apply no_start_below; intros d0; congruence).
  pose proof below_rxcall as B1. pose proof below_open as B2. pose proof given_app as G1. pose proof got_app as G2. rewrite He in G1, G2. cbn [offered read_data flat_map concat] in G1, G2. rewrite app_nil_r in G1, G2.
  destruct HT. rewrite Hd in *. cbn [fst snd] in *. subst pushed ev. cbn [app] in *. destruct (tn_ready0 (or_introl Hi)) as (Y1 & Y2 & Y3).
  unfold upper_after. cbn [existsb starts_rx returned]. rewrite orb_true_r. cbn [orb].
  constructor; cbn [t_side t_rx t_tx t_in t_out t_sent]; rewrite ?Hd', ?G1, ?G2; cbn [fst snd]; rewrite ?Es; auto; try discriminate.
  - intros d X. destruct (Hns d X).
  - intros sl R. destruct (t_tx p) as [sl0|] eqn:Et; [|discriminate]. injection R as ->. destruct (tn_tx0 sl eq_refl) as (X1 & X2 & X3 & X4). repeat split; auto. intros X. apply X3. cbn. auto.
  - intros R. destruct (t_tx p) as [sl0|] eqn:Et; [discriminate|]. destruct (tn_notx0 eq_refl) as (X1 & X2 & X3). repeat split; auto.
    + intros X. specialize (X2 X). rewrite Hi in X2. discriminate.
    + intros X. destruct (X3 X) as [[Y|Y]|[Y|Y]]; auto; congruence.
  - rewrite tn_sent0, Hi. reflexivity.
  - intros d. cbn [t_side]. rewrite Ht', in_app_iff. intros [X|[X|[]]]; [exact (tn_refused0 _ X)|discriminate].
Qed.

(** There is data: the upper layer reads it *)
Lemma stn_reads : i = IUpRxReady -> s' = s -> pushed = [ICall StartRx] -> forallb unseen ev = true -> t_tx p = None -> stn (upper_after p d' ev).
Proof.
  intros Hi Es Ep He Htx. destruct (after_unseen He) as (-> & G1 & G2). destruct (unseen_ev _ He) as (_ & _ & _ & _ & U1 & U2).
  assert (Hns : forall d, ~ In (ICall (StartTx d)) rest) by (intros d; apply no_start_below; intros d0; congruence).
  destruct HT. rewrite Hd in *. cbn [fst snd] in *. subst pushed. cbn [app] in *.
  constructor; cbn [with_side t_side t_rx t_tx t_in t_out t_sent]; rewrite ?Hd', ?G1, ?G2; cbn [fst snd]; rewrite ?Es; auto; try discriminate.
  - intros R. destruct (tn_rx0 R) as (X1 & X2 & X3 & X4). repeat split; auto. intros d [X|X]; [discriminate|]. exact (Hns d X).
  - intros R. destruct (tn_norx0 R) as [X|[X|[X|[X|(d & _ & X & _)]]]]; auto.
    + destruct X as [X|X]; [congruence|]. cbn [In]. auto 6.
    + rewrite Hi in X. discriminate.
  - intros d [X|X]; [discriminate|]. destruct (Hns d X).
  - intros sl R. congruence.
  - intros R. destruct (tn_notx0 R) as (X1 & X2 & X3). repeat split; auto.
    + intros X. specialize (X2 X). rewrite Hi in X2. discriminate.
    + intros X. cbn [In]. auto.
  - intros j r X. injection X as _ <-. exact (tn_rxcall0 _ _ eq_refl).
  - intros j r X. injection X as _ <-. exact (tn_open0 _ _ eq_refl).
  - intros [X|X]; [discriminate|]. apply tn_ready0. cbn. auto.
  - rewrite tn_sent0, Hi. reflexivity.
  - rewrite Ht', in_app_iff. intros [X|X]; [auto|destruct (U1 X)].
  - intros d. cbn [with_side t_side]. rewrite Ht', in_app_iff. intros [X|X]; [exact (tn_refused0 _ X)|exact (U2 _ X)].
Qed.

(** The stack takes the data of the socket *)
Lemma stn_accepts d : i = ICall (StartTx d) -> s' = set_remainder (set_transmitting s false) d -> pushed = [ICheckTransmit] -> ev = [EvAccept d] -> stn (upper_after p d' ev).
Proof.
  intros Hi Es Ep He. destruct (tn_start _ HT d) as (N1 & N2 & N3 & N4 & N5); [rewrite Hd, Hi; cbn; auto|].
  assert (R : rest = []) by (rewrite Hd in N2; cbn [snd] in N2; congruence).
  pose proof given_app as G1. pose proof got_app as G2. rewrite He in G1, G2. cbn [offered read_data flat_map concat app] in G1, G2. rewrite app_nil_r in G1, G2.
  assert (Hrx : t_rx p = false). { destruct (t_rx p) eqn:R0; [|reflexivity]. destruct (tn_rx _ HT R0) as (_ & _ & _ & X). destruct (X d). rewrite N2. cbn. auto. }
  destruct HT. rewrite Hd in *. cbn [fst snd] in *. subst pushed ev rest. cbn [app] in *.
  unfold upper_after. cbn [existsb starts_rx returned]. rewrite !orb_false_r, Hrx.
  constructor; cbn [t_side t_rx t_tx t_in t_out t_sent]; rewrite ?Hd', ?G1, ?G2; cbn [fst snd]; rewrite ?Es; cbn [set_remainder set_transmitting ep_up ep_remainder ep_transmitting ep_payload ep_proc]; auto; try discriminate.
  - intros d0 [X|[]]. discriminate.
  - intros sl R. destruct (t_tx p) as [sl0|] eqn:Et; [|discriminate]. injection R as ->. destruct (tn_tx0 sl eq_refl) as (X1 & X2 & X3 & b & X4 & X5). repeat split; auto; [cbn; intuition discriminate|]. exists b. destruct sl; auto.
  - intros R. destruct (t_tx p) as [sl0|] eqn:Et; [discriminate|]. destruct (tn_notx0 eq_refl) as (X1 & X2 & X3). repeat split; auto.
    + intros X. specialize (X2 X). rewrite Hi in X2. discriminate.
    + intros X. destruct (X3 X) as [[Y|[]]|[Y|[]]]; congruence.
  - intros j r X. injection X as _ <-. cbn. auto.
  - intros j r X. injection X as _ <-. cbn. auto.
  - cbn. intuition discriminate.
  - rewrite tn_sent0, Hi. unfold starting. cbn [flat_map app]. rewrite app_nil_r, <- app_assoc. reflexivity.
  - intros d0. cbn [t_side]. rewrite Ht', in_app_iff. intros [X|[X|[]]]; [exact (tn_refused0 _ X)|discriminate].
Qed.

(** The upper layer asks for data *)
Lemma stn_asks : i = ICall StartRx -> start_rx s = Ok (s', pushed, ev) -> stn (upper_after p d' ev).
Proof.
  intros Hi Hx.
  assert (Htx : t_tx p = None). { destruct (t_tx p) as [sl|] eqn:R; [|reflexivity]. destruct (tn_tx _ HT sl R) as (_ & _ & X & _). destruct X. rewrite Hd, Hi. cbn. auto. }
  assert (Hns : forall d, ~ In (ICall (StartTx d)) rest) by (intros d; apply no_start_below; intros d0; congruence).
  assert (Hrr : ~ In (ICall StartRx) rest) by (apply (tn_rxcall _ HT i); rewrite Hd; reflexivity).
  assert (Hro : ~ In IUpOpen rest) by (apply (tn_open _ HT i); rewrite Hd; reflexivity).
  pose proof below_rxcall as B1. pose proof below_open as B2. pose proof given_app as G1. pose proof got_app as G2.
  unfold start_rx in Hx. destruct (ep_proc s) eqn:Epr.
  - cbn [set_proc set_payload ep_payload] in Hx. injection Hx as <- <- <-. rewrite app_nil_r in G1, G2, Ht'.
    destruct HT. rewrite Hd in *. cbn [fst snd] in *. cbn [app] in *. destruct (tn_notx0 Htx) as (X1 & X2 & X3). specialize (X2 Epr). assert (rest = []) by congruence. subst rest.
    unfold upper_after. cbn [existsb starts_rx returned]. rewrite orb_false_r, Htx.
    constructor; cbn [t_side t_rx t_tx t_in t_out t_sent]; rewrite ?Hd', ?G1, ?G2; cbn [fst snd]; cbn [set_proc set_payload ep_up ep_remainder ep_transmitting ep_payload ep_proc]; auto; try discriminate.
    + intros R. destruct (tn_rx0 R) as (Y1 & Y2 & Y3 & Y4). repeat split; auto. intros d [X|[]]. discriminate.
    + intros R. destruct (tn_norx0 R) as [X|[X|[X|[[X|[]]|(d & _ & X & _)]]]]; auto; congruence.
    + intros d [X|[]]. discriminate.
    + repeat split; auto; try discriminate. congruence.
    + intros j r X. injection X as _ <-. cbn. auto.
    + intros j r X. injection X as _ <-. cbn. auto.
    + cbn. intuition discriminate.
    + rewrite tn_sent0, Hi. reflexivity.
    + rewrite Ht'. exact tn_opened0.
    + intros d. cbn [t_side]. rewrite Ht'. apply tn_refused0.
  - destruct (ep_payload s) as [sl|] eqn:Epl.
    + destruct (slice_bytes s sl) as [b| |] eqn:Eb; cbn in Hx; try discriminate. injection Hx as <- <- <-. cbn [offered read_data flat_map concat app] in G1, G2. rewrite app_nil_r in G1, G2.
      destruct HT. rewrite Hd in *. cbn [fst snd] in *. cbn [app] in *. destruct (tn_notx0 Htx) as (X1 & X2 & X3).
      unfold upper_after. cbn [existsb starts_rx returned]. rewrite orb_false_r, Htx, Hd'. cbn [fst set_proc ep_payload]. rewrite Epl.
      constructor; cbn [t_side t_rx t_tx t_in t_out t_sent]; rewrite ?Hd', ?G1, ?G2; cbn [fst snd]; cbn [set_proc set_payload ep_up ep_remainder ep_transmitting ep_payload ep_proc]; auto; try discriminate.
      * intros R. destruct (tn_rx0 R) as (Y1 & Y2 & Y3 & Y4). auto.
      * intros R. destruct (tn_norx0 R) as [X|[X|[X|[[X|X]|(d & _ & X & _)]]]]; auto; congruence.
      * intros d X. destruct (Hns d X).
      * intros sl0 R. injection R as <-. repeat split; auto. exists b. split; [destruct sl; exact Eb|]. rewrite X1. reflexivity.
      * intros X. apply tn_ready0. cbn. auto.
      * rewrite tn_sent0, Hi. reflexivity.
      * rewrite Ht', in_app_iff. intros [X|[X|[]]]; [auto|discriminate].
      * intros d. cbn [t_side]. rewrite Ht', in_app_iff. intros [X|[X|[]]]; [exact (tn_refused0 _ X)|discriminate].
    + injection Hx as <- <- <-. cbn [offered read_data flat_map concat app] in G1, G2. rewrite app_nil_r in G1, G2, Ht'.
      destruct HT. rewrite Hd in *. cbn [fst snd] in *. cbn [app] in *. destruct (tn_notx0 Htx) as (X1 & X2 & X3).
      unfold upper_after. cbn [existsb starts_rx returned]. rewrite orb_false_r, Htx.
      constructor; cbn [t_side t_rx t_tx t_in t_out t_sent]; rewrite ?Hd', ?G1, ?G2; cbn [fst snd]; auto; try discriminate.
      * intros R. destruct (tn_rx0 R) as (Y1 & Y2 & Y3 & Y4). repeat split; auto. intros d [X|X]; [discriminate|]. exact (Hns d X).
      * intros R. destruct (tn_norx0 R) as [X|[X|[X|[[X|X]|(d & _ & X & _)]]]]; auto; try congruence. right; right; right; left. cbn. auto.
      * intros d [X|X]; [discriminate|]. destruct (Hns d X).
      * repeat split; auto; congruence.
      * intros j r X. injection X as _ <-. exact Hrr.
      * intros j r X. injection X as _ <-. exact Hro.
      * intros [X|X]; [discriminate|]. apply tn_ready0. cbn. auto.
      * rewrite tn_sent0, Hi. reflexivity.
      * rewrite Ht'. exact tn_opened0.
      * intros d. cbn [t_side]. rewrite Ht'. apply tn_refused0.
Qed.

(** A transmission of the lower layer ended *)
Lemma stn_sent complete : i = ICall LowerTxReady -> rest = [] -> ev = [] -> s' = set_transmitting (set_busy s false) false -> complete = ep_transmitting s && is_empty (ep_remainder s) ->
  pushed = [IPreTxReady] ++ (if complete then [IUpTxReady] else []) ++ [ITryRead; ICheckTransmit] -> (ep_transmitting s = true -> ep_up s = true) -> stn (upper_after p d' ev).
Proof.
  intros Hi Er He Es Ec Ep Hup.
  pose proof given_app as G1. pose proof got_app as G2. subst ev. cbn [offered read_data flat_map concat app] in G1, G2. rewrite app_nil_r in G1, G2, Ht'.
  assert (HP : forall j, In j pushed -> j = IPreTxReady \/ (j = IUpTxReady /\ complete = true) \/ j = ITryRead \/ j = ICheckTransmit) by (intros j; rewrite Ep; destruct complete; cbn; intuition).
  destruct HT. rewrite Hd in *. cbn [fst snd] in *. subst rest i. rewrite app_nil_r in Hd'.
  assert (Hrem : ep_remainder s' = ep_remainder s /\ ep_transmitting s' = false /\ ep_up s' = ep_up s /\ ep_payload s' = ep_payload s /\ ep_proc s' = ep_proc s /\ forall sl, slice_bytes s' sl = slice_bytes s sl) by (rewrite Es; repeat split; intros []; reflexivity).
  destruct Hrem as (E1 & E2 & E3 & E4 & E5 & E6).
  assert (Hcc : complete = true -> ep_transmitting s = true /\ ep_remainder s = []) by (rewrite Ec; intros X; apply andb_prop in X as [X Y]; split; [exact X|destruct (ep_remainder s); [reflexivity|discriminate]]).
  unfold upper_after. cbn [existsb starts_rx returned]. rewrite orb_false_r. replace (match t_tx p with Some sl => Some sl | None => None end) with (t_tx p) by (destruct (t_tx p); reflexivity).
  constructor; cbn [t_side t_rx t_tx t_in t_out t_sent]; rewrite ?Hd', ?G1, ?G2; cbn [fst snd]; rewrite ?E1, ?E2, ?E3, ?E4, ?E5; auto; try discriminate.
  - intros R. destruct (tn_rx0 R) as (Y1 & Y2 & Y3 & Y4). repeat split; auto. intros d X. destruct (HP _ X) as [Y|[[Y _]|[Y|Y]]]; discriminate.
  - intros R. destruct (tn_norx0 R) as [X|[X|[X|[[X|[]]|(d & _ & X & _)]]]]; auto; try discriminate.
    destruct (ep_remainder s) as [|x r] eqn:Erm; [|right; left; discriminate]. right; right; right; left. rewrite Ep, Ec, X. cbn. auto.
  - intros d X. destruct (HP _ X) as [Y|[[Y _]|[Y|Y]]]; discriminate.
  - intros sl R. destruct (tn_tx0 sl R) as (X1 & X2 & X3 & b & X4 & X5). repeat split; auto. { intros X. destruct (HP _ X) as [Y|[[Y _]|[Y|Y]]]; discriminate. } exists b. rewrite E6. auto.
  - intros R. destruct (tn_notx0 R) as (X1 & X2 & X3). repeat split; auto.
    + intros X. specialize (X2 X). discriminate.
    + intros X. destruct (X3 X) as [[Y|[]]|[Y|[]]]; discriminate.
  - intros j r X Y. assert (Z : In (ICall StartRx) pushed) by (rewrite X; cbn; auto). destruct (HP _ Z) as [W|[[W _]|[W|W]]]; discriminate.
  - intros j r X Y. assert (Z : In IUpOpen pushed) by (rewrite X; cbn; auto). destruct (HP _ Z) as [W|[[W _]|[W|W]]]; discriminate.
  - intros X. destruct (HP _ X) as [Y|[[_ Y]|[Y|Y]]]; try discriminate. destruct (Hcc Y) as [Y1 Y2]. auto.
  - rewrite tn_sent0. do 2 f_equal. assert (starting pushed = []) as -> by (rewrite Ep; destruct complete; reflexivity). reflexivity.
  - rewrite Ht'. exact tn_opened0.
  - intros d. cbn [t_side]. rewrite Ht'. apply tn_refused0.
Qed.
End step.

(** ** Every step of a stack *)
Notation plainly := (Forall (fun j => is_upcall j = false)).
Lemma validated C s m now cap p s' st : validate_session_data C s m now cap = Ok (inl p, s', st) -> s_valid s = true.
Proof. unfold validate_session_data, validate_with. destruct (s_valid s); [reflexivity|]. cbn. discriminate. Qed.
Lemma process_effect C s m inp s' pushed ev : exec C s (IProcess m) inp = Ok (s', pushed, ev) ->
  ep_up s' = ep_up s /\ ep_proc s' = ep_proc s /\ forallb unseen ev = true /\
  ((ep_remainder s' = ep_remainder s /\ ep_transmitting s' = ep_transmitting s) \/ (ep_remainder s <> [] /\ ep_transmitting s' = true)) /\
  ((ep_payload s' = ep_payload s /\ (plainly pushed \/ exists r, pushed = IUpOpen :: r /\ plainly r)) \/
   (pushed = [INonceChange; IUpRxReady] /\ s_valid (ep_active s) = true /\ ep_remainder s' = ep_remainder s /\ ep_transmitting s' = ep_transmitting s)).
Proof.
  intros H. exec_cases H; splits; repeat split; auto 8;
    try solve [left; split; [reflexivity|]; left; repeat constructor];
    try solve [left; split; [reflexivity|]; right; eexists; split; [reflexivity|]; repeat constructor];
    try (right; repeat split; eapply validated; eassumption);
    try (right; split; [|reflexivity]; destruct (ep_remainder s); discriminate).
Qed.

Definition plain_instr (i : instr) : bool :=
  match i with ICall LowerOpen | ICall LowerRxReady | ITryRead | ICheckTransmit | INonceChange | IPreTxReady | IHandshakeRequired | IAuthPayload None | ISetState _ => true | _ => false end.
Lemma plain_effect C s i inp s' pushed ev : plain_instr i = true -> exec C s i inp = Ok (s', pushed, ev) ->
  plainly pushed /\ forallb unseen ev = true /\ ep_up s' = ep_up s /\ ep_payload s' = ep_payload s /\ ep_proc s' = ep_proc s /\ (forall sl, ep_payload s = Some sl -> slice_bytes s' sl = slice_bytes s sl) /\
  ((ep_remainder s' = ep_remainder s /\ ep_transmitting s' = ep_transmitting s) \/ (ep_remainder s <> [] /\ ep_transmitting s' = true)).
Proof.
  intros Hi Hx. destruct i as [[]| | | | | | | | | | |[]| |]; try discriminate; exec_cases Hx; splits; repeat split; auto; try congruence; try (repeat constructor; fail); try (intros [] ?; reflexivity).
  all: right; split; [|reflexivity]; intros X; rewrite X in *; try discriminate.
  all: rewrite andb_false_r in *; try discriminate.
Qed.

Lemma stn_run p s i rest inp C s' pushed ev d' est out cs : stn p -> side_ok est (t_side p) out cs -> d_conf (t_side p) = (s, i :: rest) ->
  d_conf d' = (s', pushed ++ rest) -> d_trace d' = d_trace (t_side p) ++ ev -> (est = false -> s_valid (ep_active s) = false) ->
  in_calls inp = upper_calls p i -> exec C s i inp = Ok (s', pushed, ev) -> stn (upper_after p d' ev).
Proof.
  intros HT HS Hd Hd' Ht Hv Hc Hx. pose proof (sk_local _ _ _ _ HS) as HL. pose proof (sk_open _ _ _ _ HS) as HO. rewrite Hd in HL, HO. cbn [fst snd] in HL, HO.
  assert (Hup : est = true -> i <> IUpOpen -> ep_up s = true).
  { intros E N. pose proof (lc_up _ _ _ _ HL) as U. rewrite E in U. destruct U as [U|[U|U]]; [exact U|congruence|]. destruct (tn_open _ HT i rest); [rewrite Hd; reflexivity|exact U]. }
  pose proof (lc_stack _ _ _ _ HL) as HK. pose proof (stack_head _ _ _ _ HK) as Hi.
  assert (P : plain_instr i = true -> is_upcall i = false -> stn (upper_after p d' ev)).
  { intros P1 P2. destruct (plain_effect _ _ _ _ _ _ _ P1 Hx) as (Q1 & Q2 & Q3 & Q4 & Q5 & Q6 & Q7). eapply (stn_plain p s i rest); eauto. }
  destruct Hi as [F|[[m ->]|[-> Hi]]].
  - destruct i as [[]| | | | | | | | | | |[]| |]; cbn in F; try contradiction; try (apply P; reflexivity); clear P.
    + (* StartTx *) destruct (tn_start _ HT data) as (N1 & N2 & N3 & N4 & N5); [rewrite Hd; cbn; auto|]. rewrite Hd in *. cbn [fst snd] in *.
      assert (O : ep_open s = true) by (apply HO; destruct est; [reflexivity|]; pose proof (lc_up _ _ _ _ HL); congruence).
      cbn in Hx. unfold start_tx, tx_idle in Hx. rewrite O, N3, N4, N5 in Hx. cbn in Hx. injection Hx as <- <- <-. eapply (stn_accepts p s _ rest); eauto.
    + (* StartRx *) eapply (stn_asks p s _ rest); eauto.
    + (* IUpOpen *) cbn in Hx. destruct (ep_up s) eqn:U.
      * injection Hx as <- <- <-. eapply (stn_drop p s _ rest); eauto. discriminate.
      * unfold notify in Hx. rewrite Hc in Hx. injection Hx as <- <- <-. destruct (lc_down _ _ _ _ HL U). eapply (stn_open p s _ rest); eauto.
    + (* IUpTxReady *) destruct (tn_ready _ HT) as (U & _); [rewrite Hd; cbn; auto|]. rewrite Hd in U. cbn [fst] in U. cbn in Hx. rewrite U in Hx. unfold notify in Hx. rewrite Hc in Hx. injection Hx as <- <- <-. eapply (stn_ready p s _ rest); eauto.
    + (* IUpRxReady *) cbn in Hx. destruct (ep_up s) eqn:U.
      * unfold notify in Hx. rewrite Hc in Hx. injection Hx as <- <- <-. cbn [upper_calls] in *. destruct (t_tx p) eqn:Et.
        { eapply (stn_drop p s _ rest); eauto. left. congruence. }
        { eapply (stn_reads p s _ rest); eauto. }
      * injection Hx as <- <- <-. eapply (stn_drop p s _ rest); eauto. intros _. right. destruct (ep_payload s) eqn:Ep; [|reflexivity]. pose proof (tn_held _ HT) as X. rewrite Hd in X. cbn [fst] in X. rewrite X in U; congruence.
  - (* IProcess *) destruct (process_effect _ _ _ _ _ _ _ Hx) as (Q1 & Q2 & Q3 & Q4 & Q5).
    assert (Pl : ep_payload s = None). { destruct HK as [K|[(m0 & r & K & _ & K2 & _)|[[K _]|[[K _]|[[K _]|[K _]]]]]]; try discriminate; [inversion K; contradiction|exact K2]. }
    destruct Q5 as [(R1 & [R2|(r & R2 & R3)])|(R1 & R2 & R3 & R4)].
    + eapply (stn_plain p s _ rest); eauto. intros; congruence.
    + eapply (stn_opens p s _ rest); eauto; [|intros; congruence]. eapply (tn_open _ HT). rewrite Hd. reflexivity.
    + eapply (stn_data p s _ rest); eauto. apply Hup; [|discriminate]. destruct est; [reflexivity|]. rewrite Hv in R2; congruence.
  - destruct Hi as [[-> _]|[[-> Hb]|[[-> Ho]|[-> _]]]]; try (apply P; reflexivity).
    cbn [exec enter] in Hx. change (ep_open (set_busy s false)) with (ep_open s) in Hx. destruct (ep_open s) eqn:O.
    + injection Hx as <- <- <-. eapply (stn_sent p s _ []); eauto. intros T. destruct (ep_up s) eqn:U; [reflexivity|]. destruct (lc_down _ _ _ _ HL U). congruence.
    + injection Hx as <- <- <-. eapply (stn_plain p s _ []); eauto; try reflexivity; repeat constructor; auto.
Qed.

(** ** The other steps of a proxy *)
Lemma stn_enter p c owed : stn p -> stack (t_side p) = [] -> (forall d, c <> StartTx d) -> c <> StartRx -> stn (with_side p (call_in (t_side p) c owed)).
Proof.
  intros HT K N1 N2. destruct HT. rewrite K in *. constructor; cbn [with_side call_in t_side t_rx t_tx t_in t_out t_sent d_conf fst snd]; auto.
  - intros R. destruct (tn_rx0 R) as (Y1 & Y2 & Y3 & Y4). repeat split; auto. intros d [X|[]]. injection X as X. exact (N1 d X).
  - intros R. destruct (tn_norx0 R) as [X|[X|[X|[[]|(d & _ & X & _)]]]]; auto. discriminate.
  - intros d [X|[]]. injection X as X. destruct (N1 d X).
  - intros sl R. destruct (tn_tx0 sl R) as (X1 & X2 & X3 & X4). repeat split; auto. intros [X|[]]. congruence.
  - intros R. destruct (tn_notx0 R) as (X1 & X2 & X3). repeat split; auto.
    + intros X. specialize (X2 X). discriminate.
    + intros X. destruct (X3 X) as [[]|[]].
  - intros j r X. injection X as _ <-. cbn. auto.
  - intros j r X. injection X as _ <-. cbn. auto.
  - intros [X|[]]. discriminate.
  - rewrite tn_sent0. f_equal. destruct c; try reflexivity. destruct (N1 _ eq_refl).
Qed.
Lemma stn_told p out out' : stn p -> stn (told out out' p).
Proof. intros []. constructor; cbn [told with_side informed t_side t_rx t_tx t_in t_out t_sent d_conf d_trace fst snd]; auto. Qed.
Lemma stn_client p data : stn p -> bytes_ok data -> stn (client p data).
Proof.
  intros [] B. constructor; cbn [client t_side t_rx t_tx t_in t_out t_sent]; auto.
  - rewrite tn_sent0, <- !app_assoc. reflexivity.
  - apply Forall_app. auto.
Qed.
Lemma stn_received p data rest owed : stn p -> stack (t_side p) = [] -> t_rx p = true -> t_in p = data ++ rest -> data <> [] ->
  stn {| t_side := call_in (t_side p) (StartTx data) owed; t_in := rest; t_rx := false; t_tx := t_tx p; t_out := t_out p; t_sent := t_sent p |}.
Proof.
  intros HT K R E Hn. destruct HT. rewrite K in *. destruct (tn_rx0 R) as (Y1 & Y2 & Y3 & _).
  constructor; cbn [call_in t_side t_rx t_tx t_in t_out t_sent d_conf fst snd]; auto; try discriminate.
  - intros _. right; right; right; right. exists data. auto 6.
  - intros d [X|[]]. injection X as <-. auto 6.
  - intros sl R'. destruct (tn_tx0 sl R') as (X1 & X2 & X3 & X4). repeat split; auto. intros [X|[]]. discriminate.
  - intros R'. destruct (tn_notx0 R') as (X1 & X2 & X3). repeat split; auto.
    + intros X. specialize (X2 X). discriminate.
    + intros X. destruct (X3 X) as [[]|[]].
  - intros j r X. injection X as _ <-. cbn. auto.
  - intros j r X. injection X as _ <-. cbn. auto.
  - rewrite tn_sent0, E. unfold starting. cbn [flat_map app]. rewrite app_nil_r. reflexivity.
  - rewrite E in tn_bytes0. apply Forall_app in tn_bytes0. tauto.
Qed.
Lemma stn_written p sl bytes owed : stn p -> stack (t_side p) = [] -> t_tx p = Some sl -> slice_bytes (core (t_side p)) sl = Ok bytes ->
  stn {| t_side := call_in (t_side p) StartRx owed; t_in := t_in p; t_rx := t_rx p; t_tx := None; t_out := t_out p ++ bytes; t_sent := t_sent p |}.
Proof.
  intros HT K R E. destruct HT. rewrite K in *. destruct (tn_tx0 sl R) as (Y1 & Y2 & Y3 & b & Y4 & Y5). rewrite E in Y4. injection Y4 as <-.
  constructor; cbn [call_in t_side t_rx t_tx t_in t_out t_sent d_conf fst snd]; auto; try discriminate.
  - intros R'. destruct (tn_rx0 R') as (X1 & X2 & X3 & X4). repeat split; auto. intros d [X|[]]. discriminate.
  - intros R'. destruct (tn_norx0 R') as [X|[X|[X|[[]|(d & _ & X & _)]]]]; auto. discriminate.
  - intros d [X|[]]. discriminate.
  - intros _. repeat split; auto. intros _. right. cbn. auto.
  - intros j r X. injection X as _ <-. cbn. auto.
  - intros j r X. injection X as _ <-. cbn. auto.
  - intros [X|[]]. discriminate.
Qed.

(** A step of a proxy is a step of its stack that offers nothing new, or takes data of the client *)
Definition takes_data (p p' : station) : Prop := exists data, stack (t_side p) = [] /\ data <> [] /\ t_in p = data ++ t_in p' /\ t_side p' = call_in (t_side p) (StartTx data) (d_owed (t_side p)) /\ t_sent p' = t_sent p.
Lemma station_kind L C off out now p p' now' : stn p -> station_step L C off out now p p' now' ->
  (side_calm L C off out now (t_side p) (t_side p') now' /\ t_in p' = t_in p /\ t_sent p' = t_sent p) \/ (now' = now /\ takes_data p p').
Proof.
  intros HT [K O|K B|K O W|data rest K R E Hl|sl bytes K R E|s i rest inp t1 t2 s' pushed ev ms Hd TT TE HA HC HX FR LM].
  - left. repeat split. apply sc_open; auto.
  - left. repeat split. apply sc_sent; auto.
  - left. repeat split. apply sc_arrived; auto.
  - right. split; [reflexivity|]. exists data. repeat split; auto. destruct data; [cbn in Hl; lia|discriminate].
  - left. repeat split. apply sc_read; auto. destruct (tn_tx _ HT _ R) as (X & _). congruence.
  - left. repeat split. eapply sc_run; eauto. unfold upper_calls in HC. destruct i; auto. destruct (t_tx p); auto.
Qed.
Lemma station_stn L C off out now p p' now' est cs : stn p -> side_ok est (t_side p) out cs -> (est = false -> s_valid (ep_active (core (t_side p))) = false) -> station_step L C off out now p p' now' -> stn p'.
Proof.
  intros HT HS Hv [K O|K B|K O W|data rest K R E Hl|sl bytes K R E|s i rest inp t1 t2 s' pushed ev ms Hd TT TE HA HC HX FR LM].
  - apply stn_enter; auto; discriminate.
  - apply stn_enter; auto; discriminate.
  - apply stn_enter; auto; discriminate.
  - apply stn_received; auto. destruct data; [cbn in Hl; lia|discriminate].
  - eapply stn_written; eauto.
  - rewrite Hd in Hv. cbn [fst] in Hv. eapply stn_run; eauto; reflexivity.
Qed.

Section tunnel.
Variables (L : net) (c : iconf) (h : responder_handshake).
Hypothesis OK : compatible L c h.
Definition line_of (x : tunnel) : line := {| l_now := u_now x; l_a := t_side (u_a x); l_b := t_side (u_b x) |}.
Notation inv x := (exists ea eb, inv_with L c h ea eb (u_now x) (t_side (u_a x)) (t_side (u_b x))).

Lemma takes_step C off out now p p' : stn p -> takes_data p p' -> side_step L C off out now (t_side p) (t_side p') now.
Proof.
  intros HT (data & K & Hn & E & -> & _). apply ss_call; auto. pose proof (tn_bytes _ HT) as B. rewrite E in B. apply Forall_app in B. exact (proj1 B).
Qed.
Lemma tunnel_line x y : stn (u_a x) -> stn (u_b x) -> tunnel_calm L x y -> line_step L (line_of x) (line_of y).
Proof.
  intros HA HB [a' now' H|b' now' H]; unfold line_of; cbn [u_now u_a u_b told with_side t_side].
  - apply (ls_a L (line_of x)). cbn [line_of l_now l_a l_b]. destruct (station_kind _ _ _ _ _ _ _ _ HA H) as [[X _]|[-> X]]; [apply (calm_side _ _ _ _ _ _ _ _ eq_refl X)|apply takes_step; auto].
  - apply (ls_b L (line_of x)). cbn [line_of l_now l_a l_b]. destruct (station_kind _ _ _ _ _ _ _ _ HB H) as [[X _]|[-> X]]; [apply (calm_side _ _ _ _ _ _ _ _ eq_refl X)|apply takes_step; auto].
Qed.
Lemma tunnel_stn x y : reachable L (line_of x) -> stn (u_a x) -> stn (u_b x) -> tunnel_calm L x y -> stn (u_a y) /\ stn (u_b y).
Proof.
  intros R HA HB H. destruct (line_invariant _ _ _ OK _ R) as (ea & eb & SA & SB & PA & PB & _). cbn [line_of l_now l_a l_b] in *.
  destruct H as [a' now' H|b' now' H]; cbn [u_a u_b].
  - split; [|apply stn_told, HB]. eapply (station_stn L); [exact HA|exact SA| |exact H]. intros ->. eapply pa_invalid; eauto.
  - split; [apply stn_told, HA|]. eapply (station_stn L); [exact HB|exact SB| |exact H]. intros ->. eapply pb_invalid; eauto.
Qed.
Theorem tunnel_invariant x : tunnel_reachable L x -> reachable L (line_of x) /\ stn (u_a x) /\ stn (u_b x).
Proof.
  induction 1 as [|x y _ (R & A & B) H|x data _ (R & A & B) Hb|x data _ (R & A & B) Hb].
  - split; [apply rc_new|]. split; apply stn_new.
  - destruct (tunnel_stn _ _ R A B H). split; [|auto]. eapply rc_step; [exact R|]. apply tunnel_line; auto.
  - split; [exact R|]. split; [apply stn_client; auto|exact B].
  - split; [exact R|]. split; [exact A|apply stn_client; auto].
Qed.

(** ** The buffers *)
Lemma stn_buffers p est out cs : stn p -> side_ok est (t_side p) out cs -> buffers_kept p /\ never_refused p.
Proof.
  intros HT HS. split; [|apply (tn_refused _ HT)]. split; [|intros R; apply (tn_rx _ HT R)].
  destruct (t_tx p) as [sl|] eqn:E; [|apply (tn_notx _ HT E)]. destruct (tn_tx _ HT _ E) as (X1 & X2 & X3 & b & X4 & X5). exists b. split; [exact X4|]. split; [|exact X5].
  destruct (lc_pl _ _ _ _ (sk_local _ _ _ _ HS) _ X1) as (b' & Y1 & Y2). congruence.
Qed.
Theorem tunnel_buffers x : tunnel_reachable L x -> (buffers_kept (u_a x) /\ never_refused (u_a x)) /\ (buffers_kept (u_b x) /\ never_refused (u_b x)).
Proof.
  intros R. destruct (tunnel_invariant _ R) as (Rl & A & B). destruct (line_invariant _ _ _ OK _ Rl) as (ea & eb & SA & SB & _). split; eapply stn_buffers; eauto.
Qed.

(** ** What comes out went in *)
Lemma out_prefix p : stn p -> exists r, t_out p ++ r = got (t_side p).
Proof.
  intros HT. destruct (t_tx p) as [sl|] eqn:E.
  - destruct (tn_tx _ HT _ E) as (_ & _ & _ & b & _ & X). exists b. exact X.
  - exists []. rewrite app_nil_r. apply (tn_notx _ HT E).
Qed.
Theorem tunnel_prefix x : tunnel_reachable L x -> (exists r, t_out (u_b x) ++ r = t_sent (u_a x)) /\ (exists r, t_out (u_a x) ++ r = t_sent (u_b x)).
Proof.
  intros R. destruct (tunnel_invariant _ R) as (Rl & A & B). destruct (line_prefix _ _ _ _ (line_invariant _ _ _ OK _ Rl)) as ((ra & Ha) & (rb & Hb)). cbn [line_of l_a l_b] in *.
  destruct (out_prefix _ A) as (ua & Ua). destruct (out_prefix _ B) as (ub & Ub). rewrite <- Ua in Hb. rewrite <- Ub in Ha.
  rewrite (tn_sent _ A), (tn_sent _ B), <- Ha, <- Hb, <- !app_assoc. split; eexists; reflexivity.
Qed.

(** ** Nothing is left *)
Lemma proxy_rest p est out cs : stn p -> side_ok est (t_side p) out cs -> proxy_at_rest p -> at_rest (t_side p) /\ t_out p = got (t_side p) /\ (told_open (t_side p) -> t_sent p = given (t_side p)).
Proof.
  intros HT HS (K & O & B & W & T & I). pose proof (sk_local _ _ _ _ HS) as HL. destruct (tn_notx _ HT T) as (X1 & X2 & X3). split; [|split; [exact X1|]].
  - repeat split; auto. destruct (ep_payload (core (t_side p))) eqn:E; [|reflexivity]. rewrite K in X3. destruct X3 as [[]|[]]. discriminate.
  - intros [To _]. rewrite (tn_sent _ HT), K. cbn [starting flat_map app].
    assert (Rx : t_rx p = true). { destruct (t_rx p) eqn:R; [reflexivity|]. exfalso. destruct (tn_norx _ HT R) as [X|[X|[X|[X|(d & _ & X & _)]]]].
      - rewrite (tn_opened _ HT To) in X. discriminate.
      - destruct (lc_rem _ _ _ _ HL X) as [Y|Y]; [congruence|]. rewrite K in Y. destruct Y.
      - pose proof (lc_trans _ _ _ _ HL X). congruence.
      - rewrite K in X. destruct X.
      - rewrite K in X. discriminate. }
    rewrite (I Rx), app_nil_r. reflexivity.
Qed.
Theorem tunnel_delivered x : tunnel_reachable L x -> proxy_at_rest (u_a x) -> proxy_at_rest (u_b x) -> all_through x /\ t_in (u_a x) = [] /\ t_in (u_b x) = [].
Proof.
  intros R RA RB. destruct (tunnel_invariant _ R) as (Rl & A & B). destruct (line_invariant _ _ _ OK _ Rl) as (ea & eb & SA & SB & _). cbn [line_of l_now l_a l_b] in *.
  destruct (proxy_rest _ _ _ _ A SA RA) as (A1 & A2 & A3). destruct (proxy_rest _ _ _ _ B SB RB) as (B1 & B2 & B3).
  destruct (line_delivered _ _ _ _ (line_invariant _ _ _ OK _ Rl) A1 B1) as ((D1 & D2) & D3 & D4). cbn [line_of l_a l_b] in *. specialize (A3 D3). specialize (B3 D4).
  assert (In0 : forall p, stn p -> stack (t_side p) = [] -> t_sent p = given (t_side p) -> t_in p = []).
  { intros p HT K E. pose proof (tn_sent _ HT) as S. rewrite E, K in S. cbn [starting flat_map app] in S. destruct (t_in p); [reflexivity|]. apply (f_equal (@length N)) in S. rewrite app_length in S. cbn in S. lia. }
  split; [split; congruence|]. split; apply In0; auto; [apply RA|apply RB].
Qed.
End tunnel.
