(** * LineLocal: one side of a reliable line *)
From Verif Require Import Base BaseFacts Codec CodecSpec CodecFacts Link LinkLayer Primitives Session SessionSpec SessionFacts SessionMain
  Handshake HandshakeSpec HandshakeFacts HandshakeMain HandshakePair Endpoint EndpointSpec EndpointFacts EndpointMain EndpointRx EndpointTx EndpointNonce PairSpec Line LineSpec LineMsgs LineHandshake.

Definition chunks (t : list event) : list (list N) := flat_map (fun e => match e with EvTx (TxAuth c) _ | EvTx (TxData c) _ => [c] | _ => [] end) t.
Definition accepted (t : list event) : list (list N) := flat_map (fun e => match e with EvAuthOk _ _ p | EvDataOk _ _ p => [p] | _ => [] end) t.
(** The payload that was not read yet *)
Definition held (s : endpoint) : list (list N) :=
  match ep_payload s with Some p => match slice_bytes s p with Ok b => if ep_proc s then [] else [b] | _ => [] end | None => [] end.

(** The calls in progress before and after the session is established *)
Definition fine (est : bool) (i : instr) : Prop :=
  match i with
  | ICall (StartTx d) => bytes_ok d
  | ICall StartRx | ITryRead | ICheckTransmit | IUpTxReady | IUpRxReady | IPreTxReady | IAuthPayload None => True
  | IUpOpen | INonceChange | ISetState Idle => est = true
  | _ => False
  end.
Definition stack_ok (est : bool) (s : endpoint) (k : list instr) : Prop :=
  Forall (fine est) k \/
  (exists m rest, k = IProcess m :: rest /\ Forall (fine est) rest /\ ep_payload s = None /\ ep_busy s = false /\ ep_open s = true) \/
  (k = [ICall LowerOpen] /\ ep_open s = false) \/ (k = [ICall LowerTxReady] /\ ep_busy s = true) \/ (k = [ICall LowerRxReady] /\ ep_open s = true) \/
  (k = [IHandshakeRequired] /\ ep_open s = true /\ est = false /\ ep_state s = Idle).

Record local (est : bool) (s : endpoint) (k : list instr) (t : list event) : Prop := {
  lc_stack : stack_ok est s k;
  lc_up : if est then ep_up s = true \/ In IUpOpen k else ep_up s = false;
  lc_req : ep_required s = false;
  lc_trans : ep_transmitting s = true -> ep_busy s = true;
  lc_rem : ep_remainder s <> [] -> ep_busy s = true \/ In ICheckTransmit k;
  lc_down : ep_up s = false -> ep_remainder s = [] /\ ep_transmitting s = false;
  lc_bytes : bytes_ok (ep_remainder s);
  lc_given : concat (offered t) = concat (chunks t) ++ ep_remainder s;
  lc_got : read_data t ++ held s = filter nonempty (accepted t);
  lc_proc : ep_proc s = true -> ep_payload s <> None;
  lc_pl : forall p, ep_payload s = Some p -> exists b, slice_bytes s p = Ok b /\ b <> [];
  lc_told : ep_up s = true -> In EvUpOpen t;
  lc_closed : ~ In EvUpClose t }.

(** Somebody will look at the messages that wait *)
Definition wake (w : Prop) (owed : bool) (s : endpoint) (k : list instr) : Prop :=
  w -> if ep_open s then owed = true \/ ep_busy s = true \/ ep_payload s <> None \/ In ITryRead k \/ In (ICall LowerRxReady) k else owed = true.

(** What no step but those of the handshake changes *)
Definition same_core (est : bool) (s s' : endpoint) : Prop :=
  ep_active s' = ep_active s /\ ep_pending s' = ep_pending s /\ ep_ihs s' = ep_ihs s /\ (est = false -> ep_state s' = ep_state s).

Lemma app_fine est l : forallb app_call l = true -> Forall call_typed l -> Forall (fine est) (map ICall l).
Proof.
  intros H H0. rewrite forallb_forall in H. rewrite Forall_map. rewrite Forall_forall in *. intros x Hx. specialize (H _ Hx). specialize (H0 _ Hx). destruct x; cbn in *; auto; discriminate.
Qed.
Lemma stack_fine est s i rest : stack_ok est s (i :: rest) -> Forall (fine est) rest.
Proof.
  intros [H|[(m & r & H1 & H2 & _)|[[H _]|[[H _]|[[H _]|[H _]]]]]].
  - inversion H; assumption.
  - injection H1 as _ ->. exact H2.
  - injection H as _ ->. constructor.
  - injection H as _ ->. constructor.
  - injection H as _ ->. constructor.
  - injection H as _ ->. constructor.
Qed.

Lemma in_rest {A} (x y : A) l l' : In x (y :: l) -> y <> x -> In x (l' ++ l).
Proof. intros [H|H] N; [congruence|]. apply in_or_app. auto. Qed.
Lemma in_rest0 {A} (x y : A) l : In x (y :: l) -> y <> x -> In x l.
Proof. intros [H|H] N; [congruence|]. auto. Qed.

Lemma traces_app t e : offered (t ++ e) = offered t ++ offered e /\ chunks (t ++ e) = chunks t ++ chunks e /\ read_data (t ++ e) = read_data t ++ read_data e /\ accepted (t ++ e) = accepted t ++ accepted e.
Proof. unfold offered, chunks, read_data, accepted. rewrite !flat_map_app. auto. Qed.

Lemma no_close t e : ~ In EvUpClose t -> ~ In EvUpClose e -> ~ In EvUpClose (t ++ e).
Proof. rewrite in_app_iff. tauto. Qed.

Definition silent (ev : list event) : Prop := offered ev = [] /\ chunks ev = [] /\ read_data ev = [] /\ accepted ev = [] /\ ~ In EvUpClose ev.

(** A step that touches nothing of the local state *)
Lemma local_frame est s i rest t s' pushed ev : local est s (i :: rest) t ->
  ep_up s' = ep_up s -> ep_required s' = ep_required s -> ep_transmitting s' = ep_transmitting s -> ep_busy s' = ep_busy s -> ep_remainder s' = ep_remainder s ->
  ep_payload s' = ep_payload s -> ep_proc s' = ep_proc s -> (ep_payload s <> None -> ep_buffer s' = ep_buffer s /\ ep_generation s' = ep_generation s) ->
  (i = IUpOpen -> ep_up s = true) -> (i = ICheckTransmit -> ep_remainder s <> [] -> ep_busy s = true) -> stack_ok est s' (pushed ++ rest) -> silent ev ->
  local est s' (pushed ++ rest) (t ++ ev).
Proof.
  intros [] E1 E2 E3 E4 E5 E6 E7 E8 HO HC HS (V1 & V2 & V3 & V4 & V5).
  destruct (traces_app t ev) as (T1 & T2 & T3 & T4). rewrite V1 in T1. rewrite V2 in T2. rewrite V3 in T3. rewrite V4 in T4. rewrite app_nil_r in T1, T2, T3, T4.
  assert (Sl : forall p, ep_payload s = Some p -> slice_bytes s' p = slice_bytes s p).
  { intros p Hp. destruct (E8 ltac:(congruence)) as [X1 X2]. unfold slice_bytes. rewrite X1, X2. reflexivity. }
  assert (Hh : held s' = held s).
  { unfold held. rewrite E6, E7. destruct (ep_payload s) eqn:Ep; [|reflexivity]. rewrite Sl by reflexivity. reflexivity. }
  constructor; rewrite ?E1, ?E2, ?E3, ?E4, ?E5, ?E6, ?E7, ?T1, ?T2, ?T3, ?T4, ?Hh; auto.
  - destruct est; auto. destruct lc_up0 as [H|[H|H]]; auto. right. apply in_or_app. auto.
  - intros Hr. destruct (lc_rem0 Hr) as [H|[H|H]]; auto. right. apply in_or_app. auto.
  - intros p Hp. rewrite Sl by exact Hp. auto.
  - intros Hu. apply in_or_app. auto.
  - apply no_close; auto.
Qed.

Lemma wake_frame (w w' : Prop) owed s i rest s' pushed : wake w owed s (i :: rest) -> (w' -> w) ->
  ep_open s' = ep_open s -> ep_busy s' = ep_busy s -> ep_payload s' = ep_payload s ->
  (i = ITryRead -> w' -> ep_open s = true -> ep_busy s = true \/ ep_payload s <> None \/ In ITryRead pushed) -> (i = ICall LowerRxReady -> ep_open s = true -> In ITryRead pushed) ->
  wake w' owed s' (pushed ++ rest).
Proof.
  intros H Hw E1 E2 E3 HT HR W. specialize (H (Hw W)). rewrite E1, E2, E3. destruct (ep_open s) eqn:Ho; [|exact H].
  destruct H as [H|[H|[H|[[H|H]|[H|H]]]]]; rewrite ?in_app_iff; auto 6.
  - destruct (HT H W eq_refl) as [X|[X|X]]; auto 6.
  - pose proof (HR H eq_refl). auto 6.
Qed.
Lemma wake_now (w : Prop) owed s k : (ep_open s = true -> ep_busy s = true \/ ep_payload s <> None \/ In ITryRead k \/ In (ICall LowerRxReady) k) -> (ep_open s = false -> w -> owed = true) -> wake w owed s k.
Proof. intros H H2 W. destruct (ep_open s); auto. Qed.

Record quiet_result (est : bool) (s : endpoint) (k : list instr) (t : list event) (ev : list event) (w' : Prop) (owed : bool) (s' : endpoint) (k' : list instr) : Prop := {
  qr_local : local est s' k' (t ++ ev);
  qr_wake : wake w' owed s' k';
  qr_core : same_core est s s';
  qr_frames : frames ev = [];
  qr_chunks : chunks ev = [];
  qr_accepted : accepted ev = [] }.

Definition no_process (k : list instr) : Prop := match k with IProcess _ :: _ => False | _ => True end.
Lemma fine_no_process est k : Forall (fine est) k -> no_process k.
Proof. intros H. destruct H as [|x l H _]; [exact I|]. destruct x; cbn in *; auto. Qed.

Ltac sil := repeat split; try reflexivity; cbn; intuition discriminate.
Ltac core := repeat split; try reflexivity; intros; try discriminate; reflexivity.
Ltac fines := left; repeat (apply Forall_cons; [cbn; auto|]); cbn [app]; try assumption.


Lemma quiet_try C est s rest t inp s' pushed ev (w w' : Prop) owed : exec C s ITryRead inp = Ok (s', pushed, ev) -> local est s (ITryRead :: rest) t -> wake w owed s (ITryRead :: rest) ->
  in_ready inp = negb (ep_busy s) -> (w' -> w) -> (ep_open s = false -> in_message inp = []) -> (ep_open s = true -> in_message inp = [] -> ~ w) ->
  quiet_result est s rest t ev w' owed s' (pushed ++ rest) /\ ep_open s' = ep_open s /\
  ((takes ev = 0 /\ no_process (pushed ++ rest)) \/ (takes ev = 1 /\ ep_busy s = false /\ ep_open s = true /\ exists r, pushed = IProcess (in_message inp) :: r)).
Proof.
  intros H HL HW Hr Hw Hc Hm. pose proof (stack_fine _ _ _ _ (lc_stack _ _ _ _ HL)) as HF. cbn [exec] in H. unfold try_read_one in H. rewrite Hr in H.
  assert (Eb : set_busy s (negb (negb (ep_busy s))) = s) by (rewrite negb_involutive; destruct s; reflexivity).
  assert (Ea : asked s inp = s) by (unfold asked; rewrite Hr; exact Eb). rewrite Ea in H. rewrite negb_involutive in H. destruct (ep_busy s) eqn:B.
  - injection H as <- <- <-. split; [|split; [reflexivity|left; split; [reflexivity|apply (fine_no_process est), HF]]]. constructor; try reflexivity; [| |core].
    + apply (local_frame est s ITryRead); auto; try discriminate; [fines|sil].
    + eapply wake_frame; eauto. discriminate.
  - destruct (ep_payload s) as [p|] eqn:P.
    + injection H as <- <- <-. split; [|split; [reflexivity|left; split; [reflexivity|apply (fine_no_process est), HF]]]. constructor; try reflexivity; [| |core].
      * apply (local_frame est s ITryRead); auto; try discriminate; [fines|sil].
      * eapply wake_frame; eauto; [|discriminate]. intros _ _ _. right; left. congruence.
    + destruct (in_message inp) as [|b m] eqn:M.
      * injection H as <- <- <-. split; [|split; [reflexivity|left; split; [reflexivity|apply (fine_no_process est), HF]]]. constructor; try reflexivity; [| |core].
        -- apply (local_frame est s ITryRead); auto; try discriminate; [rewrite P; congruence|fines|sil].
        -- eapply wake_frame; eauto; [|discriminate]. intros _ W Ho. exfalso. apply (Hm Ho eq_refl). auto.
      * assert (Ho : ep_open s = true) by (destruct (ep_open s); auto; discriminate (Hc eq_refl)).
        injection H as <- <- <-. split; [|split; [reflexivity|right; split; [reflexivity|split; [auto|split; [exact Ho|eauto]]]]]. constructor; try reflexivity; [| |core].
        -- apply (local_frame est s ITryRead); auto; try discriminate; [rewrite P; congruence| |sil].
           right; left. exists (b :: m), (ITryRead :: rest). cbn [app]. split; [reflexivity|]. split; [constructor; [exact I|exact HF]|]. split; [exact P|]. split; [exact B|exact Ho].
        -- apply wake_now; [|cbn; congruence]. intros _. right; right; left. cbn. auto.
Qed.

Definition quiet (est : bool) (s : endpoint) (rest : list instr) (t : list event) (s' : endpoint) (pushed : list instr) (ev : list event) (w' : Prop) (owed : bool) : Prop :=
  quiet_result est s rest t ev w' owed s' (pushed ++ rest) /\ ep_open s' = ep_open s /\ takes ev = 0 /\ no_process (pushed ++ rest) /\ (ep_busy s = false -> ep_busy s' = false).

Lemma quiet_simple est s i rest t s' pushed ev (w w' : Prop) owed : local est s (i :: rest) t -> wake w owed s (i :: rest) -> (w' -> w) ->
  ep_up s' = ep_up s -> ep_required s' = ep_required s -> ep_transmitting s' = ep_transmitting s -> ep_busy s' = ep_busy s -> ep_remainder s' = ep_remainder s ->
  ep_payload s' = ep_payload s -> ep_proc s' = ep_proc s -> (ep_payload s <> None -> ep_buffer s' = ep_buffer s /\ ep_generation s' = ep_generation s) ->
  ep_open s' = ep_open s -> same_core est s s' ->
  (i = IUpOpen -> ep_up s = true) -> (i = ICheckTransmit -> ep_remainder s <> [] -> ep_busy s = true) -> i <> ITryRead -> (i = ICall LowerRxReady -> In ITryRead pushed) ->
  Forall (fine est) pushed -> silent ev -> frames ev = [] -> takes ev = 0 ->
  quiet est s rest t s' pushed ev w' owed.
Proof.
  intros HL HW Hw E1 E2 E3 E4 E5 E6 E7 E8 E9 HC HO HK HT HR HF HS Hfr Htk. pose proof (stack_fine _ _ _ _ (lc_stack _ _ _ _ HL)) as HF'.
  assert (HF2 : Forall (fine est) (pushed ++ rest)) by (apply Forall_app; auto). unfold quiet.
  split; [|split; [exact E9|split; [exact Htk|split; [apply (fine_no_process est); exact HF2|congruence]]]]. destruct HS as (S1 & S2 & S3 & S4 & S5). constructor; auto.
  - eapply local_frame; eauto; [left; exact HF2|repeat split; auto].
  - eapply wake_frame; eauto; congruence.
Qed.

Lemma quiet_start_tx C est s d rest t inp s' pushed ev (w w' : Prop) owed : exec C s (ICall (StartTx d)) inp = Ok (s', pushed, ev) -> local est s (ICall (StartTx d) :: rest) t -> wake w owed s (ICall (StartTx d) :: rest) -> (w' -> w) ->
  bytes_ok d -> quiet est s rest t s' pushed ev w' owed.
Proof.
  intros H HL HW Hw Hd. pose proof (stack_fine _ _ _ _ (lc_stack _ _ _ _ HL)) as HF. cbn [exec enter] in H. unfold start_tx in H. destruct (ep_open s && ep_up s && tx_idle s) eqn:G.
  - injection H as <- <- <-. apply andb_true_iff in G as [G1 G3]. apply andb_true_iff in G1 as [G1 G2]. unfold tx_idle in G3. apply andb_true_iff in G3 as [G3 G4].
    apply negb_true_iff in G3. assert (Er : ep_remainder s = []) by (destruct (ep_remainder s); [reflexivity|discriminate]).
    unfold quiet. split; [|split; [reflexivity|split; [reflexivity|split; [exact I|auto]]]]. constructor; try reflexivity; [| |core].
    + destruct HL. destruct (traces_app t [EvAccept d]) as (T1 & T2 & T3 & T4). constructor; rewrite ?T1, ?T2, ?T3, ?T4; cbn [chunks offered read_data accepted flat_map]; rewrite ?app_nil_r; eps; auto.
      * fines.
      * destruct est; auto.
      * discriminate.
      * intros _. right. apply in_eq.
      * intros X. congruence.
      * rewrite concat_app, lc_given0, Er. cbn. rewrite !app_nil_r. reflexivity.
      * intros X. apply in_or_app; auto.
      * apply no_close; [auto|cbn; intuition discriminate].
    + eapply wake_frame; eauto; discriminate.
  - injection H as <- <- <-. eapply quiet_simple; eauto; try discriminate; try (repeat split; reflexivity). sil.
Qed.

Lemma quiet_start_rx C est s rest t inp s' pushed ev (w w' : Prop) owed : exec C s (ICall StartRx) inp = Ok (s', pushed, ev) -> local est s (ICall StartRx :: rest) t -> wake w owed s (ICall StartRx :: rest) -> (w' -> w) ->
  quiet est s rest t s' pushed ev w' owed.
Proof.
  intros H HL HW Hw. pose proof (stack_fine _ _ _ _ (lc_stack _ _ _ _ HL)) as HF. cbn [exec enter] in H. unfold start_rx in H. destruct (ep_proc s) eqn:Pr.
  - cbn [set_proc set_payload ep_payload] in H. injection H as <- <- <-. unfold quiet. split; [|split; [reflexivity|split; [reflexivity|split; [exact I|auto]]]]. constructor; try reflexivity; [| |core].
    + destruct HL. rewrite app_nil_r. constructor; eps; auto; try discriminate.
      * fines.
      * destruct est; [|auto]. destruct lc_up0 as [?|[?|?]]; auto; try discriminate. right. apply in_cons. auto.
      * intros X. destruct (lc_rem0 X) as [?|[?|?]]; auto; try discriminate. right. apply in_cons. auto.
      * rewrite <- lc_got0. f_equal. unfold held. eps. destruct (ep_payload s); [|reflexivity]. rewrite Pr. destruct (slice_bytes s s0); reflexivity.
    + apply wake_now; [|]. { intros _. right; right; left. cbn. auto. } eps. intros Ho W. specialize (HW (Hw W)). rewrite Ho in HW. exact HW.
  - destruct (ep_payload s) as [p|] eqn:Pl.
    + destruct HL. destruct (lc_pl0 p Pl) as (b & B1 & B2). rewrite B1 in H. cbn [obind] in H. injection H as <- <- <-.
      unfold quiet. split; [|split; [reflexivity|split; [reflexivity|split; [apply (fine_no_process est); exact HF|auto]]]]. constructor; try reflexivity; [| |core].
      * destruct (traces_app t [EvRead b]) as (T1 & T2 & T3 & T4). constructor; rewrite ?T1, ?T2, ?T3, ?T4; cbn [chunks offered read_data accepted flat_map]; rewrite ?app_nil_r; eps; auto.
        -- fines.
        -- destruct est; [|auto]. destruct lc_up0 as [?|[?|?]]; auto; discriminate.
        -- intros X. destruct (lc_rem0 X) as [?|[?|?]]; auto; discriminate.
        -- rewrite <- lc_got0. unfold held. eps. rewrite Pl. change (slice_bytes (set_proc s true) p) with (slice_bytes s p). rewrite B1, Pr. rewrite app_nil_r. reflexivity.
        -- congruence.
        -- intros X. apply in_or_app; auto.
        -- apply no_close; [auto|cbn; intuition discriminate].
      * eapply wake_frame; eauto; discriminate.
    + injection H as <- <- <-. eapply quiet_simple; eauto; try discriminate; try (repeat split; reflexivity). repeat constructor. sil.
Qed.

Lemma quiet_tx_ready C est s rest t inp s' pushed ev (w w' : Prop) owed : exec C s (ICall LowerTxReady) inp = Ok (s', pushed, ev) -> local est s (ICall LowerTxReady :: rest) t -> wake w owed s (ICall LowerTxReady :: rest) -> (w' -> w) ->
  (ep_up s = true -> ep_open s = true) -> quiet est s rest t s' pushed ev w' owed.
Proof.
  intros H HL HW Hw Huo. pose proof (stack_fine _ _ _ _ (lc_stack _ _ _ _ HL)) as HF. cbn [exec enter] in H. change (ep_open (set_busy s false)) with (ep_open s) in H. destruct (ep_open s) eqn:Ho.
  - injection H as <- <- <-.
    set (b := ep_transmitting (set_busy s false) && is_empty (ep_remainder (set_busy s false))). set (p := IPreTxReady :: (if b then [IUpTxReady] else []) ++ [ITryRead; ICheckTransmit]).
    assert (HFp : Forall (fine est) p) by (unfold p; destruct b; cbn [app]; repeat constructor).
    assert (HI : In ITryRead p /\ In ICheckTransmit p) by (unfold p; destruct b; cbn; auto 6). destruct HI as [HI1 HI2].
    match goal with |- quiet _ _ _ _ _ ?q _ _ _ => change q with p end. assert (HN : forall r, no_process (p ++ r)) by (intros r; exact I). clearbody p.
    unfold quiet. split; [|split; [reflexivity|split; [reflexivity|split; [apply HN|auto]]]]. constructor; try reflexivity; [| |core].
    + destruct HL. rewrite app_nil_r. constructor; eps; auto.
      * left. apply Forall_app. auto.
      * destruct est; [|auto]. destruct lc_up0 as [?|[?|?]]; auto; try discriminate. right. apply in_or_app. auto.
      * intros X. right. apply in_or_app. auto.
      * intros X. destruct (lc_down0 X). auto.
    + apply wake_now; [|eps; congruence]. intros _. right; right; left. apply in_or_app. auto.
  - injection H as <- <- <-. unfold quiet. split; [|split; [reflexivity|split; [reflexivity|split; [apply (fine_no_process est); exact HF|auto]]]]. constructor; try reflexivity; [| |core].
    + destruct HL. rewrite app_nil_r. assert (Hd : ep_up s = false) by (destruct (ep_up s); auto; discriminate (Huo eq_refl)). destruct (lc_down0 Hd) as [R1 R2].
      constructor; eps; rewrite ?R1 in *; auto; try congruence.
      * fines.
      * destruct est; [|auto]. destruct lc_up0 as [?|[?|?]]; auto; discriminate.
    + apply wake_now; eps; [congruence|]. intros _ W. specialize (HW (Hw W)). rewrite Ho in HW. exact HW.
Qed.

Lemma quiet_rx_ready C est s rest t inp s' pushed ev (w w' : Prop) owed : exec C s (ICall LowerRxReady) inp = Ok (s', pushed, ev) -> local est s (ICall LowerRxReady :: rest) t -> wake w owed s (ICall LowerRxReady :: rest) -> (w' -> w) ->
  ep_open s = true -> quiet est s rest t s' pushed ev w' owed.
Proof.
  intros H HL HW Hw Ho. cbn [exec enter] in H. rewrite Ho in H. injection H as <- <- <-.
  eapply quiet_simple; eauto; try discriminate; try (repeat split; reflexivity). cbn; auto. repeat constructor. sil.
Qed.

Lemma quiet_up_ready C est s i rest t inp s' pushed ev (w w' : Prop) owed : exec C s i inp = Ok (s', pushed, ev) -> i = IUpTxReady \/ i = IUpRxReady -> local est s (i :: rest) t -> wake w owed s (i :: rest) -> (w' -> w) ->
  forallb app_call (in_calls inp) = true -> Forall call_typed (in_calls inp) -> quiet est s rest t s' pushed ev w' owed.
Proof.
  intros H Hi HL HW Hw H1 H2. pose proof (app_fine est _ H1 H2) as HF. destruct Hi as [-> | ->]; cbn [exec] in H; destruct (ep_up s); unfold notify in H; injection H as <- <- <-.
  all: eapply quiet_simple; eauto; try discriminate; try (repeat split; reflexivity); sil.
Qed.

Lemma quiet_up_open C est s rest t inp s' pushed ev (w w' : Prop) owed : exec C s IUpOpen inp = Ok (s', pushed, ev) -> local est s (IUpOpen :: rest) t -> wake w owed s (IUpOpen :: rest) -> (w' -> w) ->
  forallb app_call (in_calls inp) = true -> Forall call_typed (in_calls inp) -> quiet est s rest t s' pushed ev w' owed.
Proof.
  intros H HL HW Hw H1 H2. pose proof (stack_fine _ _ _ _ (lc_stack _ _ _ _ HL)) as HF0. pose proof (app_fine est _ H1 H2) as HF. cbn [exec] in H. destruct (ep_up s) eqn:Up; unfold notify in H; injection H as <- <- <-.
  - eapply quiet_simple; eauto; try discriminate; try (repeat split; reflexivity). sil.
  - assert (HFa : Forall (fine est) (map ICall (in_calls inp) ++ rest)) by (apply Forall_app; auto).
    unfold quiet. split; [|split; [reflexivity|split; [reflexivity|split; [apply (fine_no_process est); exact HFa|auto]]]]. constructor; try reflexivity; [| |core].
    + assert (Est : est = true). { destruct HL as [S _ _ _ _ _ _ _ _ _ _ _ _]. destruct S as [S|[(m & r & S & _)|[[S _]|[[S _]|[[S _]|[S _]]]]]]; try discriminate. inversion S; auto. }
      destruct HL. subst est. destruct (lc_down0 Up) as [R1 R2]. destruct (traces_app t [EvUpOpen]) as (T1 & T2 & T3 & T4). constructor; rewrite ?T1, ?T2, ?T3, ?T4; cbn [chunks offered read_data accepted flat_map]; rewrite ?app_nil_r; eps; rewrite ?R1 in *; auto; try congruence.
      * left. exact HFa.
      * intros _. apply in_or_app. cbn; auto.
      * apply no_close; [auto|cbn; intuition discriminate].
    + eapply wake_frame; eauto; discriminate.
Qed.

Lemma quiet_misc C est s i rest t inp s' pushed ev (w w' : Prop) owed : exec C s i inp = Ok (s', pushed, ev) -> i = INonceChange \/ i = IPreTxReady \/ i = IAuthPayload None \/ (i = ISetState Idle /\ est = true) ->
  (forall c, c_role C = Initiator c -> i = INonceChange -> (N.max (s_tx_nonce (ep_active s)) (s_rx_nonce (ep_active s)) < ic_nonce_trigger c)%N) ->
  local est s (i :: rest) t -> wake w owed s (i :: rest) -> (w' -> w) -> quiet est s rest t s' pushed ev w' owed.
Proof.
  intros H Hi Hn HL HW Hw. pose proof (lc_req _ _ _ _ HL) as Hq. destruct Hi as [-> |[-> |[-> |[-> He]]]]; cbn [exec] in H.
  - unfold on_nonce_change in H. destruct (c_role C) as [c|h].
    + specialize (Hn c eq_refl eq_refl). destruct (N.leb_spec (ic_nonce_trigger c) (N.max (s_tx_nonce (ep_active s)) (s_rx_nonce (ep_active s)))); [lia|]. injection H as <- <- <-.
      eapply quiet_simple; eauto; try discriminate; try (repeat split; reflexivity); sil.
    + injection H as <- <- <-. eapply quiet_simple; eauto; try discriminate; try (repeat split; reflexivity); sil.
  - rewrite Hq in H. destruct (c_role C); injection H as <- <- <-; eapply quiet_simple; eauto; try discriminate; try (repeat split; reflexivity); sil.
  - injection H as <- <- <-. eapply quiet_simple; eauto; try discriminate; try (repeat split; reflexivity); sil.
  - injection H as <- <- <-. eapply quiet_simple; eauto; try discriminate; try (repeat split; reflexivity).
    + subst est. repeat split; try reflexivity. discriminate.
    + sil.
Qed.

(** Nothing is sent *)
Lemma quiet_check C est s rest t inp s' pushed ev (w w' : Prop) owed : exec C s ICheckTransmit inp = Ok (s', pushed, ev) -> local est s (ICheckTransmit :: rest) t -> wake w owed s (ICheckTransmit :: rest) -> (w' -> w) ->
  in_ready inp = negb (ep_busy s) -> (est = false -> s_valid (ep_active s) = false) -> (ep_busy s = true \/ ep_transmitting s = true \/ ep_remainder s = [] \/ est = false) -> quiet est s rest t s' pushed ev w' owed.
Proof.
  intros H HL HW Hw Hr Hv Hn. pose proof (stack_fine _ _ _ _ (lc_stack _ _ _ _ HL)) as HF. cbn [exec] in H. unfold check_transmit in H.
  assert (Ea : asked s inp = s) by (unfold asked; rewrite Hr, negb_involutive; destruct s; reflexivity). rewrite Ea in H.
  destruct (s_valid (ep_active s)) eqn:V; cbn [negb] in H.
  - assert (G : in_ready inp && tx_ready s = false).
    { rewrite Hr. unfold tx_ready. destruct Hn as [X|[X|[X|X]]]; [rewrite X; reflexivity|rewrite X; apply andb_false_r|rewrite X; cbn; rewrite !andb_false_r; reflexivity|specialize (Hv X); congruence]. }
    rewrite G in H. cbn [negb] in H. injection H as <- <- <-. eapply quiet_simple; eauto; try discriminate; try (repeat split; reflexivity); [|sil].
    intros _ X. destruct HL. destruct Hn as [Y|[Y|[Y|Y]]]; auto; try congruence. subst est. destruct (lc_down0 lc_up0). congruence.
  - injection H as <- <- <-. eapply quiet_simple; eauto; try discriminate; try (repeat split; reflexivity); [|sil].
    intros _ X. destruct HL. destruct Hn as [Y|[Y|[Y|Y]]]; auto; try congruence. subst est. destruct (lc_down0 lc_up0). congruence.
Qed.

(** ** The steps that send or accept a message *)
Lemma fine_mono i : fine false i -> fine true i.
Proof. destruct i as [c0| | | | | | | | | | |p|h0|]; try destruct c0; try destruct p; try destruct h0; cbn; intuition. Qed.

(** A step of the handshake *)
Lemma local_handshake est est' s i rest t s' pushed ev : local est s (i :: rest) t ->
  ep_up s' = ep_up s -> ep_required s' = false -> ep_transmitting s' = ep_transmitting s -> ep_remainder s' = ep_remainder s -> (ep_busy s = true -> ep_busy s' = true) ->
  ep_payload s' = ep_payload s -> (ep_payload s <> None -> ep_buffer s' = ep_buffer s /\ ep_generation s' = ep_generation s) -> ep_proc s' = ep_proc s -> i <> ICheckTransmit -> ep_up s = false -> est = false ->
  Forall (fine est') pushed -> (est' = true -> In IUpOpen pushed) -> offered ev = [] -> read_data ev = [] -> concat (chunks ev) = [] -> filter nonempty (accepted ev) = [] -> ~ In EvUpClose ev ->
  local est' s' (pushed ++ rest) (t ++ ev).
Proof.
  intros HL E1 E2 E3 E4 E5 E6 E8 E7 HI Hup He HF HO V1 V2 V3 V4 V5. pose proof (stack_fine _ _ _ _ (lc_stack _ _ _ _ HL)) as HF'. destruct HL. destruct (lc_down0 Hup) as [R1 R2].
  destruct (traces_app t ev) as (T1 & T2 & T3 & T4). rewrite V1, app_nil_r in T1. rewrite V2, app_nil_r in T3. subst est.
  assert (Sl : forall p, ep_payload s = Some p -> slice_bytes s' p = slice_bytes s p).
  { intros p Hp. destruct (E8 ltac:(congruence)) as [X1 X2]. unfold slice_bytes. rewrite X1, X2. reflexivity. }
  assert (Hh : held s' = held s).
  { unfold held. rewrite E6, E7. destruct (ep_payload s) eqn:Ep; [|reflexivity]. rewrite Sl by reflexivity. reflexivity. }
  constructor; rewrite ?E1, ?E3, ?E4, ?E6, ?E7, ?T1, ?T2, ?T3, ?T4, ?R1, ?Hh; auto; try congruence.
  - left. apply Forall_app. split; [exact HF|]. destruct est'; [|exact HF']. eapply Forall_impl; [|exact HF']. exact fine_mono.
  - destruct est'; auto. right. apply in_or_app. auto.
  - rewrite concat_app, V3, app_nil_r, lc_given0, R1. reflexivity.
  - rewrite filter_app, V4, app_nil_r. exact lc_got0.
  - intros p Hp. rewrite Sl by exact Hp. auto.
  - apply no_close; auto.
Qed.

Lemma filter_one c : c <> [] -> filter nonempty [c] = [c].
Proof. destruct c; [congruence|reflexivity]. Qed.

(** A message with data is accepted *)
Lemma local_data s m0 rest t s' ev sess m chunk mode inp (w' : Prop) owed a : local true s (IProcess m0 :: rest) t -> ep_payload s = None -> ep_open s = true -> chunk <> [] ->
  ev = [EvDataOk sess m chunk] -> s_crypto_mode (ep_active s) = mode ->
  s' = set_payload (read_data_into s a chunk inp) (payload_slice mode (ep_generation s) chunk) ->
  local true s' ([INonceChange; IUpRxReady] ++ rest) (t ++ ev) /\ wake w' owed s' ([INonceChange; IUpRxReady] ++ rest).
Proof.
  intros HL HP HOp Hc -> Hm ->. pose proof (stack_fine _ _ _ _ (lc_stack _ _ _ _ HL)) as HF. destruct HL.
  assert (Hpr : ep_proc s = false) by (destruct (ep_proc s); auto; destruct (lc_proc0 eq_refl HP)).
  unfold read_data_into. rewrite Hm. assert (Hs : exists p, payload_slice mode (ep_generation s) chunk = Some p /\ slice_bytes (set_payload (set_buffer (set_active s a) (buffer_after mode (inl chunk) (ep_buffer s) (in_scratch inp))) (Some p)) p = Ok chunk).
  { destruct chunk as [|b chunk]; [congruence|]. unfold payload_slice. destruct mode; eexists; (split; [reflexivity|]); unfold slice_bytes; eps.
    - rewrite Nat.eqb_refl. reflexivity.
    - cbn [buffer_after]. rewrite firstn_app, firstn_all, Nat.sub_diag. cbn [firstn]. rewrite app_nil_r. reflexivity. }
  destruct Hs as (p & P1 & P2). rewrite P1. destruct (traces_app t [EvDataOk sess m chunk]) as (T1 & T2 & T3 & T4). split.
  - constructor; rewrite ?T1, ?T2, ?T3, ?T4; cbn [chunks offered read_data accepted flat_map]; rewrite ?app_nil_r; eps; auto.
    + fines.
    + destruct lc_up0 as [?|[?|?]]; auto; try discriminate. right. apply in_cons, in_cons. auto.
    + intros X. destruct (lc_rem0 X) as [?|[?|?]]; auto; try discriminate. right. apply in_cons, in_cons. auto.
    + rewrite filter_app, filter_one by exact Hc. rewrite <- lc_got0. unfold held. rewrite HP. eps. rewrite P2, Hpr, app_nil_r. reflexivity.
    + congruence.
    + intros p0 Hp. injection Hp as <-. exists chunk. auto.
    + intros X. apply in_or_app; auto.
    + apply no_close; [auto|cbn; intuition discriminate].
  - apply wake_now; eps; [|congruence]. intros _. right; left. discriminate.
Qed.

(** Data is sent *)
Lemma local_send s rest t s' ev inp a rest' chunk f (w w' : Prop) owed : local true s (ICheckTransmit :: rest) t -> wake w owed s (ICheckTransmit :: rest) -> (w' -> w) ->
  in_ready inp = true -> in_started inp = true -> ep_busy s = false ->
  ev = [EvQuery true; EvTx (TxData chunk) f] -> ep_remainder s = chunk ++ rest' -> ep_remainder s <> [] -> bytes_ok rest' ->
  s' = started (begin_transmit (set_active (asked s inp) a) rest') inp ->
  local true s' ([INonceChange] ++ rest) (t ++ ev) /\ wake w' owed s' ([INonceChange] ++ rest) /\ ep_active s' = a /\ ep_open s' = ep_open s.
Proof.
  intros HL HW Hw Hr Hs Hb -> Er Hne HB ->. pose proof (stack_fine _ _ _ _ (lc_stack _ _ _ _ HL)) as HF. destruct HL.
  assert (Hup : ep_up s = true) by (destruct (ep_up s) eqn:U; auto; destruct (lc_down0 eq_refl); congruence).
  destruct (traces_app t [EvQuery true; EvTx (TxData chunk) f]) as (T1 & T2 & T3 & T4).
  unfold begin_transmit. change (ep_remainder (set_active (asked s inp) a)) with (ep_remainder s). destruct (is_empty (ep_remainder s)) eqn:Em; [destruct (ep_remainder s); [congruence|discriminate]|].
  split; [|split; [|split; reflexivity]].
  - constructor; rewrite ?T1, ?T2, ?T3, ?T4; cbn [chunks offered read_data accepted flat_map]; rewrite ?app_nil_r; eps; rewrite ?Hs; cbn [orb]; auto; try congruence.
    + fines.
    + rewrite lc_given0, Er, concat_app. cbn [concat]. rewrite app_nil_r, <- app_assoc. reflexivity.
    + intros X. apply in_or_app; auto.
    + apply no_close; [auto|cbn; intuition discriminate].
  - intros W. specialize (HW (Hw W)). eps. rewrite Hs. cbn [orb]. destruct (ep_open s); auto.
Qed.
