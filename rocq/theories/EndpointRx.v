(** * EndpointRx: delivery of received data *)
From Verif Require Import Base BaseFacts Codec CodecSpec CodecFacts Link LinkLayer Primitives Session SessionSpec SessionFacts SessionMain Handshake HandshakeFacts Endpoint EndpointSpec EndpointFacts EndpointMain.

Definition shows (s : endpoint) (p : slice) (bytes : list N) : Prop :=
  match p with
  | InBuffer n => firstn n (ep_buffer s) = bytes
  | InMessage gen b => gen = ep_generation s /\ b = bytes
  end.

(** What can be above the pending payload on the stack *)
Definition above_ok (i : instr) : bool :=
  match i with
  | IUpOpen | ICall (StartTx _) | ICheckTransmit | INonceChange | IHandshakeRequired | IUpClose => true
  | _ => false
  end.
Definition is_payload (i : instr) : bool := match i with IAuthPayload (Some _) => true | _ => false end.
Definition window (stk : list instr) (p : slice) : Prop :=
  exists above below, stk = above ++ IAuthPayload (Some p) :: below /\ forallb above_ok above = true /\ none_of is_payload below.

(** Lower layer events enter from outside only *)
Definition is_lower (i : instr) : bool := match i with ICall (LowerOpen | LowerTxReady | LowerRxReady) => true | _ => false end.
Definition calls_ok (stk : list instr) : Prop := none_of is_lower stk \/ exists c, stk = [ICall c].
Definition is_tail (i : instr) : bool := match i with ICloseTail => true | _ => false end.
Definition is_process (i : instr) : bool := match i with IProcess _ => true | _ => false end.

(** The instruction executed while a payload is pending *)
Lemma window_head i rest p : window (i :: rest) p ->
  (i = IAuthPayload (Some p) /\ none_of is_payload rest) \/
  (above_ok i = true /\ window rest p /\ existsb opening rest = true).
Proof.
  intros (above & below & E & A & B). destruct above as [|a above]; cbn in E; injection E as -> ->; [left; auto|].
  right. cbn in A. apply Bool.andb_true_iff in A. destruct A as [A1 A2]. repeat split; auto.
  - exists above, below. auto.
  - rewrite existsb_app. cbn. apply Bool.orb_true_r.
Qed.
Lemma window_push a rest p : forallb above_ok a = true -> window rest p -> window (a ++ rest) p.
Proof.
  intros Ha (above & below & -> & A & B). exists (a ++ above), below. rewrite <- app_assoc, forallb_app, Ha. auto.
Qed.
Lemma above_calls cs : forallb is_start_tx cs = true -> forallb above_ok (map ICall cs) = true.
Proof. induction cs as [|c cs IH]; cbn; auto. intros H. apply Bool.andb_true_iff in H. destruct H as [H1 H2]. rewrite IH; auto. destruct c; auto; discriminate. Qed.

(** Steps inside the opening notification touch nothing of the receive side *)
Lemma window_exec C s i inp s' pushed e : exec C s i inp = Ok (s', pushed, e) -> above_ok i = true ->
  forallb is_start_tx (in_calls inp) = true ->
  ep_payload s' = ep_payload s /\ ep_buffer s' = ep_buffer s /\ ep_generation s' = ep_generation s /\ ep_proc s' = ep_proc s /\
  ep_open s' = ep_open s /\ forallb above_ok pushed = true /\ (forall held, play delivery held e = Some held) /\ (forall last, play contents last e = Some last).
Proof.
  intros H Hi Hc. destruct i as [[]| | | | | | | | | | | | |]; try discriminate Hi; exec_cases H; splits; repeat split; auto;
    try (apply above_calls; exact Hc).
Qed.

(** Contents: no assumption on the lower layer *)
Definition shows_last (s : endpoint) (p : slice) (last : option (list N)) : Prop := exists bytes, last = Some bytes /\ shows s p bytes.
Record cinv (last : option (list N)) (k : config) : Prop := {
  c_process : none_of is_process (tl (snd k));
  c_head : forall m rest, snd k = IProcess m :: rest -> ep_payload (fst k) = None;
  c_held : (exists p, window (snd k) p /\ shows_last (fst k) p last) \/
           (none_of is_payload (snd k) /\ forall p, ep_payload (fst k) = Some p -> shows_last (fst k) p last) }.

Lemma process_pushed C s i inp s' pushed e : exec C s i inp = Ok (s', pushed, e) ->
  none_of is_process (tl pushed) /\
  (match hd_error pushed with Some h => is_process h = false | None => True end \/
   (exists m, pushed = [IProcess m; ITryRead] /\ e = [EvQuery true; EvRecv m] /\ m <> [] /\ m = in_message inp /\ i = ITryRead /\ ep_payload s = None /\ s' = set_generation (asked s inp) (S (ep_generation s)))).
Proof.
  intros H. destruct i; exec_cases H; splits;
    try (split; [reflexivity|left; exact I]); try (split; [reflexivity|left; reflexivity]);
    try (split; [|left]; [destruct (in_calls inp); [reflexivity|apply (none_calls is_process); reflexivity]|destruct (in_calls inp); reflexivity]; fail).
  split; [reflexivity|]. right. eexists. apply Bool.negb_false_iff in Heqb. rewrite Heqb. repeat split; auto. discriminate.
Qed.
Lemma rx_untouched C s i inp s' pushed e : exec C s i inp = Ok (s', pushed, e) ->
  match i with ICall StartRx | ICall LowerClose | IProcess _ | ITryRead | IAuthPayload _ | ICloseTail => False | _ => True end ->
  ep_payload s' = ep_payload s /\ ep_buffer s' = ep_buffer s /\ ep_generation s' = ep_generation s /\ ep_proc s' = ep_proc s /\
  none_of is_payload pushed /\ (forall held, play delivery held e = Some held) /\ (forall last, play contents last e = Some last).
Proof.
  intros H Hi. destruct i as [[]| | | | | | | | | | | | |]; try destruct Hi; exec_cases H; splits; repeat split; auto;
    try (apply none_calls; reflexivity).
Qed.

Lemma firstn_exact {A} (a b : list A) : firstn (length a) (a ++ b) = a.
Proof. rewrite firstn_app, Nat.sub_diag, firstn_O, app_nil_r. apply firstn_all. Qed.

Definition slice_of (mode : SessionCryptoMode) (gen : nat) (payload : list N) : slice :=
  match mode with hmac_sha256_16 => InMessage gen payload | aes_256_gcm => InBuffer (length payload) end.
Lemma shows_slice s mode b p buffer scratch : 
  ep_buffer s = buffer_after mode (inl (b :: p)) buffer scratch ->
  shows s (slice_of mode (ep_generation s) (b :: p)) (b :: p).
Proof.
  intros H. unfold shows, slice_of. destruct mode; [auto|]. rewrite H. unfold buffer_after. apply firstn_exact.
Qed.

Inductive rx_effect (s s' : endpoint) (pushed : list instr) (e : list event) : Prop :=
| rx_none : ep_payload s' = ep_payload s -> none_of is_payload pushed -> play delivery None e = Some None ->
    (forall last, exists last', play contents last e = Some last') -> rx_effect s s' pushed e
| rx_data p bytes : ep_payload s' = Some p -> shows s' p bytes -> none_of is_payload pushed ->
    play delivery None e = Some (Some (bytes, false)) -> (forall last, play contents last e = Some (Some bytes)) -> rx_effect s s' pushed e
| rx_auth p bytes below : ep_payload s' = ep_payload s -> shows s' p bytes -> pushed = IUpOpen :: IAuthPayload (Some p) :: below ->
    none_of is_payload below -> play delivery None e = Some (Some (bytes, false)) -> (forall last, play contents last e = Some (Some bytes)) ->
    rx_effect s s' pushed e.

Lemma process_rx C s m inp s' pushed e : exec C s (IProcess m) inp = Ok (s', pushed, e) ->
  rx_effect s s' pushed e /\ ep_open s' = ep_open s /\ ep_proc s' = ep_proc s.
Proof.
  intros H. exec_cases H; splits; (split; [|auto]).
  all: try (apply rx_none; auto; solve [reflexivity|eexists; reflexivity]).
  all: sessions; try (apply rx_none; auto; solve [reflexivity|eexists; reflexivity]).
  all: try match goal with |- context [payload_slice _ _ ?x] => is_var x; destruct x; [apply rx_none; auto; solve [reflexivity|eexists; reflexivity]|] end.
  all: try (match goal with |- rx_effect _ _ (_ :: IAuthPayload (payload_slice ?m ?g ?x) :: ?b) _ =>
            apply (rx_auth _ _ _ _ (slice_of m g x) x b); [reflexivity| |reflexivity|reflexivity|reflexivity|reflexivity];
            match goal with |- shows ?s' _ _ => apply (shows_slice s' m _ _ (ep_buffer s) (in_scratch inp)); reflexivity end end).
  all: try (match goal with |- rx_effect _ (set_payload _ (payload_slice ?m ?g ?x)) _ _ =>
            apply (rx_data _ _ _ _ (slice_of m g x) x); [reflexivity| |reflexivity|reflexivity|reflexivity];
            match goal with |- shows ?s' _ _ => apply (shows_slice s' m _ _ (ep_buffer s) (in_scratch inp)); reflexivity end end).
  all: apply rx_none; auto; try reflexivity; intros last; try (eexists; reflexivity); match goal with |- context [EvAuthOk _ _ ?x] => destruct x; eexists; reflexivity end.
Qed.

Lemma none_cons f i l : none_of f (i :: l) <-> f i = false /\ none_of f l.
Proof. unfold none_of. cbn. rewrite Bool.andb_true_iff, Bool.negb_true_iff. tauto. Qed.
Lemma bytes_eqb_same l : bytes_eqb l l = true.
Proof. apply bytes_eqb_spec. reflexivity. Qed.
Lemma slice_shows s p bytes last : shows s p last -> slice_bytes s p = Ok bytes -> bytes = last.
Proof.
  destruct p as [n|g b]; cbn.
  - intros H E. injection E as <-. exact H.
  - intros [-> ->]. rewrite Nat.eqb_refl. intros E. injection E as <-. reflexivity.
Qed.
Lemma shows_ext s s' p bytes : ep_buffer s' = ep_buffer s -> ep_generation s' = ep_generation s -> shows s p bytes -> shows s' p bytes.
Proof. intros H1 H2. destruct p; cbn; rewrite ?H1, ?H2; auto. Qed.
Lemma shows_last_ext s s' p last : ep_buffer s' = ep_buffer s -> ep_generation s' = ep_generation s -> shows_last s p last -> shows_last s' p last.
Proof. intros H1 H2 (b & -> & H). exists b. split; auto. eapply shows_ext; eauto. Qed.
Lemma window_none stk p : window stk p -> ~ none_of is_payload stk.
Proof. intros (a & b & -> & _ & _) H. apply none_app in H. destruct H as [_ H]. apply none_cons in H. destruct H; discriminate. Qed.

Lemma process_next C s i inp s' pushed e rest : exec C s i inp = Ok (s', pushed, e) ->
  none_of is_process rest -> none_of is_process (tl (pushed ++ rest)) /\
  (forall m r, pushed ++ rest = IProcess m :: r -> r = ITryRead :: rest /\ e = [EvQuery true; EvRecv m] /\ m <> [] /\ m = in_message inp /\ i = ITryRead /\
     ep_payload s = None /\ s' = set_generation (asked s inp) (S (ep_generation s))).
Proof.
  intros H Hr. destruct (process_pushed _ _ _ _ _ _ _ H) as [P1 P2]. split.
  - destruct pushed; cbn [app tl] in *; [apply none_tl; exact Hr|apply none_app; auto].
  - intros m r E. destruct P2 as [P2|(m' & -> & -> & P3 & P4 & P5 & P6 & P7)].
    + destruct pushed as [|h pushed]; cbn [app] in E.
      * subst rest. apply none_cons in Hr. destruct Hr; discriminate.
      * injection E as -> _. discriminate.
    + injection E as <- <-. auto 10.
Qed.

Lemma cinv_exec C last s i inp rest s' pushed e :
  cinv last (s, i :: rest) -> (existsb opening (i :: rest) = true -> forallb is_start_tx (in_calls inp) = true) ->
  exec C s i inp = Ok (s', pushed, e) -> exists last', play contents last e = Some last' /\ cinv last' (s', pushed ++ rest).
Proof.
  intros [I1 I2 I3] HQ H. cbn [fst snd tl] in *.
  destruct (process_next _ _ _ _ _ _ _ _ H I1) as [N1 N2].
  assert (N3 : forall m r, pushed ++ rest = IProcess m :: r -> ep_payload s' = None).
  { intros m r E. destruct (N2 m r E) as (_ & _ & _ & _ & _ & X & ->). exact X. }
  destruct I3 as [(p & W & Sh)|[NP Sh]].
  - destruct (window_head _ _ _ W) as [[-> Hn]|(Ha & Hw & Ho)].
    + cbn in H. injection H as <- <- <-. exists last. split; [reflexivity|]. constructor; auto.
      right. split; [apply none_app; split; [reflexivity|exact Hn]|]. cbn. intros q E. injection E as <-. exact Sh.
    + assert (Hc : forallb is_start_tx (in_calls inp) = true) by (apply HQ; cbn [existsb]; rewrite Ho; apply Bool.orb_true_r).
      destruct (window_exec _ _ _ _ _ _ _ H Ha Hc) as (E1 & E2 & E3 & E4 & E5 & E6 & E7 & E8).
      exists last. split; [apply E8|]. constructor; auto. left. exists p. split; [apply window_push; auto|].
      eapply shows_last_ext; eauto.
  - apply none_cons in NP. destruct NP as [NPi NPr]. cbn [fst snd] in *.
    destruct i as [c| |m| | | | | | | | |q| |].
    9: { destruct (rx_untouched _ _ _ _ _ _ _ H Logic.I) as (E1 & E2 & E3 & E4 & E5 & E6 & E7). exists last. split; [apply E7|]. constructor; auto.
      right. split; [apply none_app; auto|]. cbn [fst]. rewrite E1. intros p Ep. eapply shows_last_ext; eauto. }
    1: destruct c.
    all: try (destruct (rx_untouched _ _ _ _ _ _ _ H Logic.I) as (E1 & E2 & E3 & E4 & E5 & E6 & E7); exists last; split; [apply E7|]; constructor; auto;
      right; split; [apply none_app; auto|]; cbn [fst]; rewrite E1; intros p Ep; eapply shows_last_ext; eauto; fail).
    + cbn in H. unfold start_rx in H. destruct (ep_proc s) eqn:Ep; cbn [ep_payload set_proc set_payload] in H.
      * injection H as <- <- <-. exists last. split; [reflexivity|]. constructor; auto. right. split; [apply none_app; split; auto; reflexivity|]. cbn. discriminate.
      * destruct (ep_payload s) as [p|] eqn:Eq.
        -- destruct (slice_bytes s p) as [bytes| |] eqn:Es; cbn [obind] in H; try discriminate. injection H as <- <- <-.
           destruct (Sh p eq_refl) as (bs & -> & Sh'). pose proof (slice_shows _ _ _ _ Sh' Es) as ->. exists (Some bs). split; [cbn; rewrite bytes_eqb_same; reflexivity|].
           constructor; auto. right. split; [exact NPr|]. cbn. rewrite Eq. intros q E. injection E as <-. exists bs. auto.
        -- injection H as <- <- <-. exists last. split; [reflexivity|]. constructor; auto. right. split; [apply none_app; split; auto; reflexivity|]. rewrite <- Eq in Sh. exact Sh.
    + cbn in H. destruct (ep_open s); injection H as <- <- <-; exists last; (split; [reflexivity|]); constructor; auto; right; (split; [apply none_app; split; auto; reflexivity|]); cbn; first [discriminate|exact Sh].
    + exec_cases H; exists last; (split; [reflexivity|]); constructor; auto; right; (split; [cbn [snd]; rewrite ?none_cons; auto|]); eps; auto; intros p Ep; congruence.
    + pose proof (I2 m rest eq_refl) as Hp. destruct (process_rx _ _ _ _ _ _ _ H) as [[]  _].
      * destruct (H3 last) as (last' & L). exists last'. split; [exact L|]. constructor; auto. right. split; [apply none_app; auto|]. cbn. rewrite H0, Hp. discriminate.
      * exists (Some bytes). split; [apply H4|]. constructor; auto. right. split; [apply none_app; auto|]. cbn. rewrite H0. intros q E. injection E as <-. exists bytes. auto.
      * subst pushed. exists (Some bytes). split; [apply H5|]. constructor; auto. left. exists p. split; [|exists bytes; auto].
        exists [IUpOpen], (below ++ rest). repeat split; auto. apply none_app; auto.
    + destruct q; [discriminate|]. cbn in H. injection H as <- <- <-. exists last. split; [reflexivity|]. constructor; auto.
    + cbn in H. injection H as <- <- <-. exists last. split; [reflexivity|]. constructor; auto.
Qed.

Lemma contents_run C ls k t : along opens_quietly C (new_endpoint C, []) ls -> run C (new_endpoint C, []) ls = Ok (k, t) ->
  exists last, play contents None t = Some last.
Proof.
  intros HQ H. destruct (simulate contents cinv opens_quietly C) with (ls := ls) (a := @None (list N)) (k := (new_endpoint C, @nil instr)) (k' := k) (t := t) as (a' & P & _); eauto.
  - intros last k1 l k2 e HI Hq Hs. destruct (step_inv _ _ _ _ _ Hs) as [[-> ->]|[(x & s1 & -> & -> & -> & ->)|(inp & s1 & i & rest & s2 & pushed & -> & -> & He & ->)]].
    + exists last. auto.
    + exists last. split; [reflexivity|]. destruct HI as [I1 I2 I3]. cbn [fst snd] in *.
      assert (E : ep_payload (fst (inject s1 x)) = ep_payload s1 /\ ep_buffer (fst (inject s1 x)) = ep_buffer s1 /\ ep_generation (fst (inject s1 x)) = ep_generation s1).
      { destruct x; cbn; auto.
        - destruct (ep_timer s1) as [[|]|]; cbn; unfold on_response_timeout, on_retry_timeout; cbn; destruct (ep_state s1); auto.
        - destruct (nth_error (ep_stale s1) n) as [[|]|]; cbn; unfold on_response_timeout, on_retry_timeout; cbn; destruct (ep_state s1); auto.
        - destruct (ep_session_timer s1); auto.
        - destruct (ep_session_stale s1); auto. }
      destruct E as (E1 & E2 & E3). destruct I3 as [(p & W & _)|[NP Sh]]; [destruct W as ([] & ? & W & _); discriminate|].
      destruct (inject_stack s1 x) as [X|[X|[c X]]]; constructor; rewrite ?X; try reflexivity; try discriminate;
        right; (split; [reflexivity|]); rewrite E1; intros p Ep; eapply shows_last_ext; eauto.
    + eapply cinv_exec; eauto.
  - constructor; try reflexivity; try discriminate. right. split; [reflexivity|discriminate].
Qed.

(** Delivery *)
Record rinv (held : option (list N * bool)) (k : config) : Prop := {
  r_calls : calls_ok (snd k);
  r_closed : existsb is_tail (snd k) = true -> ep_open (fst k) = false /\ ep_payload (fst k) = None;
  r_proc : ep_payload (fst k) = None -> ep_proc (fst k) = true -> existsb is_tail (snd k) = true;
  r_process : none_of is_process (tl (snd k));
  r_head : forall m rest, snd k = IProcess m :: rest -> held = None /\ ep_payload (fst k) = None /\ ep_open (fst k) = true;
  r_held : (exists p bytes, window (snd k) p /\ held = Some (bytes, false) /\ shows (fst k) p bytes /\ ep_payload (fst k) = None /\
              ep_proc (fst k) = false /\ ep_open (fst k) = true) \/
           (none_of is_payload (snd k) /\
            match ep_payload (fst k) with
            | None => match held with None => True | Some (_, read) => read = true end
            | Some p => exists bytes, held = Some (bytes, ep_proc (fst k)) /\ shows (fst k) p bytes
            end) }.


Lemma calls_pushed C s i inp s' pushed e rest : exec C s i inp = Ok (s', pushed, e) -> forallb app_or_close (in_calls inp) = true ->
  calls_ok (i :: rest) -> calls_ok (pushed ++ rest).
Proof.
  intros H Hc Hr. left.
  assert (N1 : none_of is_lower rest). { destruct Hr as [Hr|[c Hr]]; [apply none_cons in Hr; tauto|]. injection Hr as _ ->. reflexivity. }
  assert (N2 : none_of is_lower pushed); [|apply none_app; auto].
  assert (N3 : none_of is_lower (map ICall (in_calls inp))).
  { revert Hc. induction (in_calls inp) as [|c cs IH]; cbn; [reflexivity|]. rewrite Bool.andb_true_iff. intros [Hc1 Hc2].
    apply none_cons. split; auto. destruct c; auto; discriminate. }
  destruct i; exec_cases H; splits; auto; reflexivity.
Qed.
Lemma tail_pushed C s i inp s' pushed e : exec C s i inp = Ok (s', pushed, e) ->
  (existsb is_tail pushed = false) \/ (i = ICall LowerClose /\ ep_open s' = false /\ ep_payload s' = None).
Proof.
  intros H. assert (X : existsb is_tail (map ICall (in_calls inp)) = false) by (induction (in_calls inp); auto).
  destruct i; exec_cases H; splits; auto; right; auto.
Qed.

Lemma open_exec C s i inp s' pushed e : exec C s i inp = Ok (s', pushed, e) ->
  ep_open s' = ep_open s \/ i = ICall LowerOpen \/ i = ICall LowerClose.
Proof. intros H. destruct i as [[]| | | | | | | | | | | | |]; exec_cases H; splits; auto. Qed.

Lemma rinv_exec C held s i inp rest s' pushed e : c_via_stack C = false ->
  rinv held (s, i :: rest) -> calm_open (s, i :: rest) (Run inp) -> quiet_when_closed (s, i :: rest) (Run inp) ->
  exec C s i inp = Ok (s', pushed, e) -> exists held', play delivery held e = Some held' /\ rinv held' (s', pushed ++ rest).
Proof.
  intros Hv [I1 I2 I3 I4 I5 I6] HQ Hquiet H. destruct HQ as [HQ1 HQ2]. cbn [fst snd tl quiet_when_closed] in *.
  destruct (process_next _ _ _ _ _ _ _ _ H I4) as [N1 N2].
  pose proof (calls_pushed _ _ _ _ _ _ _ rest H HQ1 I1) as NC.
  pose proof (open_exec _ _ _ _ _ _ _ H) as NO. pose proof (tail_pushed _ _ _ _ _ _ _ H) as NT.
  (* the conditions on the tail follow from the condition on the payload *)
  assert (Close : (ep_payload s = None -> ep_payload s' = None \/ ep_open s = true) ->
                  existsb is_tail (pushed ++ rest) = true -> ep_open s' = false /\ ep_payload s' = None).
  { intros Hp Ht. rewrite existsb_app in Ht. destruct NT as [NT|NT]; [|tauto]. rewrite NT in Ht. cbn in Ht.
    destruct I2 as [I2a I2b]; [cbn; rewrite Ht; apply Bool.orb_true_r|].
    destruct (Hp I2b) as [Hp'|Hp']; [|congruence]. split; [|exact Hp'].
    destruct NO as [->|[->| ->]]; [exact I2a| |].
    - exfalso. destruct I1 as [I1|[c I1]]; [apply none_cons in I1; destruct I1; discriminate|]. injection I1 as _ ->. discriminate.
    - cbn in H. rewrite I2a in H. injection H as <- _ _. exact I2a. }
  assert (Same : forall held', ep_payload s' = ep_payload s -> ep_buffer s' = ep_buffer s -> ep_generation s' = ep_generation s -> ep_proc s' = ep_proc s ->
             i <> ICloseTail -> (forall m r, pushed ++ rest = IProcess m :: r -> False) ->
             none_of is_payload (pushed ++ rest) -> none_of is_payload (i :: rest) -> held' = held -> rinv held' (s', pushed ++ rest)).
  { intros held' E1 E2 E3 E4 Ei Ep En En0 ->. constructor; cbn [fst snd]; [exact NC| | |exact N1| |].
    - apply Close. rewrite E1. auto.
    - rewrite E1, E4. intros X Y. pose proof (I3 X Y) as Z. rewrite existsb_app. cbn in Z. destruct i; cbn in Z; try (rewrite Z; apply Bool.orb_true_r). congruence.
    - intros m r Hx. destruct (Ep m r Hx).
    - right. split; [exact En|]. destruct I6 as [(p & bytes & W & _)|[_ I6]]; [destruct (window_none _ _ W En0)|].
      rewrite E1, E4. destruct (ep_payload s) as [p|]; [|exact I6]. destruct I6 as (bytes & -> & Sh). exists bytes. split; auto. eapply shows_ext; eauto. }
  destruct I6 as [(p & bytes & W & Hh & Sh & Hp & Hpr & Ho)|[NP I6]].
  - destruct (window_head _ _ _ W) as [[-> Hn]|(Ha & Hw & Hop)].
    + cbn in H. injection H as <- <- <-. exists held. split; [reflexivity|]. subst held. constructor; cbn [fst snd ep_payload ep_proc ep_open set_payload set_proc]; [exact NC|first [apply Close; auto; fail|idtac]| |exact N1| |].
      all: try discriminate.
      right. split; [apply none_cons; auto|]. exists bytes. rewrite Hpr. auto.
    + assert (Hc : forallb is_start_tx (in_calls inp) = true) by (apply HQ2; cbn [existsb]; rewrite Hop; apply Bool.orb_true_r).
      destruct (window_exec _ _ _ _ _ _ _ H Ha Hc) as (E1 & E2 & E3 & E4 & E5 & E6 & E7 & E8).
      exists held. split; [apply E7|]. constructor; cbn [fst snd]; [exact NC| | |exact N1| |].
      * apply Close. rewrite E1. auto.
      * rewrite E4, Hpr. discriminate.
      * intros m r E. destruct (N2 m r E) as (_ & _ & _ & _ & -> & _). discriminate.
      * left. exists p, bytes. rewrite E1, E4, E5. repeat split; auto; [apply window_push; auto|eapply shows_ext; eauto].
  - pose proof NP as NP0. apply none_cons in NP. destruct NP as [NPi NPr]. cbn [fst snd] in *.
    assert (Unt : match i with ICall StartRx | ICall LowerClose | IProcess _ | ITryRead | IAuthPayload _ | ICloseTail => False | _ => True end ->
                  exists held', play delivery held e = Some held' /\ rinv held' (s', pushed ++ rest)).
    { intros Hi. destruct (rx_untouched _ _ _ _ _ _ _ H Hi) as (E1 & E2 & E3 & E4 & E5 & E6 & E7). exists held. split; [apply E6|].
      apply Same; auto; [intros ->; exact Hi| |apply none_app; auto].
      intros m r E. destruct (N2 m r E) as (_ & _ & _ & _ & -> & _). exact Hi. }
    destruct i as [[| | | | |]| |m| | | | | | | | |q| |]; try (apply Unt; exact Logic.I); clear Unt.
    + cbn in H. unfold start_rx in H. destruct (ep_proc s) eqn:Ep; cbn [ep_payload set_proc set_payload] in H.
      * injection H as <- <- <-. exists held. split; [reflexivity|]. constructor; cbn [fst snd ep_payload ep_proc ep_open set_payload set_proc set_open app existsb is_tail]; [exact NC|first [apply Close; auto; fail|auto; fail|idtac]| |exact N1| |]; try discriminate; auto.
        right. split; [apply none_cons; auto|]. destruct (ep_payload s); [|exact I6]. destruct I6 as (b & -> & _). reflexivity.
      * destruct (ep_payload s) as [p|] eqn:Eq.
        -- destruct (slice_bytes s p) as [bytes| |] eqn:Es; cbn [obind] in H; try discriminate. injection H as <- <- <-.
           destruct I6 as (b & -> & Sh). pose proof (slice_shows _ _ _ _ Sh Es) as ->.
           exists (Some (b, true)). split; [cbn; rewrite bytes_eqb_same; reflexivity|].
           constructor; auto; cbn; rewrite ?Eq; try discriminate.
           ++ intros Ht. destruct I2 as [_ X]; [exact Ht|]. discriminate.
           ++ intros m r E. destruct (N2 m r E) as (_ & _ & _ & _ & X & _). discriminate.
           ++ right. split; [exact NPr|]. exists b. auto.
        -- injection H as <- <- <-. exists held. split; [reflexivity|]. apply Same; auto; try discriminate; apply none_cons; auto.
    + cbn in H. destruct (ep_open s) eqn:Eo; injection H as <- <- <-.
      * exists None. split; [reflexivity|]. constructor; cbn [fst snd ep_payload ep_proc ep_open set_payload set_proc set_open app existsb is_tail]; [exact NC|first [apply Close; auto; fail|auto; fail|idtac]| |exact N1| |]; try discriminate; auto.
        all: right; split; [repeat (apply none_cons; split; [reflexivity|]); exact NPr|exact Logic.I].
      * exists held. split; [reflexivity|]. apply Same; auto; try discriminate.
        intros m r E. destruct (N2 m r E) as (_ & _ & _ & _ & X & _). discriminate.
    + cbn in H. unfold try_read_one in H.
      destruct (negb (in_ready inp)).
      { injection H as <- <- <-. exists held. split; [reflexivity|]. apply Same; auto; try discriminate.
        intros m r E. destruct (N2 m r E) as (_ & X & _). discriminate. }
      cbn [ep_payload set_busy asked] in H. unfold asked in H. cbn [ep_payload set_busy] in H. destruct (ep_payload s) as [p|] eqn:Eq.
      { injection H as <- <- <-. exists held. split; [reflexivity|]. apply Same; auto; try discriminate.
        intros m r E. destruct (N2 m r E) as (_ & X & _). discriminate. }
      destruct (in_message inp) as [|b m] eqn:Em; injection H as <- <- <-.
      { exists held. split; [reflexivity|]. constructor; cbn [fst snd ep_payload ep_proc ep_open set_generation set_busy]; [exact NC| | |exact N1| |].
        - intros Ht. rewrite Eq. apply I2. exact Ht.
        - rewrite Eq. exact I3.
        - intros m r E. destruct (N2 m r E) as (_ & X & _). discriminate.
        - right. rewrite Eq. auto. }
      assert (Ho : ep_open s = true). { destruct (ep_open s) eqn:Eo; auto. specialize (Hquiet eq_refl). discriminate. }
      exists None. split; [destruct held as [[? []]|]; [reflexivity|discriminate I6|reflexivity]|].
      constructor; cbn [fst snd ep_payload ep_proc ep_open set_generation set_busy]; [exact NC| | |exact N1| |].
      * intros Ht. destruct I2 as [X _]; [exact Ht|]. congruence.
      * rewrite Eq. exact I3.
      * intros m' r E. cbn. rewrite Eq. auto.
      * right. rewrite Eq. split; [repeat (apply none_cons; split; [reflexivity|]); exact NPr|exact Logic.I].
    + destruct (I5 m rest eq_refl) as (-> & Hp & Ho). destruct (process_rx _ _ _ _ _ _ _ H) as [Hrx [Ho' Hpr']].
      assert (Hpr : ep_proc s = false).
      { destruct (ep_proc s) eqn:Ep; auto. pose proof (I3 Hp eq_refl) as X. apply I2 in X. destruct X. congruence. }
      assert (G2 : existsb is_tail (pushed ++ rest) = true -> ep_open s' = false /\ ep_payload s' = None) by (apply Close; auto).
      assert (G3 : ep_payload s' = None -> ep_proc s' = true -> existsb is_tail (pushed ++ rest) = true) by (rewrite Hpr', Hpr; discriminate).
      assert (G5 : forall h m' r, pushed ++ rest = IProcess m' :: r -> h = @None (list N * bool) /\ ep_payload s' = None /\ ep_open s' = true)
        by (intros h m' r E; destruct (N2 m' r E) as (_ & _ & _ & _ & X & _); discriminate).
      destruct Hrx.
      * exists None. split; [assumption|]. constructor; cbn [fst snd]; [exact NC|exact G2|exact G3|exact N1|apply G5|]. right. split; [apply none_app; auto|]. cbn. rewrite H0, Hp. exact Logic.I.
      * exists (Some (bytes, false)). split; [assumption|]. constructor; cbn [fst snd]; [exact NC|exact G2|exact G3|exact N1|apply G5|]. right. split; [apply none_app; auto|]. cbn. rewrite H0, Hpr', Hpr. exists bytes. auto.
      * subst pushed. exists (Some (bytes, false)). split; [assumption|]. constructor; cbn [fst snd]; [exact NC|exact G2|exact G3|exact N1|apply G5|]. left. exists p, bytes. cbn. rewrite Hpr', Hpr, Ho', Ho, H0, Hp. repeat split; auto.
        exists [IUpOpen], (below ++ rest). repeat split; auto. apply none_app; auto.
    + destruct q; [discriminate|]. cbn in H. injection H as <- <- <-. exists held. split; [reflexivity|]. apply Same; auto; try discriminate.
      intros m r E. destruct (N2 m r E) as (_ & X & _). discriminate.
    + cbn in H. rewrite Hv in H. injection H as <- <- <-. exists held. split; [reflexivity|].
      destruct I2 as [I2a I2b]; [reflexivity|]. constructor; cbn [fst snd ep_payload ep_proc ep_open set_payload set_proc set_open app existsb is_tail]; [exact NC|first [apply Close; auto; fail|auto; fail|idtac]| |exact N1| |]; try discriminate; auto.
      * intros m r E. destruct (N2 m r E) as (_ & X & _). discriminate.
      * right. split; [exact NPr|]. eps. rewrite I2b in *. exact I6.
Qed.

Lemma inject_rx s x : ep_payload (fst (inject s x)) = ep_payload s /\ ep_buffer (fst (inject s x)) = ep_buffer s /\
  ep_generation (fst (inject s x)) = ep_generation s /\ ep_proc (fst (inject s x)) = ep_proc s /\ ep_open (fst (inject s x)) = ep_open s.
Proof.
  destruct x; cbn; auto.
  - destruct (ep_timer s) as [[|]|]; cbn; unfold on_response_timeout, on_retry_timeout; cbn; destruct (ep_state s); auto.
  - destruct (nth_error (ep_stale s) n) as [[|]|]; cbn; unfold on_response_timeout, on_retry_timeout; cbn; destruct (ep_state s); auto.
  - destruct (ep_session_timer s); auto 6.
  - destruct (ep_session_stale s); auto 6.
Qed.

(** C34 *)
Lemma delivery_run C ls k t : c_via_stack C = false -> along reader_ok C (new_endpoint C, []) ls ->
  run C (new_endpoint C, []) ls = Ok (k, t) -> exists held, play delivery None t = Some held.
Proof.
  intros Hv HQ H. destruct (simulate delivery rinv reader_ok C) with (ls := ls) (a := @None (list N * bool)) (k := (new_endpoint C, @nil instr)) (k' := k) (t := t) as (a' & P & _); eauto.
  - intros held k1 l k2 e HI Hq Hs. destruct (step_inv _ _ _ _ _ Hs) as [[-> ->]|[(x & s1 & -> & -> & -> & ->)|(inp & s1 & i & rest & s2 & pushed & -> & -> & He & ->)]].
    + exists held. auto.
    + exists held. split; [reflexivity|]. destruct HI as [I1 I2 I3 I4 I5 I6]. cbn [fst snd] in *.
      destruct (inject_rx s1 x) as (E1 & E2 & E3 & E4 & E5). destruct I6 as [(p & bytes & W & _)|[NP Sh]]; [destruct W as ([] & ? & W & _); discriminate|].
      destruct (inject_stack s1 x) as [X|[X|[c X]]]; constructor; rewrite ?X, ?E1, ?E4, ?E5; try reflexivity; try discriminate; cbn; auto; try (left; reflexivity); try (right; eauto; fail).
      all: try (intros A B; specialize (I3 A B); discriminate).
      all: right; split; [reflexivity|]; destruct (ep_payload s1); auto; destruct Sh as (b & Sh1 & Sh2); exists b; split; auto; eapply shows_ext; eauto.
    + destruct Hq. eapply rinv_exec; eauto.
  - constructor; try reflexivity; try discriminate; cbn; auto; try (left; reflexivity). right. split; [reflexivity|exact I].
Qed.

(** C34: with an unread payload and a closed upper layer nothing is received any more *)
Definition deaf_instr (i : instr) : bool :=
  match i with
  | ICall (StartRx | LowerClose) | IProcess _ | IUpOpen | IAuthPayload _ | ICloseTail => true
  | _ => false
  end.
Lemma deaf_exec C s i inp s' pushed e : exec C s i inp = Ok (s', pushed, e) -> deaf_instr i = false -> ep_up s = false -> ep_payload s <> None ->
  none_of deaf_instr pushed /\ ep_up s' = false /\ ep_payload s' = ep_payload s /\ existsb heard e = false.
Proof.
  intros H Hi Hu Hp. destruct i as [[]| | | | | | | | | | | | |]; try discriminate Hi; exec_cases H; splits; try congruence; repeat split; auto.
Qed.

Lemma deaf_run C : forall ls s k t, forallb (fun l => negb (reads_or_closes l)) ls = true -> ep_up s = false -> ep_payload s <> None ->
  run C (s, []) ls = Ok (k, t) -> existsb heard t = false /\ ep_payload (fst k) = ep_payload s /\ ep_up (fst k) = false.
Proof.
  intros ls s k t Hl Hu Hp H.
  assert (G : forall ls k0 k t, forallb (fun l => negb (reads_or_closes l)) ls = true -> ep_up (fst k0) = false -> ep_payload (fst k0) = ep_payload s ->
     none_of deaf_instr (snd k0) -> run C k0 ls = Ok (k, t) -> existsb heard t = false /\ ep_payload (fst k) = ep_payload s /\ ep_up (fst k) = false).
  { clear ls k t Hl H Hu. induction ls as [|l ls IH]; intros k0 k t Hl Hu Hq Hn H.
    - cbn in H. injection H as <- <-. auto.
    - cbn [forallb] in Hl. apply Bool.andb_true_iff in Hl. destruct Hl as [Hl1 Hl2].
      destruct (run_cons_inv _ _ _ _ _ _ H) as (k1 & e1 & e2 & Hs & Hr & ->). rewrite existsb_app.
      destruct (step_inv _ _ _ _ _ Hs) as [[-> ->]|[(x & s1 & -> & -> & -> & ->)|(inp & s1 & i & rest & s2 & pushed & -> & -> & He & ->)]].
      + cbn. eapply IH; eauto.
      + cbn [existsb orb fst snd] in *. apply (IH (inject s1 x)); auto.
        * rewrite inject_up. exact Hu.
        * rewrite (proj1 (inject_rx s1 x)). exact Hq.
        * destruct x as [[]| | | |]; cbn in Hl1; try discriminate; cbn; try reflexivity.
          -- destruct (ep_timer s1) as [[|]|]; reflexivity.
          -- destruct (nth_error (ep_stale s1) n) as [[|]|]; reflexivity.
          -- destruct (ep_session_timer s1); reflexivity.
          -- destruct (ep_session_stale s1); reflexivity.
      + cbn [fst snd] in *. apply none_cons in Hn. destruct Hn as [Hn1 Hn2].
        destruct (deaf_exec _ _ _ _ _ _ _ He Hn1 Hu) as (D1 & D2 & D3 & D4); [congruence|]. rewrite D4. cbn.
        apply (IH (s2, pushed ++ rest)); auto; cbn [fst snd]; [congruence|apply none_app; auto]. }
  apply (G ls (s, []) k t); auto. reflexivity.
Qed.
