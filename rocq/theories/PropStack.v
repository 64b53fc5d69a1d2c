(** * C46: the complete stack, from the bytes of the transport to the application *)
From Verif Require Import Base BaseFacts Codec CodecSpec CodecFacts Link LinkSpec LinkFacts LinkMain LinkLayer LinkLayerSpec LinkLayerFacts LinkLayerBus
  Primitives Session SessionSpec SessionFacts SessionMain Handshake HandshakeFacts Endpoint EndpointSpec EndpointFacts EndpointMain EndpointRx EndpointTx
  EndpointNonce EndpointClose EndpointRuns PairSpec EndpointPair PropCodec PropEndpoint PropEndpoint2 PropPair Stack StackSpec StackFacts StackRuns.
Local Open Scope nat_scope.

Lemma any_true : any_message (fun _ _ => True). Proof. intros k inp m H. exact I. Qed.
Lemma salong_impl (Q Q' : config -> label -> Prop) C : (forall k l, Q k l -> Q' k l) -> forall ls k, salong Q C k ls -> salong Q' C k ls.
Proof.
  intros H. induction ls as [|l ls IH]; intros k A; cbn in *; auto. destruct A as [A1 A2]. split; [destruct l; auto|]. destruct (stack_step C k l) as [[k1 e1]| |]; auto.
Qed.

(** ** What the crypto layer receives *)

(** Whatever the transport receives, in whatever pieces: the messages the crypto layer takes are, in
    order, the payloads of frames for this station that are found one after the other in the bytes
    received. *)
Theorem C46_messages : forall C a ls k t, Forall arrival_ok ls -> salong from_outside C (new_stack C a, []) ls -> stack_run C (new_stack C a, []) ls = Ok (k, t) ->
  exists gs, messages t = map f_payload gs /\ Forall (fun f => f_destination f = a_source a /\ f_payload f <> []) gs /\ frames_in 4092 gs (wire_in ls).
Proof.
  intros C a ls k t HA HQ H.
  destruct (stack_refines (fun _ _ => True) C a ls k t any_true HA) as (les & ke & ops & out & _ & _ & _ & R1 & R2 & R3 & R4); [eapply salong_impl; [|exact HQ]; auto|exact H|].
  destruct (ll_deliveries (a_source a) (a_destination a) ops (tracks_ok _ _ _ R4 HA)) as (l & out1 & gs & E & D1 & D2 & D3).
  unfold stack_link in R1. rewrite R1 in E. injection E as _ <-. exists gs. rewrite <- R2, <- R3. auto.
Qed.
Print Assumptions C46_messages.

(** On a line with well-formed frames for any stations, received in any pieces without a close in
    between: the messages the crypto layer takes are the payloads of the first frames, and these are
    all for this station and not empty. *)
Theorem C46_bus : forall C a ls k t fs future, Forall arrival_ok ls -> Forall (fun l => l <> SArrive []) ls -> salong from_outside C (new_stack C a, []) ls ->
  stack_run C (new_stack C a, []) ls = Ok (k, t) -> ~ In EvClosed t -> Forall (frame_ok 4092) fs -> wire_in ls ++ future = flat_map frame_bytes fs ->
  exists n, messages t = map f_payload (firstn n fs) /\ Forall (fun f => f_destination f = a_source a /\ f_payload f <> []) (firstn n fs).
Proof.
  intros C a ls k t fs future HA HN HQ H NC HF W.
  destruct (stack_refines (fun _ _ => True) C a ls k t any_true HA) as (les & ke & ops & out & _ & _ & _ & R1 & R2 & R3 & [R4 R5]); [eapply salong_impl; [|exact HQ]; auto|exact H|].
  assert (CH : Forall chunk_ok ops).
  { rewrite Forall_forall in *. intros o Ho. destruct o as [| | | |ch| |d]; cbn; auto. intros ->. exact (HN _ (R4 _ Ho) eq_refl). }
  rewrite <- R3 in W.
  destruct (bus_run (a_source a) ops _ fs future (bus_new (a_source a) (a_destination a) fs future ops W) HF CH) as (l & out1 & d & rest & E & -> & D1 & D2 & _); [auto|].
  unfold stack_link in R1. rewrite R1 in E. injection E as _ <-. exists (length d). rewrite firstn_app, firstn_all, Nat.sub_diag. cbn [firstn]. rewrite app_nil_r, <- R2.
  split; [exact D1|]. eapply Forall_impl; [|exact D2]. intros f (_ & X). exact X.
Qed.
Print Assumptions C46_bus.

(** Hence after a frame for another station, or a frame without payload, nothing is received until
    the connection is closed. *)
Theorem C46_deaf_refuted : forall C a ls k t before f after future, Forall arrival_ok ls -> Forall (fun l => l <> SArrive []) ls -> salong from_outside C (new_stack C a, []) ls ->
  stack_run C (new_stack C a, []) ls = Ok (k, t) -> ~ In EvClosed t -> Forall (frame_ok 4092) (before ++ f :: after) ->
  wire_in ls ++ future = flat_map frame_bytes (before ++ f :: after) -> f_destination f <> a_source a \/ f_payload f = [] -> length (messages t) <= length before.
Proof.
  intros C a ls k t before f after future HA HN HQ H NC HF W B. destruct (C46_bus C a ls k t _ future HA HN HQ H NC HF W) as (n & -> & X).
  rewrite map_length. destruct (le_lt_dec (length (firstn n (before ++ f :: after))) (length before)) as [L|L]; [exact L|exfalso].
  rewrite firstn_app in *. rewrite app_length in L. destruct (n - length before) as [|m] eqn:E.
  - cbn in L. rewrite firstn_length in L. lia.
  - apply Forall_app in X. destruct X as [_ X]. cbn [firstn] in X. inversion X as [|x y [X1 X2] X3]; subst. destruct B; auto.
Qed.
Print Assumptions C46_deaf_refuted.

(** ** What the stack sends *)

(** Every frame given to the transport is one link frame with the configured addresses and a
    payload of 1 to 4092 bytes. *)
Theorem C46_frames : forall C a ls k t, stack_of C a -> stack_run C (new_stack C a, []) ls = Ok (k, t) ->
  exists fs, frames_out t = map frame_bytes fs /\ wire_out t = flat_map frame_bytes fs /\
    Forall (fun g => f_destination g = a_destination a /\ f_source g = a_source a /\ f_payload g <> [] /\ length (f_payload g) <= 4092) fs.
Proof.
  intros C a ls k t (p & ttl & sup & r & size & ->) H. destruct (wire_frames a t) as (fs & X1 & X2 & X3); [|exists fs; auto].
  revert H. generalize (new_stack (stack_conf a p ttl sup r size) a, @nil instr). revert k t. induction ls as [|l ls IH]; intros k t k0 H n f Hin; cbn [stack_run] in H.
  - injection H as <- <-. contradiction.
  - destruct (stack_step _ k0 l) as [[k1 e1]| |] eqn:S; cbn [obind] in H; try discriminate. destruct (stack_run _ k1 ls) as [[k2 e2]| |] eqn:R; cbn [obind] in H; try discriminate. injection H as <- <-.
    apply in_app_or in Hin. destruct Hin as [Hin|Hin]; [|eauto]. destruct k0 as [s stk], l as [ch|[x|inp]]; unfold stack_step in S; cbn [fst snd] in S.
    + destruct stk; injection S as _ <-; contradiction.
    + destruct stk; [|injection S as _ <-; contradiction]. destruct (inject (st_crypto s) x). injection S as _ <-. contradiction.
    + destruct stk as [|i rest]; [injection S as _ <-; contradiction|]. destruct (stack_exec _ s i inp) as [[[s' pu] e0]| |] eqn:X; cbn [obind] in S; try discriminate. injection S as _ <-.
      destruct (stack_exec_cases _ _ _ _ _ _ _ X) as [[m Y]|(_ & -> & _)]; [|contradiction]. eapply frames_exec; [| |exact Y|exact Hin]; reflexivity.
Qed.
Print Assumptions C46_frames.

(** Two stacks on a line: if what the second has received is what the first gave to its transport, in
    any pieces, then its crypto layer took the messages of the first, from the first one on, and
    nothing else. *)
Theorem C46_in_order : forall CA a lsA kA tA CB b lsB kB tB future, stack_of CA a -> (a_destination a < 65536)%N -> (a_source a < 65536)%N -> a_source b = a_destination a ->
  stack_run CA (new_stack CA a, []) lsA = Ok (kA, tA) -> bytes_ok (wire_out tA) ->
  Forall arrival_ok lsB -> Forall (fun l => l <> SArrive []) lsB -> salong from_outside CB (new_stack CB b, []) lsB ->
  stack_run CB (new_stack CB b, []) lsB = Ok (kB, tB) -> ~ In EvClosed tB -> wire_in lsB ++ future = wire_out tA ->
  exists fs n, frames_out tA = map frame_bytes fs /\ messages tB = map f_payload (firstn n fs).
Proof.
  intros CA a lsA kA tA CB b lsB kB tB future SA AD AS M HA OB AB NB QB HB NC W. destruct (C46_frames CA a lsA kA tA SA HA) as (fs & F1 & F2 & F3).
  assert (FO : Forall (frame_ok 4092) fs).
  { rewrite F2 in OB. clear - F3 OB AD AS. induction fs as [|f fs IH]; constructor; inversion F3 as [|x y (X1 & X2 & X3 & X4) X5]; subst; cbn [flat_map] in OB; apply bytes_ok_app in OB; destruct OB as [O1 O2]; auto.
    unfold frame_bytes in O1. apply bytes_ok_app in O1. destruct O1 as [_ O1]. apply bytes_ok_app in O1. destruct O1 as [O1 _].
    unfold frame_ok. repeat split; [rewrite X1; exact AD|rewrite X2; exact AS|exact O1|lia]. }
  rewrite F2 in W. destruct (C46_bus CB b lsB kB tB fs future AB NB QB HB NC FO W) as (n & E & _). exists fs, n. auto.
Qed.
Print Assumptions C46_in_order.

(** A transport that is ready exactly while no transmission is in progress is given one frame at a
    time, and the next one not before it reported the end of the last one. *)
Theorem C46_one_transmission : forall C a ls k t, Forall arrival_ok ls -> salong (fun k l => transport_ok k l /\ from_outside k l) C (new_stack C a, []) ls ->
  stack_run C (new_stack C a, []) ls = Ok (k, t) -> one_at_a_time false (history C (new_stack C a, []) ls).
Proof. exact one_new. Qed.
Print Assumptions C46_one_transmission.

(** ** The stack and its crypto layer *)

(** Whatever is proved of all traces of the crypto layer holds for the complete stack: its trace is a
    trace of the crypto layer over a lower layer that returns bytes. *)
Theorem C46_refines : forall Q C a ls k t, any_message Q -> Forall arrival_ok ls -> salong (fun k l => Q k l /\ from_outside k l) C (new_stack C a, []) ls ->
  stack_run C (new_stack C a, []) ls = Ok (k, t) ->
  exists les ke, run C (new_endpoint C, []) les = Ok (ke, t) /\ along (fun k l => Q k l /\ from_outside k l) C (new_endpoint C, []) les /\
    along (fun k l => match l with Run inp => bytes_ok (in_message inp) | Ext _ => True end) C (new_endpoint C, []) les /\ fst ke = st_crypto (fst k).
Proof.
  intros Q C a ls k t QM HA HQ H. destruct (stack_refines Q C a ls k t QM HA HQ H) as (les & ke & ops & out & R & A & RE & _).
  exists les, ke. split; [exact R|]. split; [eapply along_impl; [|exact A]; intros k0 l0 (X1 & X2 & _); auto|].
  split; [|apply (re_crypto _ _ _ _ RE)]. eapply along_impl; [|exact A]. intros k0 l0 (_ & _ & X). destruct l0; [exact I|apply X].
Qed.
Print Assumptions C46_refines.

(** In particular, no message is accepted twice and the notifications are in order. *)
Theorem C46_no_replay : forall C a ls k t, Forall arrival_ok ls -> salong from_outside C (new_stack C a, []) ls -> stack_run C (new_stack C a, []) ls = Ok (k, t) ->
  (exists st, play nonces None t = Some st) /\ exists up, play notifications false t = Some up.
Proof.
  intros C a ls k t HA HQ H. destruct (C46_refines (fun _ _ => True) C a ls k t any_true HA) as (les & ke & R & _); [eapply salong_impl; [|exact HQ]; auto|exact H|].
  split; [eapply C14_endpoint_no_replay; eauto|eapply C26_alternation; eauto].
Qed.
Print Assumptions C46_no_replay.

(** If the connection is closed from outside the notifications and the application does not read
    while it is closed, messages are taken only while it is open. *)
Theorem C46_listening : forall C a ls k t, Forall arrival_ok ls -> salong (fun k l => closes_outside k l /\ from_outside k l) C (new_stack C a, []) ls ->
  stack_run C (new_stack C a, []) ls = Ok (k, t) -> play listening false t = Some (st_open (fst k)).
Proof.
  intros C a ls k t HA HQ H. destruct (stack_refines closes_outside C a ls k t (fun _ _ _ X => X) HA HQ H) as (les & ke & ops & out & R & A & RE & _).
  destruct (re_sync _ _ _ _ RE) as [_ S]. rewrite <- S, <- (re_crypto _ _ _ _ RE).
  exact (listening_run C les _ _ _ (qinv_new C) A R).
Qed.
Print Assumptions C46_listening.

(** ** From one application to the other *)

Definition sender (k : config) (l : label) : Prop := closes_outside k l /\ calls_typed k l.
Lemma sender_any : any_message sender. Proof. intros k inp m H. exact H. Qed.
Lemma sender_typed k l : full sender k l -> typed k l.
Proof. intros ((_ & X) & _ & Y). destruct l as [[]|inp]; cbn in *; auto. tauto. Qed.
Lemma along_and (Q Q' : config -> label -> Prop) C : forall ls k, along Q C k ls -> along Q' C k ls -> along (fun k l => Q k l /\ Q' k l) C k ls.
Proof. induction ls as [|l ls IH]; intros k H H'; cbn in *; auto. destruct H, H'. split; auto. destruct (step C k l) as [[k1 e1]| |]; auto. Qed.

(** Whatever bytes the transports receive: what the application of one stack reads is a piece of a
    buffer that the application of the other stack gave to its stack. *)
Theorem C46_origin : forall CA a lsA kA tA CB b lsB kB tB d, prims_ok (e_prims (c_env CA)) -> conf_typed CA ->
  Forall arrival_ok lsA -> salong (fun k l => sender k l /\ from_outside k l) CA (new_stack CA a, []) lsA -> stack_run CA (new_stack CA a, []) lsA = Ok (kA, tA) ->
  Forall arrival_ok lsB -> salong (fun k l => opens_quietly k l /\ from_outside k l) CB (new_stack CB b, []) lsB -> stack_run CB (new_stack CB b, []) lsB = Ok (kB, tB) ->
  fresh_keys tA -> unforged CA tA CB tB -> In (EvRead d) tB -> exists buffer, In (EvAccept buffer) tA /\ piece_of d buffer.
Proof.
  intros CA a lsA kA tA CB b lsB kB tB d HP HC AA QA HA AB QB HB F U Hd.
  destruct (stack_refines sender CA a lsA kA tA sender_any AA QA HA) as (la & ka & _ & _ & RA & XA & _).
  destruct (stack_refines opens_quietly CB b lsB kB tB (fun _ _ _ X => X) AB QB HB) as (lb & kb & _ & _ & RB & XB & _).
  eapply (C44_origin CA la ka tA CB lb kb tB d); eauto.
  - eapply along_impl; [|exact XA]. apply sender_typed.
  - apply along_and; [eapply along_impl; [|exact XA]; intros k l (_ & X & _); exact X|].
    apply quiet_along; [apply qinv_new|]. eapply along_impl; [|exact XA]. intros k l ((X1 & _) & X2 & X3). split; auto.
  - eapply along_impl; [|exact XB]. intros k l (X & _). exact X.
Qed.
Print Assumptions C46_origin.

(** Per session, the receiving stack accepts a subsequence of the data the other one sealed under the
    key of the session, with strict nonces the first part of it. *)
Theorem C46_delivery : forall CA a lsA kA tA CB b lsB kB tB s part, prims_ok (e_prims (c_env CA)) -> conf_typed CA ->
  Forall arrival_ok lsA -> salong (fun k l => calls_typed k l /\ from_outside k l) CA (new_stack CA a, []) lsA -> stack_run CA (new_stack CA a, []) lsA = Ok (kA, tA) ->
  Forall arrival_ok lsB -> salong from_outside CB (new_stack CB b, []) lsB -> stack_run CB (new_stack CB b, []) lsB = Ok (kB, tB) ->
  fresh_keys tA -> unforged CA tA CB tB -> session_part tB s part ->
  subseq (payloads part) (filter nonempty (sent_under CA (k_rx (s_keys s)) tA)) /\
  (s_nonce_mode s = strict_increment -> exists n, payloads part = firstn n (filter nonempty (sent_under CA (k_rx (s_keys s)) tA))).
Proof.
  intros CA a lsA kA tA CB b lsB kB tB s part HP HC AA QA HA AB QB HB F U HS.
  destruct (stack_refines calls_typed CA a lsA kA tA (fun _ _ _ X => X) AA QA HA) as (la & ka & _ & _ & RA & XA & _).
  destruct (stack_refines (fun _ _ => True) CB b lsB kB tB any_true AB) as (lb & kb & _ & _ & RB & XB & _); [eapply salong_impl; [|exact QB]; auto|exact HB|].
  eapply (C44_delivery CA la ka tA CB lb kb tB s part); eauto.
  eapply along_impl; [|exact XA]. intros k l (X & _ & Y). destruct l as [[]|inp]; cbn in *; auto. tauto.
Qed.
Print Assumptions C46_delivery.

(** ** Examples *)

(** The second stack receives the frames of the first in other pieces *)
Definition st_a : list slabel := slabels_of (sdrive ds_i (sfresh ds_i ds_a) ds_a2).
Definition st_b : list slabel := slabels_of (sdrive ds_r (sfresh ds_r ds_b)
  [shappen (Enter LowerOpen) 1; sarrive [firstn 30 ds_request] 2; sarrive [skipn 30 ds_request] 2; shappen (Enter LowerTxReady) 2;
   sarrive [ds_auth ++ firstn 20 ds_data0] 4; shappen (Enter LowerTxReady) 4; sarrive [skipn 20 ds_data0 ++ firstn 40 ds_data1] 6; shappen (Enter StartRx) 7]).
Definition unforgedb_link (kind : frame_kind) (log : list sealed_message) (P : prims) (tB : list event) : bool :=
  forallb (fun r => match r with
    | EvRecv raw => match session_data_read raw with
        | inl m => forallb (fun e => match e with
            | EvAuthOk s _ _ => negb (opens P (s_crypto_mode s) (k_rx (s_keys s)) m) ||
                existsb (fun x => bytes_eqb (sm_frame x) (frame_of kind raw) && bytes_eqb (k_tx (s_keys (sm_session x))) (k_rx (s_keys s)) && mode_eqb (s_crypto_mode (sm_session x)) (s_crypto_mode s)) log
            | _ => true end) tB
        | inr _ => true end
    | _ => true end) tB.
Lemma app_eq_length_l {A} (a b c d : list A) : a ++ b = c ++ d -> length a = length c -> a = c /\ b = d.
Proof.
  revert c. induction a as [|x a IH]; intros [|y c] H L; cbn in *; try discriminate; auto. injection H as -> H. injection L as L. destruct (IH c H L) as [-> ->]. auto.
Qed.
Lemma frame_bytes_payload f g : frame_bytes f = frame_bytes g -> f_payload f = f_payload g.
Proof.
  unfold frame_bytes. intros H. apply app_eq_length_l in H; [|unfold frame_header, frame_header_fields; rewrite !app_length, !be_bytes_length; reflexivity]. destruct H as [_ H].
  assert (L : length (f_payload f) = length (f_payload g)). { apply (f_equal (@length N)) in H. rewrite !app_length, !be_bytes_length in H. lia. }
  apply app_eq_length_l in H; [tauto|exact L].
Qed.
Lemma frame_of_inj kind x y : frame_of kind x = frame_of kind y -> x = y.
Proof. destruct kind; cbn [frame_of]; intros H; [apply frame_bytes_payload in H|]; exact H. Qed.
Lemma unforgedb_link_ok CA tA CB tB : e_prims (c_env CA) = e_prims (c_env CB) -> Forall (seals_frame CA) (sealed_log CA tA) ->
  unforgedb_link (e_kind (c_env CA)) (sealed_log CA tA) (e_prims (c_env CB)) tB = true -> unforged CA tA CB tB.
Proof.
  intros EP L H raw m s m0 p0 p R1 R2 R3 R4. unfold unforgedb_link in H. rewrite forallb_forall in H. specialize (H _ R1). cbn in H. rewrite R2 in H.
  rewrite forallb_forall in H. specialize (H _ R3). cbn in H. apply Bool.orb_true_iff in H. destruct H as [H|H].
  - exfalso. apply Bool.negb_true_iff in H. unfold opens in H. unfold authentic in R4. destruct (s_crypto_mode s).
    + destruct R4 as [_ R4]. rewrite R4, bytes_eqb_same in H. discriminate.
    + rewrite R4 in H. discriminate.
  - apply existsb_exists in H. destruct H as (x & X1 & X2). apply Bool.andb_true_iff in X2. destruct X2 as [X2 X3]. apply Bool.andb_true_iff in X2. destruct X2 as [X2 X4].
    apply bytes_eqb_iff in X2, X4. assert (X5 : s_crypto_mode (sm_session x) = s_crypto_mode s) by (destruct (s_crypto_mode (sm_session x)), (s_crypto_mode s); try discriminate; reflexivity).
    exists x. split; [exact X1|]. split; [exact X4|]. split; [exact X5|]. rewrite Forall_forall in L. destruct (L _ X1) as (md & (m' & M1 & M2 & M3 & M4 & M5) & M6).
    rewrite X2 in M3. apply frame_of_inj in M3.
    assert (E : m' = m). { destruct (C10_session_data_round_trip m' _ M1 (Nat.le_refl _)) as [_ Y]. rewrite <- M3, R2 in Y. congruence. } subst m'.
    rewrite X5, X4 in M5. pose proof (M5 _ (Nat.le_refl _) M4) as Y. apply mode_read_authentic in Y. rewrite EP in Y.
    assert (E : sm_data x = p). { unfold authentic in Y, R4. destruct (s_crypto_mode s); [destruct Y, R4; congruence|congruence]. }
    exists m. rewrite X2, <- E, M3. auto.
Qed.
Definition small (l : list N) : bool := forallb (fun b => (b <? 256)%N) l.
Definition senderb (k : config) (l : label) : bool :=
  match l with
  | Run inp => forallb app_call (in_calls inp) && implb (negb (ep_open (fst k))) (forallb is_start_tx (in_calls inp)) &&
               forallb (fun c => match c with StartTx d => small d | _ => true end) (in_calls inp)
  | Ext (Enter StartRx) => ep_open (fst k)
  | Ext (Enter (StartTx d)) => small d
  | Ext _ => true
  end.
Definition transportb (k : config) (l : label) : bool :=
  match l with
  | Run inp => Bool.eqb (in_ready inp) (negb (ep_busy (fst k))) && implb (negb (ep_busy (fst k))) (in_started inp)
  | _ => true
  end.
Definition orderly (k : config) (l : label) : Prop := (sender k l /\ opens_quietly k l /\ transport_ok k l) /\ from_outside k l.
Definition orderlyb (k : config) (l : label) : bool :=
  senderb k l && transportb k l && match l with Run inp => implb (existsb opening (snd k)) (forallb is_start_tx (in_calls inp)) | _ => true end.
Lemma app_call_close l : forallb app_call l = true -> forallb app_or_close l = true.
Proof. intros H. rewrite forallb_forall in *. intros c Hc. specialize (H c Hc). destruct c; auto. Qed.
Lemma orderlyb_ok k l : orderlyb k l = true -> orderly k l.
Proof.
  unfold orderlyb. rewrite !Bool.andb_true_iff. intros [[H1 H2] H3]. destruct l as [[[d| | | | |]| | | |]|inp]; unfold orderly, sender; cbn in *; try tauto.
  - repeat split; auto. apply small_ok. exact H1.
  - rewrite !Bool.andb_true_iff in H1. destruct H1 as [[H1 H4] H5]. apply Bool.andb_true_iff in H2. destruct H2 as [H2 H6].
    repeat split; auto using app_call_close.
    + intros O. rewrite O in H4. exact H4.
    + rewrite forallb_forall in H5. apply Forall_forall. intros c Hc. specialize (H5 c Hc). destruct c; auto. apply small_ok. exact H5.
    + apply implb_prop. exact H3.
    + apply Bool.eqb_prop in H2. exact H2.
    + intros O. rewrite O in H6. exact H6.
Qed.
Definition arrivalsb (ls : list slabel) : bool := forallb (fun l => match l with SArrive ch => small ch && negb (is_nil ch) | _ => true end) ls.
Lemma arrivalsb_ok ls : arrivalsb ls = true -> Forall arrival_ok ls /\ Forall (fun l => l <> SArrive []) ls.
Proof.
  intros H. unfold arrivalsb in H. rewrite forallb_forall in H. split; apply Forall_forall; intros [ch|l] Hl; cbn; auto; try discriminate; specialize (H _ Hl); cbn in H; apply Bool.andb_true_iff in H; destruct H as [H1 H2].
  - apply small_ok. exact H1.
  - intros E. injection E as ->. discriminate H2.
Qed.
(** The hypotheses of the theorems above, for this example: both stacks run, and the second one has
    received all but three bytes of what the first one sent. *)
Definition st_check (f : sconfig -> list event -> list event -> bool) : bool :=
  match stack_run ds_i (new_stack ds_i ds_a, []) st_a, stack_run ds_r (new_stack ds_r ds_b, []) st_b with
  | Ok (ka, ta), Ok (kb, tb) =>
      salongb orderlyb ds_i (new_stack ds_i ds_a, []) st_a && salongb orderlyb ds_r (new_stack ds_r ds_b, []) st_b && arrivalsb st_a && arrivalsb st_b &&
      distinctb (map (fun s => k_tx (s_keys s)) (derived ta)) && unforgedb_link (FLink ds_a) (sealed_log ds_i ta) toy tb &&
      small (wire_out ta) && bytes_eqb (wire_in st_b ++ skipn 40 ds_data1) (wire_out ta) && negb (existsb is_closed tb) && f kb ta tb
  | _, _ => false
  end.
Example C46_instance : exists kA tA kB tB, stack_run ds_i (new_stack ds_i ds_a, []) st_a = Ok (kA, tA) /\ stack_run ds_r (new_stack ds_r ds_b, []) st_b = Ok (kB, tB) /\
  prims_ok (e_prims (c_env ds_i)) /\ conf_typed ds_i /\ stack_of ds_i ds_a /\ stack_of ds_r ds_b /\ a_source ds_b = a_destination ds_a /\
  Forall arrival_ok st_a /\ Forall arrival_ok st_b /\ Forall (fun l => l <> SArrive []) st_b /\
  salong orderly ds_i (new_stack ds_i ds_a, []) st_a /\ salong orderly ds_r (new_stack ds_r ds_b, []) st_b /\
  fresh_keys tA /\ unforged ds_i tA ds_r tB /\ bytes_ok (wire_out tA) /\ wire_in st_b ++ skipn 40 ds_data1 = wire_out tA /\ ~ In EvClosed tB /\
  length (messages tB) = 3 /\ length (frames_out tA) = 4 /\ read_data tB = [[1; 2; 3]]%N /\ st_open (fst kB) = true /\
  exists s part, session_part tB s part /\ s_nonce_mode s = strict_increment /\ payloads part = [[1; 2; 3]]%N.
Proof.
  assert (X : st_check (fun kb ta tb => (length (messages tb) =? 3) && (length (frames_out ta) =? 4) && lists_eqb (read_data tb) [[1; 2; 3]]%N && st_open (fst kb) &&
    (existsb is_auth_ok tb && forallb (fun e => strictb e && match e with EvAuthOk _ _ p => is_nil p | _ => true end) tb && forallb no_auth (after is_auth_ok tb) && lists_eqb (payloads (after is_auth_ok tb)) [[1; 2; 3]]%N)) = true) by (vm_compute; reflexivity).
  unfold st_check in X. set (la := st_a) in *. set (lb := st_b) in *. clearbody la lb.
  destruct (stack_run ds_i _ la) as [[kA tA]| |] eqn:HA; try discriminate X. destruct (stack_run ds_r _ lb) as [[kB tB]| |] eqn:HB; try discriminate X.
  apply Bool.andb_true_iff in X. destruct X as [X Y]. apply Bool.andb_true_iff in Y. destruct Y as [Y Z]. repeat (apply Bool.andb_true_iff in Y; let Y' := fresh "Y" in destruct Y as [Y Y']).
  do 8 (apply Bool.andb_true_iff in X; let X' := fresh "X" in destruct X as [X X']).
  pose proof (salongb_ok _ _ _ orderlyb_ok _ _ X) as GA. pose proof (salongb_ok _ _ _ orderlyb_ok _ _ X7) as GB.
  destruct (arrivalsb_ok _ X6) as [A1 A2]. destruct (arrivalsb_ok _ X5) as [B1 B2].
  assert (HP : prims_ok (e_prims (c_env ds_i))) by exact toy_ok. assert (HC : conf_typed ds_i) by (cbn; lia).
  assert (L : Forall (seals_frame ds_i) (sealed_log ds_i tA)).
  { destruct (stack_refines sender ds_i ds_a la kA tA sender_any A1) as (les & ke & _ & _ & R & W & _); [eapply salong_impl; [|exact GA]; intros k l ((V & _) & V'); auto|exact HA|].
    eapply C44_log; eauto. eapply along_impl; [|exact W]. apply sender_typed. }
  exists kA, tA, kB, tB. split; [reflexivity|]. split; [reflexivity|]. split; [exact HP|]. split; [exact HC|].
  split; [unfold stack_of; do 5 eexists; reflexivity|]. split; [unfold stack_of; do 5 eexists; reflexivity|]. split; [reflexivity|].
  split; [exact A1|]. split; [exact B1|]. split; [exact B2|]. split; [exact GA|]. split; [exact GB|].
  split; [apply distinctb_ok; exact X4|]. split; [apply unforgedb_link_ok; [reflexivity|exact L|exact X3]|].
  split; [apply small_ok; exact X2|]. split; [apply bytes_eqb_iff; exact X1|]. split; [apply (absent is_closed); [apply Bool.negb_true_iff; exact X0|reflexivity]|].
  split; [apply Nat.eqb_eq; exact Y|]. split; [apply Nat.eqb_eq; exact Y2|]. split; [apply lists_eqb_ok; exact Y1|]. split; [exact Y0|].
  do 3 (apply Bool.andb_true_iff in Z; let Z' := fresh "Z" in destruct Z as [Z Z']). destruct (after_split _ _ Z) as (t0 & e & Et & Ee). destruct e as [| | | | | | | | | | |s m p| | | | | |]; try discriminate Ee.
  exists s, (EvAuthOk s m p :: after is_auth_ok tB). split; [exists t0, m, p, (after is_auth_ok tB), []; rewrite app_nil_r; auto|].
  rewrite forallb_forall in Z2. specialize (Z2 (EvAuthOk s m p)). assert (IN : In (EvAuthOk s m p) tB) by (rewrite Et; apply in_app_iff; right; left; reflexivity). specialize (Z2 IN). cbn in Z2.
  apply Bool.andb_true_iff in Z2. destruct Z2 as [Z2 Z3]. apply is_nil_ok in Z3. subst p.
  split; [destruct (s_nonce_mode s); [reflexivity|discriminate]|]. apply lists_eqb_ok in Z0. exact Z0.
Qed.

(** ** A bus with another station: the frame for the other one comes first, and the stack is deaf *)
Definition st_other : list N := frame_bytes {| f_destination := 11; f_source := 1; f_payload := [9]%N |}.
Definition st_deaf : list slabel := slabels_of (sdrive ds_r (sfresh ds_r ds_b)
  [shappen (Enter LowerOpen) 1; sarrive [st_other] 2; sarrive [ds_request] 2; sarrive [ds_request] 3]).
Definition is_message (e : event) : bool := match e with EvRecv _ => true | _ => false end.
Example C46_deaf_instance : exists k t, stack_run ds_r (new_stack ds_r ds_b, []) st_deaf = Ok (k, t) /\ Forall arrival_ok st_deaf /\ Forall (fun l => l <> SArrive []) st_deaf /\
  salong from_outside ds_r (new_stack ds_r ds_b, []) st_deaf /\ ~ In EvClosed t /\ wire_in st_deaf = st_other ++ ds_request ++ ds_request /\ messages t = [].
Proof.
  assert (X : match stack_run ds_r (new_stack ds_r ds_b, []) st_deaf with
    | Ok (k, t) => salongb orderlyb ds_r (new_stack ds_r ds_b, []) st_deaf && arrivalsb st_deaf && negb (existsb is_closed t) && bytes_eqb (wire_in st_deaf) (st_other ++ ds_request ++ ds_request) && negb (existsb is_message t)
    | _ => false end = true) by (vm_compute; reflexivity).
  set (l := st_deaf) in *. clearbody l. destruct (stack_run ds_r _ l) as [[k t]| |] eqn:H; try discriminate X. exists k, t. split; [reflexivity|].
  do 4 (apply Bool.andb_true_iff in X; let X' := fresh "X" in destruct X as [X X']). destruct (arrivalsb_ok _ X3) as [A1 A2]. split; [exact A1|]. split; [exact A2|].
  split; [eapply salong_impl; [|exact (salongb_ok _ _ _ orderlyb_ok _ _ X)]; intros ? ? [_ V]; exact V|].
  split; [apply (absent is_closed); [apply Bool.negb_true_iff; exact X2|reflexivity]|]. split; [apply bytes_eqb_iff; exact X1|].
  apply Bool.negb_true_iff in X0. clear - X0. induction t as [|e t IH]; [reflexivity|]. cbn in X0. apply Bool.orb_false_iff in X0. destruct X0. destruct e; try discriminate; cbn; auto.
Qed.

(** ** Closing inside a notification

    The condition of C46_listening is needed: if the application closes the connection when it is
    notified of data (as Proxy.cpp does on an error), a request that came with the data is taken and
    answered on the closed connection. *)
Definition close_script (i : instr) : list call := match i with IUpRxReady => [StartRx; LowerClose] | _ => [] end.
Definition closing (now : Z) : happening := {| h_event := Enter LowerRxReady; h_time := now; h_queue := []; h_script := close_script |}.
Definition st_close : list slabel := slabels_of (sdrive ds_r (sfresh ds_r ds_b) (ds_b2 ++ [([ds_data0 ++ ds_request], closing 6)])).
Definition notifyb (k : config) (l : label) : bool := transportb k l && match l with Run inp => forallb app_or_close (in_calls inp) | _ => true end.
Lemma notifyb_ok k l : notifyb k l = true -> transport_ok k l /\ from_outside k l.
Proof.
  unfold notifyb. intros E. apply Bool.andb_true_iff in E. destruct E as [E1 E2]. destruct l as [x|inp]; cbn in *; auto. apply Bool.andb_true_iff in E1. destruct E1 as [E1 E3]. split; [|exact E2].
  apply Bool.eqb_prop in E1. split; [exact E1|]. intros O. rewrite O in E3. exact E3.
Qed.
Theorem C46_closed_refuted : exists C a ls k t, stack_of C a /\ Forall arrival_ok ls /\ salong (fun k l => transport_ok k l /\ from_outside k l) C (new_stack C a, []) ls /\
  stack_run C (new_stack C a, []) ls = Ok (k, t) /\ play listening false t = None /\
  exists t0 m t1 f t2, t = t0 ++ EvRecv m :: t1 ++ EvTx TxReply f :: t2 /\ play listening false t0 = Some false /\ ~ In EvOpened t1.
Proof.
  exists ds_r, ds_b, st_close.
  assert (X : match stack_run ds_r (new_stack ds_r ds_b, []) st_close with
    | Ok (k, t) => salongb notifyb ds_r (new_stack ds_r ds_b, []) st_close && arrivalsb st_close &&
        match play listening false t with None => true | _ => false end && match play listening false (firstn (length t - 4) t) with Some false => true | _ => false end &&
        match skipn (length t - 4) t with EvRecv m :: EvKeys s :: EvTx TxReply f :: t2 => true | _ => false end
    | _ => false end = true) by (vm_compute; reflexivity).
  set (l := st_close) in *. clearbody l. destruct (stack_run ds_r _ l) as [[k t]| |] eqn:H; try discriminate X. exists k, t.
  do 4 (apply Bool.andb_true_iff in X; let X' := fresh "X" in destruct X as [X X']). destruct (arrivalsb_ok _ X3) as [A1 _].
  split; [unfold stack_of; do 5 eexists; reflexivity|]. split; [exact A1|]. split; [exact (salongb_ok _ _ _ notifyb_ok _ _ X)|].
  split; [reflexivity|]. split; [destruct (play listening false t); [discriminate|reflexivity]|].
  pose proof (firstn_skipn (length t - 4) t) as E. destruct (skipn (length t - 4) t) as [|e1 [|e2 [|e3 t2]]]; try discriminate X0; destruct e1; try discriminate X0; destruct e2; try discriminate X0; destruct e3 as [| |[]| | | | | | | | | | | | | | |]; try discriminate X0.
  exists (firstn (length t - 4) t), message, [EvKeys s], frame, t2. split; [symmetry; exact E|]. split; [|cbn; intuition discriminate].
  destruct (play listening false (firstn (length t - 4) t)) as [[]|]; try discriminate X1. reflexivity.
Qed.
Print Assumptions C46_closed_refuted.

(** ** Bytes of an earlier connection

    Closing the connection does not drop the bytes behind the message taken last: on the next
    connection they come before everything that arrives there, here a request that is answered
    although nothing was received since the connection was opened. *)
Definition st_stale : list slabel := slabels_of (sdrive ds_r (sfresh ds_r ds_b)
  [shappen (Enter LowerOpen) 1; sarrive [ds_request ++ ds_request ++ ds_request] 2; shappen (Enter LowerClose) 3; shappen (Enter LowerTxReady) 4; shappen (Enter LowerOpen) 5; shappen (Enter LowerRxReady) 6]).
(** Nothing arrives after the last time the connection was opened *)
Fixpoint arrives_after_open (ls : list slabel) : bool :=
  match ls with
  | [] => false
  | SLab (Ext (Enter LowerOpen)) :: ls' => if existsb (fun l => match l with SLab (Ext (Enter LowerOpen)) => true | _ => false end) ls' then arrives_after_open ls'
                                          else existsb (fun l => match l with SArrive _ => true | _ => false end) ls'
  | _ :: ls' => arrives_after_open ls'
  end.
Theorem C46_stale_refuted : exists C a ls k t, stack_of C a /\ Forall arrival_ok ls /\ salong orderly C (new_stack C a, []) ls /\ stack_run C (new_stack C a, []) ls = Ok (k, t) /\
  arrives_after_open ls = false /\ exists t0 m t1 f t2, t = t0 ++ EvClosed :: EvOpened :: t1 ++ EvTx TxReply f :: t2 /\ In (EvRecv m) t1.
Proof.
  exists ds_r, ds_b, st_stale.
  assert (X : match stack_run ds_r (new_stack ds_r ds_b, []) st_stale with
    | Ok (k, t) => salongb orderlyb ds_r (new_stack ds_r ds_b, []) st_stale && arrivalsb st_stale && negb (arrives_after_open st_stale) &&
        existsb is_closed t && match after is_closed t with [EvOpened; EvQuery true; EvRecv m; EvKeys s; EvTx TxReply f; EvQuery _] => true | _ => false end
    | _ => false end = true) by (vm_compute; reflexivity).
  set (l := st_stale) in *. clearbody l. destruct (stack_run ds_r _ l) as [[k t]| |] eqn:H; try discriminate X. exists k, t.
  do 4 (apply Bool.andb_true_iff in X; let X' := fresh "X" in destruct X as [X X']). destruct (arrivalsb_ok _ X3) as [A1 _].
  split; [unfold stack_of; do 5 eexists; reflexivity|]. split; [exact A1|]. split; [exact (salongb_ok _ _ _ orderlyb_ok _ _ X)|].
  split; [reflexivity|]. split; [apply Bool.negb_true_iff; exact X2|].
  destruct (after_split _ _ X1) as (t0 & e & Et & Ee). destruct e; try discriminate Ee.
  destruct (after is_closed t) as [|e1 r1]; [discriminate X0|]. destruct e1; try discriminate X0. destruct r1 as [|e2 r2]; [discriminate X0|]. destruct e2 as [ready| | | | | | | | | | | | | | | | |]; try discriminate X0.
  destruct ready; [|discriminate X0]. destruct r2 as [|e3 r3]; [discriminate X0|]. destruct e3; try discriminate X0. destruct r3 as [|e4 r4]; [discriminate X0|]. destruct e4; try discriminate X0.
  destruct r4 as [|e5 t2]; [discriminate X0|]. destruct e5 as [| |[]| | | | | | | | | | | | | | |]; try discriminate X0.
  exists t0, message, [EvQuery true; EvRecv message; EvKeys s], frame, t2. split; [exact Et|cbn; auto].
Qed.
Print Assumptions C46_stale_refuted.

(** ** The first message of the next connection

    The mark that a message was taken is not removed when the connection is closed: the first
    message of the next connection is dropped as if it were that message. *)
Definition st_lost : list slabel := slabels_of (sdrive ds_r (sfresh ds_r ds_b)
  [shappen (Enter LowerOpen) 1; sarrive [ds_request] 2; shappen (Enter LowerTxReady) 3; shappen (Enter LowerClose) 4; shappen (Enter LowerOpen) 5; sarrive [ds_request] 6; sarrive [ds_request] 7]).
Theorem C46_first_lost_refuted : exists C a ls k t m, stack_of C a /\ Forall arrival_ok ls /\ salong orderly C (new_stack C a, []) ls /\ stack_run C (new_stack C a, []) ls = Ok (k, t) /\
  snd k = [] /\ (exists f, frame_ok 4092 f /\ f_destination f = a_source a /\ f_payload f = m /\ wire_in ls = frame_bytes f ++ frame_bytes f ++ frame_bytes f) /\ messages t = [m; m].
Proof.
  exists ds_r, ds_b, st_lost.
  assert (X : match stack_run ds_r (new_stack ds_r ds_b, []) st_lost with
    | Ok (k, t) => salongb orderlyb ds_r (new_stack ds_r ds_b, []) st_lost && arrivalsb st_lost && bytes_eqb (wire_in st_lost) (ds_request ++ ds_request ++ ds_request) &&
        match snd k with [] => true | _ => false end && lists_eqb (messages t) [firstn 51 (skipn 12 ds_request); firstn 51 (skipn 12 ds_request)]
    | _ => false end = true) by (vm_compute; reflexivity).
  set (l := st_lost) in *. clearbody l. destruct (stack_run ds_r _ l) as [[k t]| |] eqn:H; try discriminate X. exists k, t, (firstn 51 (skipn 12 ds_request)).
  do 4 (apply Bool.andb_true_iff in X; let X' := fresh "X" in destruct X as [X X']). destruct (arrivalsb_ok _ X3) as [A1 _].
  split; [unfold stack_of; do 5 eexists; reflexivity|]. split; [exact A1|]. split; [exact (salongb_ok _ _ _ orderlyb_ok _ _ X)|].
  split; [reflexivity|]. split; [destruct (snd k); [reflexivity|discriminate]|]. split; [|apply lists_eqb_ok; exact X0].
  exists {| f_destination := 10; f_source := 1; f_payload := firstn 51 (skipn 12 ds_request) |}.
  split; [unfold frame_ok; repeat split; try (cbn; lia); apply small_ok; vm_compute; reflexivity|]. split; [reflexivity|]. split; [reflexivity|].
  apply bytes_eqb_iff in X2. rewrite X2. vm_compute. reflexivity.
Qed.
Print Assumptions C46_first_lost_refuted.
