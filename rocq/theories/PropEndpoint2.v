(** * C15 (endpoint), C28, C33, C41: transmission and the end of a connection *)
From Verif Require Import Base BaseFacts Codec CodecSpec CodecFacts Link LinkLayer Primitives Session SessionSpec SessionFacts SessionMain
  Handshake HandshakeFacts Endpoint EndpointSpec EndpointFacts EndpointMain EndpointRx EndpointTx EndpointNonce EndpointClose EndpointRuns PairSpec EndpointPair PropEndpoint.

(** The data put into the frames given to the lower layer *)
Definition chunk (e : event) : list N := match e with EvTx (TxData c) _ | EvTx (TxAuth c) _ => c | _ => [] end.
Definition is_accept (e : event) : bool := match e with EvAccept _ => true | _ => false end.
Definition is_closed (e : event) : bool := match e with EvClosed => true | _ => false end.
Definition is_up_close (e : event) : bool := match e with EvUpClose => true | _ => false end.
Definition is_up_ready (e : event) : bool := match e with EvUpTxReady => true | _ => false end.
Definition goodb (k : config) (l : label) : bool := calmb k l && lower_okb k l.
Definition good (k : config) (l : label) : Prop := calm k l /\ lower_ok k l.
Lemma goodb_ok k l : goodb k l = true -> good k l.
Proof. unfold goodb. rewrite Bool.andb_true_iff. intros [H1 H2]. split; [apply calmb_ok; exact H1|apply lower_okb_ok; exact H2]. Qed.
Lemma good_line k l : good k l -> line_env k l.
Proof. intros [[H _] H2]. split; [|exact H2]. destruct l; cbn in *; tauto. Qed.
Lemma line_tx k l : line_env k l -> tx_env k l.
Proof. intros [H1 H2]. split; [exact H1|apply lower_quiet; exact H2]. Qed.

(** The initiator with a session sends a buffer that needs three messages *)
Definition ex_long (n : nat) : list N := repeat 5%N n.
Definition ex_sending : list happening :=
  ex_initiator hmac_sha256_16 ++
  [happen (Enter (StartTx (ex_long 3000))) 8; happen (Enter LowerTxReady) 8; happen (Enter LowerTxReady) 9; happen (Enter LowerTxReady) 10].

(** ** C33 *)

(** The frames carry, in order, pieces of the buffer accepted last; a new buffer is accepted only
    when nothing remains; data messages are not empty; the application is told "ready" only when
    nothing remains; closing the connection drops the rest. *)
Theorem C33_chunks : forall C ls k t, prims_ok (e_prims (c_env C)) -> along tx_env C (new_endpoint C, []) ls ->
  run C (new_endpoint C, []) ls = Ok (k, t) -> exists left, play sending [] t = Some left.
Proof. intros C ls k t HP HQ H. destruct (tinv_run C ls k t HP HQ H) as (left & P & _). eauto. Qed.
Print Assumptions C33_chunks.

Lemma sending_concat : forall t left left', play sending left t = Some left' ->
  existsb (fun e => is_accept e || is_closed e) t = false -> left = flat_map chunk t ++ left'.
Proof.
  induction t as [|e t IH]; intros left left' H Hn; cbn in *; [injection H as ->; reflexivity|].
  apply Bool.orb_false_iff in Hn. destruct Hn as [Hn1 Hn2].
  destruct (sending left e) as [l1|] eqn:E; [|discriminate]. specialize (IH _ _ H Hn2).
  destruct e; try discriminate Hn1; cbn [sending chunk app] in *; try (injection E as <-; exact IH).
  - destruct k; try (injection E as <-; exact IH).
    + destruct (bytes_eqb data (firstn (length data) left)) eqn:B; [|discriminate]. injection E as <-. apply bytes_eqb_spec in B.
      rewrite <- app_assoc, <- IH, B. rewrite <- B at 2. symmetry. apply firstn_skipn.
    + destruct data as [|b d]; [discriminate|]. set (dd := b :: d) in *. clearbody dd.
      destruct (bytes_eqb dd (firstn (length dd) left)) eqn:B; [|discriminate]. injection E as <-. apply bytes_eqb_spec in B.
      rewrite <- app_assoc, <- IH, B. rewrite <- B at 2. symmetry. apply firstn_skipn.
  - destruct left; [|discriminate]. injection E as <-. exact IH.
Qed.

(** In words: between the acceptance of a buffer and the next notification "ready", if the
    connection is not closed in between, exactly this buffer was put into frames. *)
Theorem C33_complete : forall C ls k t t0 d t1 t2, prims_ok (e_prims (c_env C)) -> along tx_env C (new_endpoint C, []) ls ->
  run C (new_endpoint C, []) ls = Ok (k, t) -> t = t0 ++ EvAccept d :: t1 ++ EvUpTxReady :: t2 ->
  existsb (fun e => is_accept e || is_closed e) t1 = false -> flat_map chunk t1 = d.
Proof.
  intros C ls k t t0 d t1 t2 HP HQ H -> Hn. destruct (C33_chunks _ _ _ _ HP HQ H) as (left & P).
  rewrite play_app in P. destruct (play sending [] t0) as [l0|]; [|discriminate]. cbn [play sending] in P. destruct l0; [|discriminate].
  rewrite play_app in P. destruct (play sending d t1) as [l1|] eqn:E; [|discriminate]. cbn [play sending] in P. destruct l1; [|discriminate].
  rewrite (sending_concat _ _ _ E Hn). symmetry. apply app_nil_r.
Qed.
Print Assumptions C33_complete.

(** A concrete run in a well-behaved environment, with a check of the result *)
Definition ex_check (C : econf) (hs : list happening) (f : config -> list event -> bool) : bool :=
  let ls := ex_run C hs in
  match run C (fresh C) ls with Ok (k, t) => alongb goodb C (fresh C) ls && f k t | _ => false end.
Example C33_instance : ex_check (dr_i hmac_sha256_16 900 false) ex_sending (fun k t =>
  match map (fun e => length (chunk e)) (filter (fun e => negb (is_empty (chunk e))) t) with [3; 1024; 1024; 952] => true | _ => false end &&
  (length (filter is_up_ready t) =? 2)) = true.
Proof. vm_compute. reflexivity. Qed.

(** Progress, as long as no transmission fails: whenever no call is in progress and the application
    waits for a notification (or something of its buffer remains) while its layer is open, the lower
    layer is busy, so that its end of transmission will make the endpoint go on.
    Partial: it does not hold once a transmission failed (C33_blocked_refuted). *)
Theorem C33_progress_partial : forall C ls k t, prims_ok (e_prims (c_env C)) -> along line_env C (new_endpoint C, []) ls ->
  run C (new_endpoint C, []) ls = Ok (k, t) -> existsb is_fail t = false -> quiescent k -> last_is_open t = true ->
  owing t = true \/ play sending [] t <> Some [] -> ep_busy (fst k) = true.
Proof.
  intros C ls k t HP HQ H Hf Hk Ho Hw.
  destruct (tinv_run C ls k t HP (along_impl _ _ _ line_tx _ _ HQ) H) as (left & P & T).
  pose proof (pinv_run C ls k t HQ H Hf) as I. destruct k as [s stk]. unfold quiescent in Hk. cbn [snd] in Hk. subst stk.
  assert (U : ep_up s = true).
  { pose proof (notifications_run C ls (new_endpoint C) [] (s, []) t H) as PN. cbn [fst] in PN. cbn in PN. 
    assert (G : forall t b b', play notifications b t = Some b' -> b' = fold_left (fun b e => match e with EvUpOpen => true | EvUpClose => false | _ => b end) t b).
    { clear. induction t as [|e t IH]; intros b b' H; cbn in *; [congruence|]. destruct (notifications b e) as [b1|] eqn:E; [|discriminate].
      rewrite (IH _ _ H). f_equal. destruct e; cbn in E; destruct b; congruence. }
    rewrite (G _ _ _ PN). exact Ho. }
  pose proof (t_left _ _ T eq_refl) as L. cbn [fst] in L.
  assert (Key : ep_remainder s <> [] -> ep_busy s = true).
  { intros R. destruct (ep_busy s) eqn:B; [reflexivity|]. destruct (p_check _ _ I U R B); discriminate. }
  cbn [fst]. destruct Hw as [Hw|Hw].
  - destruct (p_owed _ _ I Hw) as [X|[X|[X|X]]]; try discriminate; [auto|]. exact (p_tx _ _ I X).
  - apply Key. rewrite <- L. intros ->. exact (Hw P).
Qed.
Print Assumptions C33_progress_partial.

Example C33_progress_instance : ex_check (dr_i hmac_sha256_16 900 false) (removelast ex_sending) (fun k t =>
  negb (existsb is_fail t) && last_is_open t && owing t && quiescentb k) = true.
Proof. vm_compute. reflexivity. Qed.

(** The statement is false without these restrictions. *)

Definition accepts (d : list N) (e : event) : bool := match e with EvAccept x => bytes_eqb d x | _ => false end.
Definition sends (d : list N) (e : event) : bool := match e with EvTx (TxAuth x) _ => bytes_eqb d x | _ => false end.
Lemma good_check C hs f : ex_check C hs f = true ->
  exists ls k t, along good C (new_endpoint C, []) ls /\ run C (new_endpoint C, []) ls = Ok (k, t) /\ f k t = true.
Proof.
  unfold ex_check, fresh. set (ls := ex_run C hs). clearbody ls. intros H.
  destruct (run C (new_endpoint C, []) ls) as [[k t]| |] eqn:E; try discriminate H.
  apply Bool.andb_true_iff in H. destruct H as [H1 H2]. exists ls, k, t. split; [|auto]. exact (alongb_ok goodb good C goodb_ok ls _ H1).
Qed.
Ltac found := repeat match goal with
  | H : Forall2 _ (_ :: _) _ |- _ => inversion H; clear H; subst
  | H : Forall2 _ [] _ |- _ => inversion H; clear H; subst
  end.

(** Data accepted before a session failed, with the application told "closed", is sent in the next
    session. *)
Definition ex_stale : list happening :=
  [happen (Enter LowerOpen) 1; arrive (dr_request hmac_sha256_16) 2; happen (Enter LowerTxReady) 2;
   arrive (dr_message (dr_session_i hmac_sha256_16) 0 []) 4; happen (Enter LowerTxReady) 4; happen (Enter (StartTx [7]%N)) (sec 100);
   arrive (dr_request hmac_sha256_16) (sec 101); happen (Enter LowerTxReady) (sec 101); arrive (dr_message (dr_session_i hmac_sha256_16) 0 []) (sec 101)].
Theorem C33_stale_data_refuted : exists C ls k t d s m p f, along good C (new_endpoint C, []) ls /\ run C (new_endpoint C, []) ls = Ok (k, t) /\
  d <> [] /\ subseq [EvAccept d; EvUpClose; EvAuthOk s m p; EvTx (TxAuth d) f; EvUpOpen] t.
Proof.
  destruct (good_check (dr_r false) ex_stale (fun _ => sequence [accepts [7]%N; is_up_close; is_auth_ok; sends [7]%N; is_up_open])) as (ls & k & t & A & R & Hs);
    [vm_compute; reflexivity|].
  destruct (sequence_ok _ _ Hs) as (es & F & S). clear Hs. found.
  repeat match goal with H : ?f ?e = true |- _ => is_var e; match type of e with event => destruct e; try discriminate H; cbn [accepts sends] in H end end.
  destruct k0; try discriminate.
  repeat match goal with H : bytes_eqb _ _ = true |- _ => apply bytes_eqb_spec in H; subst end.
  exists (dr_r false), ls, k, t. do 5 eexists. split; [exact A|]. split; [exact R|]. split; [|exact S]. discriminate.
Qed.
Print Assumptions C33_stale_data_refuted.

(** After a session failed in the middle of a buffer and the handshake sent another part of it, the
    new session is open, nothing is being transmitted, part of the old buffer remains and every new
    buffer is rejected. *)
Definition ex_blocked : list happening :=
  [happen (Enter LowerOpen) 1; happen (Enter LowerTxReady) 1; arrive (dr_reply hmac_sha256_16) 3; happen (Enter LowerTxReady) 3;
   arrive (dr_message (dr_session_r hmac_sha256_16) 0 []) 5;
   happen (Enter (StartTx (ex_long 3000))) (sec 1); happen (Enter LowerTxReady) (sec 100); happen FireSession (sec 101);
   happen (Enter LowerTxReady) (sec 101); arrive (dr_reply hmac_sha256_16) (sec 101); happen (Enter LowerTxReady) (sec 101);
   arrive (dr_message (dr_session_r hmac_sha256_16) 0 []) (sec 101)].
Theorem C33_blocked_refuted : exists C ls k t left, along good C (new_endpoint C, []) ls /\ run C (new_endpoint C, []) ls = Ok (k, t) /\
  quiescent k /\ last_is_open t = true /\ play sending [] t = Some left /\ left <> [] /\ ep_busy (fst k) = false /\
  forall d inp, exec C (fst k) (ICall (StartTx d)) inp = Ok (fst k, [], [EvReject d]).
Proof.
  destruct (good_check (dr_i hmac_sha256_16 900 false) ex_blocked (fun k t => quiescentb k && last_is_open t && 
     match play sending [] t with Some (_ :: _) => true | _ => false end && negb (ep_busy (fst k)) && negb (tx_idle (fst k)))) as (ls & k & t & A & R & Hs);
    [vm_compute; reflexivity|].
  repeat match goal with H : _ && _ = true |- _ => apply Bool.andb_true_iff in H; destruct H end.
  destruct (play sending [] t) as [[|b left]|] eqn:P; try discriminate.
  exists (dr_i hmac_sha256_16 900 false), ls, k, t, (b :: left). split; [exact A|]. split; [exact R|].
  split; [apply quiescentb_ok; assumption|]. split; [assumption|]. split; [exact P|]. split; [discriminate|].
  split; [apply Bool.negb_true_iff; assumption|]. intros d inp. cbn. unfold start_tx.
  match goal with H : negb (tx_idle _) = true |- _ => apply Bool.negb_true_iff in H; rewrite H end. rewrite Bool.andb_false_r. reflexivity.
Qed.
Print Assumptions C33_blocked_refuted.

(** During renegotiation a buffer is sent in the authentication message of the new session; the
    application is told that it may transmit again; the authentication (or its answer) is lost.  The
    buffer was sent in no established session, yet the layer stays open. *)
Definition ex_lost : list happening :=
  [happen (Enter LowerOpen) 1; happen (Enter LowerTxReady) 1; arrive (dr_reply hmac_sha256_16) 3; happen (Enter LowerTxReady) 3;
   arrive (dr_message (dr_session_r hmac_sha256_16) 0 []) 5;
   happen FireSession (sec 30); happen (Enter (StartTx [7; 8; 9]%N)) (sec 30);
   {| h_event := Enter LowerTxReady; h_time := sec 30; h_queue := [dr_reply hmac_sha256_16]; h_script := no_calls |};
   happen (Enter LowerTxReady) (sec 31); happen FireTimer (sec 33); happen FireTimer (sec 36); happen (Enter LowerTxReady) (sec 37)].
Definition data_message (e : event) : bool := match e with EvTx (TxData _) _ => true | _ => false end.
Theorem C33_lost_in_handshake_refuted : exists C ls k t t0 d t1, along good C (new_endpoint C, []) ls /\ run C (new_endpoint C, []) ls = Ok (k, t) /\
  d <> [] /\ t = t0 ++ EvAccept d :: t1 /\ In EvUpTxReady t1 /\ last_is_open t = true /\ ~ In EvUpClose t1 /\
  existsb data_message t1 = false /\ existsb is_auth_ok t1 = false /\ ep_state (fst k) = WaitForBeginReply /\ s_valid (ep_active (fst k)) = true.
Proof.
  pose (acc := accepts [7; 8; 9]%N).
  destruct (good_check (dr_i hmac_sha256_16 900 false) ex_lost (fun k t => existsb acc t && existsb is_up_ready (after acc t) && last_is_open t &&
     negb (existsb is_up_close (after acc t)) && negb (existsb data_message (after acc t)) && negb (existsb is_auth_ok (after acc t)) &&
     match ep_state (fst k) with WaitForBeginReply => true | _ => false end && s_valid (ep_active (fst k)))) as (ls & k & t & A & R & Hs);
    [vm_compute; reflexivity|].
  repeat match goal with H : _ && _ = true |- _ => apply Bool.andb_true_iff in H; destruct H end.
  repeat match goal with H : negb _ = true |- _ => apply Bool.negb_true_iff in H end.
  destruct (after_split acc t) as (t0 & e & Et & Ee); [assumption|]. destruct e; try discriminate Ee. unfold acc in Ee; cbn [accepts] in Ee. apply bytes_eqb_spec in Ee. subst data.
  exists (dr_i hmac_sha256_16 900 false), ls, k, t, t0, [7; 8; 9]%N, (after acc t).
  split; [exact A|]. split; [exact R|]. split; [discriminate|]. split; [exact Et|].
  split; [match goal with H : existsb is_up_ready _ = true |- _ => destruct (present _ _ H) as (x & Hx & Ex) end; destruct x; try discriminate Ex; exact Hx|].
  split; [assumption|]. split; [apply (absent is_up_close); [assumption|reflexivity]|]. split; [assumption|]. split; [assumption|]. split; [|assumption].
  destruct (ep_state (fst k)); first [reflexivity|discriminate].
Qed.
Print Assumptions C33_lost_in_handshake_refuted.

(** ** C15 at the endpoint *)

(** For every environment (all numbers within the range of their C++ types): each data frame is
    protected by the transmit key of the session established last and carries as nonce the number of
    messages sent under these keys before, below the negotiated maximum; each authentication frame
    is the first message under its keys, with nonce zero. *)
Theorem C15_endpoint_sealed : forall C ls k t, prims_ok (e_prims (c_env C)) -> conf_typed C -> along typed C (new_endpoint C, []) ls ->
  run C (new_endpoint C, []) ls = Ok (k, t) -> every (sealed C) [] t.
Proof. intros. eapply sealed_run; eauto using plain_run. Qed.
Print Assumptions C15_endpoint_sealed.

Lemma last_established_quiet t : existsb is_auth_ok t = false -> forall d, last_established t d = d.
Proof.
  induction t as [|e t IH]; cbn; auto. intros H d. apply Bool.orb_false_iff in H. destruct H as [H1 H2].
  destruct e; try discriminate; auto.
Qed.
Lemma used_grows i t : existsb is_auth_ok t = false -> forall u, (snd u <= snd (fold_left (used1 i) t u))%N.
Proof.
  induction t as [|e t IH]; cbn; intros H u; [lia|]. apply Bool.orb_false_iff in H. destruct H as [H1 H2].
  etransitivity; [|apply IH; exact H2]. destruct e; try discriminate; cbn [used1]; cbn [snd]; try lia.
  destruct k; cbn [snd]; try lia. destruct i; cbn [snd]; lia.
Qed.

(** Hence two data frames sent in the same session have different nonces, in increasing order. *)
Theorem C15_endpoint_no_reuse : forall C ls k t t0 c1 f1 t1 c2 f2 t2, prims_ok (e_prims (c_env C)) -> conf_typed C -> along typed C (new_endpoint C, []) ls ->
  run C (new_endpoint C, []) ls = Ok (k, t) ->
  t = t0 ++ EvTx (TxData c1) f1 :: t1 ++ EvTx (TxData c2) f2 :: t2 -> existsb is_auth_ok t1 = false ->
  exists d md1 md2, last_established t0 None = Some d /\
    carries (c_env C) (s_crypto_mode d) (k_tx (s_keys d)) f1 md1 c1 /\ carries (c_env C) (s_crypto_mode d) (k_tx (s_keys d)) f2 md2 c2 /\
    (am_nonce md1 < am_nonce md2 < p_max_nonce (s_param d))%N.
Proof.
  intros C ls k t t0 c1 f1 t1 c2 f2 t2 HP HC HQ H Et Hn. pose proof (C15_endpoint_sealed _ _ _ _ HP HC HQ H) as S.
  pose proof (every_split _ _ S t0 _ _ Et) as (d & md1 & D1 & C1 & N1 & _).
  assert (Et2 : t = (t0 ++ EvTx (TxData c1) f1 :: t1) ++ EvTx (TxData c2) f2 :: t2) by (rewrite <- app_assoc; exact Et).
  pose proof (every_split _ _ S _ _ _ Et2) as (d' & md2 & D2 & C2 & N2 & M2).
  rewrite last_established_app in D2. cbn [last_established] in D2. rewrite last_established_quiet in D2 by exact Hn. rewrite D1 in D2. injection D2 as <-.
  exists d, md1, md2. split; [exact D1|]. split; [exact C1|]. split; [exact C2|]. split; [|exact M2].
  rewrite N1, N2, used_app. cbn [fold_left used1].
  pose proof (used_grows (is_initiator C) t1 Hn (fst (used (is_initiator C) t0), (snd (used (is_initiator C) t0) + 1)%N)) as G. cbn [snd] in G. lia.
Qed.
Print Assumptions C15_endpoint_no_reuse.

Definition typedb (k : config) (l : label) : bool :=
  let small := forallb (fun b => (b <? 256)%N) in
  let callb c := match c with StartTx d => small d | _ => true end in
  match l with Run inp => small (in_message inp) && forallb callb (in_calls inp) | Ext (Enter c) => callb c | _ => true end.
Lemma small_ok l : forallb (fun b => (b <? 256)%N) l = true -> bytes_ok l.
Proof. intros H. rewrite forallb_forall in H. apply Forall_forall. intros b Hb. apply N.ltb_lt. apply H. exact Hb. Qed.
Lemma typedb_ok k l : typedb k l = true -> typed k l.
Proof.
  destruct l as [[[]| | | |]|inp]; cbn; auto using small_ok. rewrite Bool.andb_true_iff. intros [H1 H2]. split; [apply small_ok; exact H1|].
  rewrite forallb_forall in H2. apply Forall_forall. intros [] Hc; cbn; auto. apply small_ok. exact (H2 _ Hc).
Qed.
Example C15_endpoint_instance : ex_check (dr_i hmac_sha256_16 900 false) ex_sending (fun k t =>
  alongb typedb (dr_i hmac_sha256_16 900 false) (fresh (dr_i hmac_sha256_16 900 false)) (ex_run (dr_i hmac_sha256_16 900 false) ex_sending) &&
  (length (filter data_message t) =? 4) && (length (filter is_auth_ok t) =? 1)) = true /\ conf_typed (dr_i hmac_sha256_16 900 false).
Proof. split; [vm_compute; reflexivity|cbn; lia]. Qed.

(** ** C41 *)

(** With a lower layer that keeps its promises: a frame is given to it only while it is ready, one
    at a time, and the next one not before it reported the end of the transmission. *)
Theorem C41_one_transmission : forall C ls k t l k' e, along line_env C (new_endpoint C, []) ls -> run C (new_endpoint C, []) ls = Ok (k, t) ->
  line_env k l -> step C k l = Ok (k', e) ->
  filter is_tx e = [] \/ (length (filter is_tx e) = 1 /\ ep_busy (fst k) = false /\ ep_busy (fst k') = true).
Proof. intros C ls k t l k' e HQ H Hl Hs. eapply line_step; eauto. eapply binv_run; eauto. Qed.
Print Assumptions C41_one_transmission.

(** The lower layer becomes ready only by reporting so. *)
Theorem C41_busy_until_reported : forall C ls k t l k' e, along line_env C (new_endpoint C, []) ls -> run C (new_endpoint C, []) ls = Ok (k, t) ->
  line_env k l -> step C k l = Ok (k', e) -> ep_busy (fst k) = true -> ep_busy (fst k') = false -> snd k = [ICall LowerTxReady].
Proof.
  intros C ls k t l k' e HQ H Hl Hs B B'. pose proof (binv_run _ _ _ _ HQ H) as [I1 I2 I3].
  destruct (step_inv _ _ _ _ _ Hs) as [[-> ->]|[(x & s1 & -> & -> & -> & ->)|(inp & s1 & i & rest & s2 & pushed & -> & -> & He & ->)]]; cbn [fst snd] in *.
  - congruence.
  - destruct (inject_tx s1 x) as (_ & _ & E & _). congruence.
  - assert (D : i = ICall LowerTxReady \/ i <> ICall LowerTxReady) by (destruct i as [[]| | | | | | | | | | | | |]; (left; reflexivity) || (right; discriminate)).
    destruct D as [->|D].
    + destruct I1 as [I1|[c I1]]; [apply none_cons in I1; destruct I1; discriminate|congruence].
    + destruct Hl as [_ Hl]. destruct (busy_exec _ _ _ _ _ _ _ He) as [[_ X]|(_ & X & _)]; auto; try congruence.
      intros Hp. destruct i; try discriminate. rewrite (I3 _ _ eq_refl) in B. discriminate.
Qed.
Print Assumptions C41_busy_until_reported.

Example C41_instance : ex_check (dr_i hmac_sha256_16 900 false) ex_sending (fun k t => (length (filter is_tx t) =? 6)) = true.
Proof. vm_compute. reflexivity. Qed.

(** ** C28 *)

(** An application that reads the layer directly and whose callbacks only transmit while the
    notification "open" is being delivered: after the connection is closed nothing is accepted,
    sent, delivered or notified (but the close itself) until a handshake completes on a later
    connection. *)
Theorem C28_wiped_partial : forall C ls k t, along reader_ok C (new_endpoint C, []) ls -> run C (new_endpoint C, []) ls = Ok (k, t) ->
  exists w, play wiped true t = Some w.
Proof. intros C ls k t HQ H. destruct (wiped_run _ _ _ _ HQ H) as (w & P & _). eauto. Qed.
Print Assumptions C28_wiped_partial.

(** In words *)
Theorem C28_nothing_after_close_partial : forall C ls k t t0 t1 e t2, along reader_ok C (new_endpoint C, []) ls -> run C (new_endpoint C, []) ls = Ok (k, t) ->
  t = t0 ++ EvClosed :: t1 ++ e :: t2 -> existsb is_auth_ok t1 = false ->
  match e with
  | EvTx (TxData _) _ | EvAccept _ | EvRead _ | EvDataOk _ _ _ | EvEmpty _ | EvUpOpen | EvUpTxReady | EvUpRxReady | EvFail => False
  | EvTx (TxAuth d) _ => d = []
  | _ => True
  end.
Proof.
  intros C ls k t t0 t1 e t2 HQ H -> Hn. destruct (C28_wiped_partial _ _ _ _ HQ H) as (w & P).
  rewrite play_app in P. destruct (play wiped true t0) as [w0|]; [|discriminate]. cbn [play wiped] in P.
  assert (G : forall t1 t2 w, existsb is_auth_ok t1 = false -> play wiped true (t1 ++ t2) = Some w -> play wiped true t2 = Some w).
  { clear. induction t1 as [|e t1 IH]; intros t2 w Hn H; cbn in *; auto. apply Bool.orb_false_iff in Hn. destruct Hn as [H1 H2].
    destruct e; try discriminate; cbn [wiped] in H; try (apply IH; assumption). destruct k as [| | |[|]|]; try discriminate; try (apply IH; assumption). }
  apply (G _ _ _ Hn) in P. cbn [play] in P. destruct e; cbn [wiped] in P; try discriminate; auto.
  destruct k0 as [| | |[|]|]; try discriminate; auto.
Qed.
Print Assumptions C28_nothing_after_close_partial.

(** While the connection is closed and no call is in progress: no session, no payload, nothing to
    transmit, the upper layer closed. *)
Theorem C28_closed_state_partial : forall C ls k t, along reader_ok C (new_endpoint C, []) ls -> run C (new_endpoint C, []) ls = Ok (k, t) ->
  quiescent k -> ep_open (fst k) = false ->
  s_valid (ep_active (fst k)) = false /\ s_valid (ep_pending (fst k)) = false /\ ep_payload (fst k) = None /\ ep_up (fst k) = false /\
  ep_remainder (fst k) = [] /\ ep_transmitting (fst k) = false.
Proof.
  intros C ls k t HQ H Hk Ho. destruct (wiped_run _ _ _ _ HQ H) as (w & _ & I). destruct k as [s stk]. unfold quiescent in Hk. cbn [fst snd] in *. subst stk.
  destruct (w_closed _ _ I Ho) as [-> Hp]. destruct (w_wiped _ _ I eq_refl) as (A1 & A2 & _ & A4 & A5). cbn [fst snd] in *.
  destruct A4 as [A4|A4]; [|discriminate]. destruct A5 as [[A5 A6]|A5]; [|discriminate]. auto 7.
Qed.
Print Assumptions C28_closed_state_partial.

(** The initiator closes in the middle of a long buffer, reopens and completes a new handshake *)
Definition ex_reopen : list happening :=
  ex_initiator hmac_sha256_16 ++
  [happen (Enter (StartTx (ex_long 3000))) 8; happen (Enter LowerClose) 8; happen (Enter LowerTxReady) 8; happen (Enter LowerOpen) 9;
   happen (Enter LowerTxReady) 9; arrive (dr_reply hmac_sha256_16) 9; happen (Enter LowerTxReady) 9; arrive (dr_message (dr_session_r hmac_sha256_16) 0 []) 9].
Lemma good_reader k l : good k l -> reader_ok k l.
Proof. intros [[H _] H2]. split; [exact H|apply lower_quiet; exact H2]. Qed.
Example C28_instance : ex_check (dr_i hmac_sha256_16 900 false) ex_reopen (fun k t =>
  sequence [is_up_open; is_accept; is_closed; is_up_close; is_auth_ok; is_up_open] t) = true /\
  ex_check (dr_i hmac_sha256_16 900 false) (firstn 13 ex_reopen) (fun k t => quiescentb k && negb (ep_open (fst k))) = true.
Proof. vm_compute. auto. Qed.

(** An application that closes the connection inside the notification "open", when the
    authentication carried data: the data of the closed connection is kept, can be read, and as long
    as it is not read, nothing is received on any later connection. *)
Definition ex_close_in_open : list happening :=
  [happen (Enter LowerOpen) 1; happen (Enter LowerTxReady) 1; arrive (dr_reply hmac_sha256_16) 3; happen (Enter LowerTxReady) 3;
   {| h_event := Enter LowerRxReady; h_time := 5; h_queue := [dr_message (dr_session_r hmac_sha256_16) 0 [9; 9]%N];
      h_script := fun i => match i with IUpOpen => [LowerClose] | _ => [] end |};
   happen (Enter LowerOpen) 7].
Theorem C28_close_in_open_refuted : exists C ls k t, along line_env C (new_endpoint C, []) ls /\ run C (new_endpoint C, []) ls = Ok (k, t) /\
  quiescent k /\ ep_open (fst k) = true /\ (exists t0 t1, t = t0 ++ EvClosed :: t1 /\ existsb is_auth_ok t1 = false) /\
  (forall ls' k' t', forallb (fun l => negb (reads_or_closes l)) ls' = true -> run C k ls' = Ok (k', t') -> existsb heard t' = false) /\
  exists s', exec C (fst k) (ICall StartRx) (input_for no_calls 8 (fst k) ITryRead []) = Ok (s', [], [EvRead [9; 9]%N]).
Proof.
  set (C := dr_i hmac_sha256_16 900 false). set (ls := ex_run C ex_close_in_open).
  destruct (run_check C ls (fun k t => quiescentb k && ep_open (fst k) && negb (ep_up (fst k)) && has_payload (fst k) && existsb is_closed t && negb (existsb is_auth_ok (after is_closed t)) &&
     match exec C (fst k) (ICall StartRx) (input_for no_calls 8 (fst k) ITryRead []) with Ok (_, [], [EvRead d]) => bytes_eqb [9; 9]%N d | _ => false end)) as (k & t & R & Hs);
    [vm_compute; reflexivity|].
  assert (A : along line_env C (new_endpoint C, []) ls).
  { apply (alongb_ok (fun k l => match l with Run inp => forallb app_or_close (in_calls inp) | _ => true end && lower_okb k l)); [|vm_compute; reflexivity].
    intros k0 l0. rewrite Bool.andb_true_iff. intros [H1 H2]. split; [destruct l0; [exact I|exact H1]|apply lower_okb_ok; exact H2]. }
  exists C, ls, k, t. clearbody ls.
  repeat match goal with H : _ && _ = true |- _ => apply Bool.andb_true_iff in H; destruct H end.
  repeat match goal with H : negb _ = true |- _ => apply Bool.negb_true_iff in H end.
  split; [exact A|]. split; [exact R|]. split; [apply quiescentb_ok; assumption|]. split; [assumption|].
  split. { destruct (after_split is_closed t) as (t0 & e & Et & Ee); [assumption|]. destruct e; try discriminate Ee. eauto. }
  split.
  - match goal with H : quiescentb k = true |- _ => pose proof (quiescentb_ok _ H) as Q end. destruct k as [s stk]. unfold quiescent in Q. cbn [fst snd] in *. subst stk.
    intros ls' k' t' Hl Hr. match goal with H : ep_up s = false |- _ => refine (proj1 (deaf_run _ _ _ _ _ Hl H _ Hr)) end. unfold has_payload in *. destruct (ep_payload s); congruence.
  - match goal with H : match ?x with _ => _ end = true |- _ => destruct x as [[[s' [|? ?]] [|[] [|? ?]]]| |] eqn:E; try discriminate H; apply bytes_eqb_spec in H; subst end. eauto.
Qed.
Print Assumptions C28_close_in_open_refuted.
