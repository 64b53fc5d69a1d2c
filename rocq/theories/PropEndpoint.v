(** * C14 (endpoint), C24, C25, C26, C34: sessions, notifications and delivery at an endpoint *)
From Verif Require Import Base BaseFacts Codec CodecSpec CodecFacts Link LinkLayer Primitives Session SessionSpec SessionFacts SessionMain
  Handshake HandshakeFacts Endpoint EndpointSpec EndpointFacts EndpointMain EndpointRx EndpointRuns.

(** ** Concrete runs for the examples *)

(** The responder: connection, handshake, a data message that the application reads, another one,
    a new handshake, the end of the connection *)
Definition ex_responder (via : bool) (c : SessionCryptoMode) : list happening :=
  [happen (Enter LowerOpen) 1; arrive (dr_request c) 2; happen (Enter LowerTxReady) 2;
   arrive (dr_message (dr_session_i c) 0 []) 4; happen (Enter LowerTxReady) 4;
   arrive (dr_message (dr_session_i c) 1 [1; 2; 3]%N) 5; happen (Enter StartRx) 5; happen (Enter StartRx) 5;
   arrive (dr_message (dr_session_i c) 2 [4; 5]%N) 6; happen (Enter StartRx) 6; happen (Enter StartRx) 6].
(** The initiator: connection, handshake, a data message, transmission *)
Definition ex_initiator (c : SessionCryptoMode) : list happening :=
  [happen (Enter LowerOpen) 1; happen (Enter LowerTxReady) 1; arrive (dr_reply c) 3; happen (Enter LowerTxReady) 3;
   arrive (dr_message (dr_session_r c) 0 [9; 9]%N) 5; happen (Enter StartRx) 5; happen (Enter StartRx) 5;
   arrive (dr_message (dr_session_r c) 1 [6]%N) 6; happen (Enter StartRx) 6; happen (Enter (StartTx [1; 2; 3]%N)) 6; happen (Enter LowerTxReady) 7].
Definition ex_run (C : econf) (hs : list happening) : list label := labels_of (drive C (fresh C) hs).
Definition ex_both : list (econf * list happening) :=
  [(dr_r false, ex_responder false hmac_sha256_16); (dr_r false, ex_responder false aes_256_gcm);
   (dr_i hmac_sha256_16 900 false, ex_initiator hmac_sha256_16); (dr_i aes_256_gcm 900 false, ex_initiator aes_256_gcm)].
Definition trace_of (C : econf) (ls : list label) : list event :=
  match run C (fresh C) ls with Ok (_, t) => t | _ => [] end.
Definition is_up_open (e : event) := match e with EvUpOpen => true | _ => false end.
Definition is_data_ok (e : event) := match e with EvDataOk _ _ _ => true | _ => false end.
Definition is_auth_ok (e : event) := match e with EvAuthOk _ _ _ => true | _ => false end.
Definition reads (t : list event) : list (list N) := flat_map (fun e => match e with EvRead d => [d] | _ => [] end) t.

(** ** C26 *)

(** For every environment: what the layer above is told is open, then other notifications, then
    close, and so on. *)
Theorem C26_alternation : forall C ls k t, run C (new_endpoint C, []) ls = Ok (k, t) ->
  exists up, play notifications false t = Some up.
Proof. intros C ls k t H. exists (ep_up (fst k)). exact (notifications_run C ls (new_endpoint C) [] k t H). Qed.
Print Assumptions C26_alternation.

(** In words: before every close there is an open with no close in between, before every open no
    open without a close after it, and the other notifications come while open. *)
Definition last_is_open (t : list event) : bool :=
  fold_left (fun b e => match e with EvUpOpen => true | EvUpClose => false | _ => b end) t false.
Theorem C26_open_before_everything : forall C ls k t t0 e t1, run C (new_endpoint C, []) ls = Ok (k, t) -> t = t0 ++ e :: t1 ->
  (e = EvUpOpen -> last_is_open t0 = false) /\
  (e = EvUpClose \/ e = EvUpTxReady \/ e = EvUpRxReady -> last_is_open t0 = true).
Proof.
  intros C ls k t t0 e t1 H ->.
  assert (G : forall t0 b b' t2, play notifications b (t0 ++ t2) = Some b' ->
      exists b1, play notifications b t0 = Some b1 /\
        b1 = fold_left (fun b e => match e with EvUpOpen => true | EvUpClose => false | _ => b end) t0 b /\ play notifications b1 t2 = Some b').
  { clear. induction t0 as [|e t0 IH]; intros b b' t2 H; cbn in *; [eauto|].
    destruct (notifications b e) as [b1|] eqn:E; [|discriminate]. destruct (IH _ _ _ H) as (b2 & P1 & P2 & P3). exists b2. split; [exact P1|].
    split; [|exact P3]. rewrite P2. f_equal. destruct e; cbn in E; destruct b; congruence. }
  destruct (C26_alternation _ _ _ _ H) as (up & P). destruct (G _ _ _ _ P) as (b1 & _ & E & P2). fold (last_is_open t0) in E. rewrite <- E.
  cbn in P2. split; [intros ->|intros [->|[->| ->]]]; cbn in P2; destruct b1; auto; discriminate.
Qed.
Print Assumptions C26_open_before_everything.

Example C26_instance : forallb (fun x => existsb is_up_open (trace_of (fst x) (ex_run (fst x) (snd x ++ [happen (Enter LowerClose) 9])))) ex_both = true /\
  forallb (fun x => existsb (fun e => match e with EvUpClose => true | _ => false end) (trace_of (fst x) (ex_run (fst x) (snd x ++ [happen (Enter LowerClose) 9])))) ex_both = true.
Proof. vm_compute. auto. Qed.

(** ** C25 *)

(** For every environment, every event has its justification (EndpointSpec.justified): the upper
    layer is opened right after a message authenticated under the keys derived last was received
    from the peer, and every payload accepted comes from a received message that authenticates
    under the keys of the session established last. *)
Theorem C25_justified : forall C ls k t, run C (new_endpoint C, []) ls = Ok (k, t) ->
  every (justified (e_prims (c_env C))) [] t.
Proof. exact justified_run. Qed.
Print Assumptions C25_justified.

(** What the application reads is the payload accepted last, provided that inside the
    notification "open" it only transmits (see C34_read_in_open_refuted). *)
Theorem C25_only_authenticated_data_partial : forall C ls k t,
  along opens_quietly C (new_endpoint C, []) ls -> run C (new_endpoint C, []) ls = Ok (k, t) ->
  forall t0 d t1, t = t0 ++ EvRead d :: t1 ->
  exists u s m v, (t0 = u ++ EvAuthOk s m d :: v \/ t0 = u ++ EvDataOk s m d :: v) /\
    existsb (fun e => match e with EvAuthOk _ _ p | EvDataOk _ _ p => negb (is_empty p) | _ => false end) v = false.
Proof.
  intros C ls k t HQ H t0 d t1 ->. destruct (contents_run _ _ _ _ HQ H) as (last & P).
    rewrite play_app in P. destruct (play contents None t0) as [last0|] eqn:P0; [|discriminate].
  cbn in P. destruct last0 as [b0|]; [|discriminate]. destruct (bytes_eqb b0 d) eqn:E; [|discriminate]. apply bytes_eqb_spec in E. subst d. clear P H HQ.
  assert (G : forall t0 b, play contents None t0 = Some (Some b) ->
     exists u s m v, (t0 = u ++ EvAuthOk s m b :: v \/ t0 = u ++ EvDataOk s m b :: v) /\
       existsb (fun e => match e with EvAuthOk _ _ p | EvDataOk _ _ p => negb (is_empty p) | _ => false end) v = false).
  { clear. induction t0 as [|e t0 IH] using rev_ind; intros b H; [discriminate|].
    rewrite play_app in H. destruct (play contents None t0) as [a1|] eqn:P; [|discriminate].
    cbn in H. destruct (contents a1 e) as [a2|] eqn:E; [|discriminate]. injection H as ->.
    assert (Keep : a1 = Some b -> match e with EvAuthOk _ _ p | EvDataOk _ _ p => negb (is_empty p) | _ => false end = false ->
       exists u s m v, (t0 ++ [e] = u ++ EvAuthOk s m b :: v \/ t0 ++ [e] = u ++ EvDataOk s m b :: v) /\
       existsb (fun e => match e with EvAuthOk _ _ p | EvDataOk _ _ p => negb (is_empty p) | _ => false end) v = false).
    { intros -> He. destruct (IH _ eq_refl) as (u & s & m & v & Hu & Hv). exists u, s, m, (v ++ [e]). split.
      - destruct Hu as [->| ->]; [left|right]; rewrite <- app_assoc; reflexivity.
      - rewrite existsb_app, Hv. cbn. rewrite He. reflexivity. }
    destruct e; try (injection E as E; apply Keep; auto; fail).
    - cbn in E. destruct a1 as [p|]; [|discriminate]. destruct (bytes_eqb p data); [|discriminate]. injection E as E. subst p. apply Keep; auto.
    - destruct payload as [|x p]; injection E as E; [apply Keep; auto|]. subst b. exists t0, s, m, []. auto.
    - destruct payload as [|x p]; injection E as E; [apply Keep; auto|]. subst b. exists t0, s, m, []. auto. }
  exact (G _ _ P0).
Qed.
Print Assumptions C25_only_authenticated_data_partial.

Example C25_instance : forallb (fun x => alongb calm_openb (fst x) (fresh (fst x)) (ex_run (fst x) (snd x))) ex_both = true /\
  map (fun x => reads (trace_of (fst x) (ex_run (fst x) (snd x)))) ex_both =
    [[[1; 2; 3]; [4; 5]]; [[1; 2; 3]; [4; 5]]; [[9; 9]; [6]]; [[9; 9]; [6]]]%N /\
  map (fun x => length (filter is_auth_ok (trace_of (fst x) (ex_run (fst x) (snd x))))) ex_both = [1; 1; 1; 1].
Proof. vm_compute. auto. Qed.

(** ** C14 at the endpoint *)

(** For every environment: in each session (from one accepted authentication to the next) the
    nonces of the messages accepted from the peer start at zero, increase (by exactly one in
    strict mode) and stay within the negotiated maximum.  In particular the authentication of a
    session is accepted once. *)
Theorem C14_endpoint_no_replay : forall C ls k t, run C (new_endpoint C, []) ls = Ok (k, t) ->
  exists st, play nonces None t = Some st.
Proof. exact nonces_run. Qed.
Print Assumptions C14_endpoint_no_replay.

Example C14_endpoint_instance : map (fun x => flat_map (fun e => match e with EvAuthOk _ m _ | EvDataOk _ m _ => [am_nonce (sd_metadata m)] | _ => [] end)
    (trace_of (fst x) (ex_run (fst x) (snd x ++ [arrive (dr_message (dr_session_i hmac_sha256_16) 2 [4; 5]%N) 7])))) ex_both =
  [[0; 1; 2]; [0; 1; 2]; [0; 1]; [0; 1]]%N.
Proof. vm_compute. reflexivity. Qed.

(** ** C24 *)

(** A message that is not a session message authenticating under the keys it is checked with (the
    pending session's for nonce zero, the active session's otherwise), processed in any state:
    the active session, the upper layer and the data for it are untouched; only a new pending
    session, timers and answers can result. *)
Theorem C24_unauthenticated_message : forall C s m inp s' pushed e, exec C s (IProcess m) inp = Ok (s', pushed, e) ->
  (forall msg p, session_data_read m = inl msg ->
     let checked := if (am_nonce (sd_metadata msg) =? 0)%N then ep_pending s else ep_active s in
     ~ (s_valid checked = true /\ authentic (e_prims (c_env C)) (s_crypto_mode checked) (k_rx (s_keys checked)) msg p)) ->
  ep_active s' = ep_active s /\ ep_up s' = ep_up s /\ ep_open s' = ep_open s /\ ep_payload s' = ep_payload s /\ pushed = [] /\
  Forall (fun x => match x with EvKeys _ | EvTx _ _ => True | _ => False end) e.
Proof. exact unauthenticated. Qed.
Print Assumptions C24_unauthenticated_message.

(** For every environment: from a moment between calls on, as long as no message authenticates a
    new session, the connection is not closed and no transmission fails, the active session stays
    the same session and the upper layer stays open. *)
Theorem C24_established_session_kept : forall C ls s k t, run C (s, []) ls = Ok (k, t) -> existsb ends_session t = false ->
  same_session (ep_active s) (ep_active (fst k)) /\ (ep_up s = true -> ep_up (fst k) = true) /\ ~ In EvUpClose t.
Proof. exact established_run. Qed.
Print Assumptions C24_established_session_kept.

(** Forged and replayed messages, a foreign request and an error message sent to the responder
    with a session; the state is reached from the start. *)
Definition ex_attack (c : SessionCryptoMode) : list happening :=
  [arrive (dr_request c) 7; happen (Enter LowerTxReady) 7; arrive (dr_message (dr_session_i c) 1 [1; 2; 3]%N) 8;
   arrive (dr_message new_session 3 [1]%N) 8; arrive (dr_message (dr_session_r c) 3 [1]%N) 9; arrive [2; 0]%N 9; arrive [7; 7]%N 9].
Example C24_instance : forallb (fun c =>
  let k := config_of (drive (dr_r false) (fresh (dr_r false)) (ex_responder false c)) in
  let r := drive (dr_r false) k (ex_attack c) in
  is_empty (map (fun _ => 0%N) (snd k)) && ep_up (fst k) && s_valid (ep_active (fst k)) && negb (existsb ends_session (events_of r)) &&
  (5 <=? length (filter (fun e => match e with EvRecv _ => true | _ => false end) (events_of r))) && ep_up (fst (config_of r)))
  [hmac_sha256_16; aes_256_gcm] = true.
Proof. vm_compute. reflexivity. Qed.

(** ** C34 *)

(** An application that reads the layer directly, whose callbacks only transmit while the
    notification "open" is being delivered: a payload is kept unchanged until it was read and the
    application asked for the next one, no message is taken from the lower layer before that, and
    every payload is handed up at most once; only a close (or a responder that cannot send its
    answer) discards it. *)
Theorem C34_delivery_partial : forall C ls k t, c_via_stack C = false -> along reader_ok C (new_endpoint C, []) ls ->
  run C (new_endpoint C, []) ls = Ok (k, t) -> exists held, play delivery None t = Some held.
Proof. exact delivery_run. Qed.
Print Assumptions C34_delivery_partial.

Example C34_instance : forallb (fun x => alongb (fun k l => calm_openb k l && lower_okb k l) (fst x) (fresh (fst x)) (ex_run (fst x) (snd x))) ex_both = true /\
  forallb (fun x => 1 <=? length (filter is_data_ok (trace_of (fst x) (ex_run (fst x) (snd x))))) ex_both = true.
Proof. vm_compute. auto. Qed.
Lemma readerb_ok k l : calm_openb k l && lower_okb k l = true -> reader_ok k l /\ lower_ok k l.
Proof.
  rewrite Bool.andb_true_iff. intros [H1 H2]. apply calm_openb_ok in H1. apply lower_okb_ok in H2.
  repeat split; auto. apply lower_quiet. exact H2.
Qed.

(** Read through the stack object, whose flag "processing" survives the close: the first payload of
    the second connection is thrown away unread. *)
Definition ex_stale_flag : list happening :=
  ex_responder true hmac_sha256_16 ++
  [arrive (dr_message (dr_session_i hmac_sha256_16) 3 [6]%N) 6; happen (Enter StartRx) 6;
   happen (Enter LowerClose) 7; happen (Enter LowerOpen) 8;
   arrive (dr_request hmac_sha256_16) 2; happen (Enter LowerTxReady) 2; arrive (dr_message (dr_session_i hmac_sha256_16) 0 []) 4; happen (Enter LowerTxReady) 4;
   arrive (dr_message (dr_session_i hmac_sha256_16) 1 [42]%N) 5; happen (Enter StartRx) 5].
Theorem C34_stack_flag_refuted : exists C ls k t, c_via_stack C = true /\
  along (fun k l => reader_ok k l /\ lower_ok k l) C (new_endpoint C, []) ls /\ run C (new_endpoint C, []) ls = Ok (k, t) /\
  (exists t0 s m t1, t = t0 ++ EvDataOk s m [42]%N :: t1 /\ In EvUpRxReady t1 /\ ~ In EvUpClose t1 /\ ~ In (EvRead [42]%N) t1) /\
  ep_payload (fst k) = None /\ quiescent k /\ ep_up (fst k) = true.
Proof.
  exists (dr_r true), (ex_run (dr_r true) ex_stale_flag).
  pose (p42 := fun e => match e with EvDataOk _ _ p => bytes_eqb [42]%N p | _ => false end).
  pose (notified := fun e => match e with EvUpRxReady => true | _ => false end).
  pose (gone := fun e => match e with EvUpClose | EvRead _ => true | _ => false end).
  destruct (run_check (dr_r true) (ex_run (dr_r true) ex_stale_flag) (fun k t =>
     existsb p42 t && existsb notified (after p42 t) && negb (existsb gone (after p42 t)) && negb (has_payload (fst k)) && quiescentb k && ep_up (fst k)))
    as (k & t & E & Hf); [vm_compute; reflexivity|].
  repeat match goal with H : _ && _ = true |- _ => apply Bool.andb_true_iff in H; destruct H end.
  repeat match goal with H : negb _ = true |- _ => apply Bool.negb_true_iff in H end.
  exists k, t. split; [reflexivity|]. split.
  { apply (alongb_ok (fun k l => calm_openb k l && lower_okb k l)); [exact readerb_ok|]. vm_compute. reflexivity. }
  split; [exact E|].
  split; [|split; [unfold has_payload in *; destruct (ep_payload (fst k)); [discriminate H2|reflexivity]|split; [apply quiescentb_ok; assumption|assumption]]].
  destruct (after_split p42 t H) as (t0 & e & Et & Ee). destruct e; try discriminate Ee.
  unfold p42 in Ee. apply bytes_eqb_spec in Ee. subst payload. exists t0, s, m, (after p42 t). split; [exact Et|].
  split; [|split; eapply absent; eauto]. destruct (present _ _ H4) as (x & Hx & Ex). destruct x; try discriminate Ex. exact Hx.
Qed.
Print Assumptions C34_stack_flag_refuted.

(** An application that asks for data inside the notification "open" while the authentication itself
    carried data: with HMAC the next read follows a pointer into a message that is gone, with AES-GCM
    it returns bytes that nobody sent. *)
Definition ex_read_in_open (c : SessionCryptoMode) : list happening :=
  [happen (Enter LowerOpen) 1; happen (Enter LowerTxReady) 1; arrive (dr_reply c) 3; happen (Enter LowerTxReady) 3;
   {| h_event := Enter LowerRxReady; h_time := 5; h_queue := [dr_message (dr_session_r c) 0 [9; 9]%N; dr_message (dr_session_r c) 1 [6]%N];
      h_script := fun i => match i with IUpOpen => [StartRx] | _ => [] end |};
   happen (Enter StartRx) 6].
Theorem C34_read_in_open_refuted :
  (exists C ls, along lower_ok C (new_endpoint C, []) ls /\ run C (new_endpoint C, []) ls = UB) /\
  (exists C ls k t d, along lower_ok C (new_endpoint C, []) ls /\ run C (new_endpoint C, []) ls = Ok (k, t) /\ In (EvRead d) t /\
     forall s m p, In (EvAuthOk s m p) t \/ In (EvDataOk s m p) t -> p <> d).
Proof.
  split.
  - set (C := dr_i hmac_sha256_16 900 false). exists C, (ex_run C (ex_read_in_open hmac_sha256_16)). split; [|vm_compute; reflexivity].
    apply (alongb_ok lower_okb); [exact lower_okb_ok|]. vm_compute. reflexivity.
  - set (C := dr_i aes_256_gcm 900 false). exists C, (ex_run C (ex_read_in_open aes_256_gcm)).
    destruct (run_check C (ex_run C (ex_read_in_open aes_256_gcm)) (fun _ t => existsb (is_read [6; 9]%N) t && negb (existsb (accepted [6; 9]%N) t)))
      as (k & t & E & Hf); [vm_compute; reflexivity|].
    exists k, t, [6; 9]%N. split; [apply (alongb_ok lower_okb); [exact lower_okb_ok|]; vm_compute; reflexivity|]. split; [exact E|].
    apply Bool.andb_true_iff in Hf. destruct Hf as [H1 H2]. apply existsb_exists in H1. destruct H1 as (x & Hx & Ex).
    split; [destruct x; try discriminate Ex; apply bytes_eqb_spec in Ex; subst data; exact Hx|].
    intros s m p H ->. apply Bool.negb_true_iff in H2. rewrite (proj2 (existsb_exists (accepted [6; 9]%N) t)) in H2; [discriminate H2|].
    destruct H as [H|H]; eexists; (split; [exact H|]); reflexivity.
Qed.
Print Assumptions C34_read_in_open_refuted.

(** A session that fails while a payload waits: the upper layer is told "closed", the payload stays,
    and from then on, whatever arrives, nothing is received and the upper layer is told nothing, until
    the application reads although its layer is closed or the connection is closed. *)
Definition ex_deaf : list happening :=
  [happen (Enter LowerOpen) 1; arrive (dr_request hmac_sha256_16) 2; happen (Enter LowerTxReady) 2;
   arrive (dr_message (dr_session_i hmac_sha256_16) 0 []) 4; happen (Enter LowerTxReady) 4;
   arrive (dr_message (dr_session_i hmac_sha256_16) 1 [1; 2; 3]%N) 5; happen (Enter (StartTx [7]%N)) (sec 100)].
Theorem C34_deaf_refuted : exists C ls k t, c_via_stack C = false /\
  along (fun k l => calm k l /\ lower_ok k l) C (new_endpoint C, []) ls /\ run C (new_endpoint C, []) ls = Ok (k, t) /\
  quiescent k /\ ep_open (fst k) = true /\
  forall ls' k' t', forallb (fun l => negb (reads_or_closes l)) ls' = true -> run C k ls' = Ok (k', t') -> existsb heard t' = false.
Proof.
  exists (dr_r false), (ex_run (dr_r false) ex_deaf).
  destruct (run_check (dr_r false) (ex_run (dr_r false) ex_deaf) (fun k _ => quiescentb k && ep_open (fst k) && negb (ep_up (fst k)) && has_payload (fst k)))
    as (k & t & E & Hf); [vm_compute; reflexivity|].
  repeat match goal with H : _ && _ = true |- _ => apply Bool.andb_true_iff in H; destruct H end.
  exists k, t. split; [reflexivity|]. split.
  - apply (alongb_ok (fun k l => calmb k l && lower_okb k l)); [|vm_compute; reflexivity].
    intros k0 l0. rewrite Bool.andb_true_iff. intros [H1' H2']. split; [apply calmb_ok; exact H1'|apply lower_okb_ok; exact H2'].
  - split; [exact E|]. pose proof (quiescentb_ok _ H) as Q. destruct k as [s stk]. unfold quiescent in Q. cbn [fst snd] in *. subst stk.
    split; [reflexivity|]. split; [assumption|]. apply Bool.negb_true_iff in H1.
    intros ls' k' t' Hl Hr. refine (proj1 (deaf_run _ _ _ _ _ Hl H1 _ Hr)). clear E Hr. unfold has_payload in *. cbn in *. destruct (ep_payload s); congruence.
Qed.
Print Assumptions C34_deaf_refuted.
