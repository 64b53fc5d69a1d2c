(** * LineHandshake: the handshake on a reliable line *)
From Verif Require Import Base BaseFacts Codec CodecSpec CodecFacts Link LinkLayer Primitives Session SessionSpec SessionFacts SessionMain
  Handshake HandshakeSpec HandshakeFacts HandshakeMain HandshakePair Endpoint EndpointSpec EndpointFacts EndpointMain EndpointRx EndpointTx EndpointNonce PairSpec Line LineSpec LineMsgs PropCodec PropSession PropHandshake.

Section handshake.
Variables (L : net) (c : iconf) (h : responder_handshake).
Hypothesis OK : compatible L c h.

Definition prim : prims := e_prims (c_env (n_ca L)).
(** [i0]: what an earlier handshake left behind *)
Definition begun (i0 : ihs) : option (list N * list N) * ihs := initialize_new_handshake prim (ic_handshake c) (n_ia L) i0.
Definition request : list N :=
  match fst (begun new_ihs) with Some (me, md) => wire_request (make_request (ic_handshake c) (ic_limits c) me md) | None => [] end.
Definition reply : list N := wire_reply (the_reply (c_env (n_cb L)) h (n_ans L)).

Lemma begun_fst i0 : fst (begun i0) = fst (begun new_ihs).
Proof. unfold begun, initialize_new_handshake. destruct (ic_handshake c); try reflexivity. destruct (ia_key (n_ia L)) as [[? ?]|]; reflexivity. Qed.
Lemma begun_some i0 : exists me md, begun i0 = (Some (me, md), snd (begun i0)) /\ request = wire_request (make_request (ic_handshake c) (ic_limits c) me md) /\
  request_ok (make_request (ic_handshake c) (ic_limits c) me md) /\ fits (c_env (n_ca L)) (length request).
Proof.
  pose proof (co_keys _ _ _ OK) as [K _]. pose proof (co_messages _ _ _ OK) as [M _]. pose proof (co_sides _ _ _ OK) as (S1 & S2 & S3 & S4 & S5). pose proof (co_prims _ _ _ OK) as [HP _].
  unfold request. assert (X : exists me md, fst (begun new_ihs) = Some (me, md)).
  { unfold begun. destruct K as [suite key|suite id key K1 K2 K3|suite si ci sr cr K1 K2 K3]; cbn [initialize_new_handshake fst]; [eauto|rewrite K1; cbn; eauto|eauto]. }
  destruct X as (me & md & X). exists me, md. rewrite X. assert (Y : begun new_ihs = (Some (me, md), snd (begun new_ihs))) by (destruct (begun new_ihs); cbn in *; congruence).
  split; [rewrite <- X, <- (begun_fst i0); destruct (begun i0); reflexivity|]. split; [reflexivity|]. split.
  - eapply make_request_ok; eauto.
  - apply (M _ _ _ Y).
Qed.

(** The sessions of the two sides *)
Definition is_si (t0 t2 : Z) (s : session) : Prop :=
  exists i0 old i2, initialize_session prim (c_supports (n_ca L)) (ic_handshake c) (finalize_request_tx prim request t0 (snd (begun i0)))
    (the_reply (c_env (n_cb L)) h (n_ans L)) reply (ic_limits c) t2 old = Ok (true, i2, s).
Definition is_sr (t1 : Z) (s : session) : Prop :=
  exists old, respond_bytes (c_env (n_cb L)) (c_supports (n_cb L)) h (n_ans L) request t1 old = Ok (Some (frame_of (e_kind (c_env (n_cb L))) reply), s).

Lemma sessions_exist i0 old old' t0 t1 t2 : (t0 <= t2)%Z -> exists si sr i2,
  respond_bytes (c_env (n_cb L)) (c_supports (n_cb L)) h (n_ans L) request t1 old' = Ok (Some (frame_of (e_kind (c_env (n_cb L))) reply), sr) /\ reply_read reply = inl (the_reply (c_env (n_cb L)) h (n_ans L)) /\
  initialize_session prim (c_supports (n_ca L)) (ic_handshake c) (finalize_request_tx prim request t0 (snd (begun i0)))
    (the_reply (c_env (n_cb L)) h (n_ans L)) reply (ic_limits c) t2 old = Ok (true, i2, si).
Proof.
  intros Ht. destruct (begun_some i0) as (me & md & B1 & B2 & B3 & B4). destruct OK as [R [P1 P2] F B S K X [M1 M2] _ _ _].
  destruct S as (S1 & S2 & S3 & S4 & S5). destruct K as [K1 K2]. destruct X as (X1 & X2 & X3). rewrite B2 in B4.
  destruct (exchange_completes (c_env (n_ca L)) (c_env (n_cb L)) (c_supports (n_ca L)) (c_supports (n_cb L)) (ic_handshake c) h (ic_limits c) (n_ia L) (n_ans L) t0 t1 t2 me md i0 (snd (begun i0)) old' old)
    as (sr & i2 & si & R1 & R2 & R3); auto; try lia. exists si, sr, i2. rewrite B2. auto.
Qed.

Lemma sessions_match t0 t1 t2 si sr : is_si t0 t2 si -> is_sr t1 sr ->
  matching si sr /\ p_max_nonce (s_param si) = l_max_nonce (ic_limits c) /\ p_max_nonce (s_param sr) = l_max_nonce (ic_limits c) /\
  p_max_time (s_param si) = ms (l_max_time_ms (ic_limits c)) /\ p_max_time (s_param sr) = ms (l_max_time_ms (ic_limits c)) /\
  p_start (s_param sr) = t1 /\ (t0 <= p_start (s_param si) <= t2)%Z.
Proof.
  intros (i0 & old & i2 & HI) [old' HR]. destruct (begun_some i0) as (me & md & B1 & B2 & B3 & B4). destruct OK as [R [P1 P2] F B S K X [M1 M2] _ _ _].
  destruct S as (S1 & S2 & S3 & S4 & S5). destruct K as [K1 K2]. destruct X as (X1 & X2 & X3).
  assert (E : exchange (c_env (n_ca L)) (c_env (n_cb L)) (c_supports (n_ca L)) (c_supports (n_cb L)) (ic_handshake c) h (ic_limits c) (n_ia L) (n_ans L) t0 t1 t2 request reply si sr).
  { eapply an_exchange; [exact B1| |exact HR| |exact HI].
    - rewrite (frame_write2_fits _ _ _ (wlaw_request _ B3)) by lia. rewrite <- B2. unfold fits in B4. apply N.leb_le in B4. rewrite B4. reflexivity.
    - destruct (sessions_exist i0 old old' t0 t1 t0 ltac:(lia)) as (_ & _ & _ & _ & Y & _). exact Y. }
  destruct (C22_key_agreement _ _ _ _ _ _ _ _ _ _ _ _ _ _ _ _ P1 P2 ltac:(lia) ltac:(lia) S1 S2 S3 S4 S5 K1 E) as (Y1 & Y2 & Y3 & Y4 & Y5 & Y6 & Y7).
  destruct (ma_limits _ _ Y1) as [Z1 Z2]. split; [exact Y1|]. split; [congruence|]. split; [exact Y4|]. unfold ms. split; [congruence|]. split; [exact Y5|]. split; [exact Y6|exact Y7].
Qed.

(** What is known about a session alone *)
Lemma si_known t0 t2 si : is_si t0 t2 si -> s_valid si = true /\ length (k_tx (s_keys si)) = 32 /\ s_tx_nonce si = 0%N /\ s_rx_nonce si = 0%N /\
  p_max_nonce (s_param si) = l_max_nonce (ic_limits c) /\ p_max_time (s_param si) = ms (l_max_time_ms (ic_limits c)) /\ (t0 <= p_start (s_param si) <= t2)%Z.
Proof.
  intros H. destruct (sessions_exist new_ihs new_session new_session 0 0 0 ltac:(lia)) as (_ & sr & _ & Hr & _). destruct (sessions_match _ _ _ _ _ H (ex_intro _ _ Hr)) as ([M1 M2 M3 M4 M5 M6] & Y1 & _ & Y3 & _ & _ & Y6).
  destruct M1, M3, M6 as (? & ? & ? & ?). auto 10.
Qed.
Lemma sr_known t1 sr : is_sr t1 sr -> s_valid sr = true /\ length (k_tx (s_keys sr)) = 32 /\ s_tx_nonce sr = 0%N /\ s_rx_nonce sr = 0%N /\
  p_max_nonce (s_param sr) = l_max_nonce (ic_limits c) /\ p_max_time (s_param sr) = ms (l_max_time_ms (ic_limits c)) /\ p_start (s_param sr) = t1.
Proof.
  intros H. destruct (sessions_exist new_ihs new_session new_session 0 0 0 ltac:(lia)) as (si & _ & i2 & _ & _ & Hs). destruct (sessions_match 0 _ 0 si _ (ex_intro _ _ (ex_intro _ _ (ex_intro _ i2 Hs))) H) as ([M1 M2 M3 M4 M5 M6] & _ & Y2 & _ & Y4 & Y5 & _).
  destruct M1, M2 as [? E2], M3 as [? E3], M6 as (? & ? & ? & ?). rewrite E2 in E3. auto 10.
Qed.

(** ** The steps *)
Lemma step_request_gen r s inp : exec (n_ca L) s IHandshakeRequired inp = r -> ep_state s = Idle ->
  in_ready inp = true -> in_started inp = true -> in_ianswers inp = n_ia L ->
  exists s' pushed ev, r = Ok (s', pushed, ev) /\
  (pushed = [] /\ ev = [EvQuery true; EvTx TxRequest (frame_of (e_kind (c_env (n_ca L))) request)] /\
  s' = set_state (start_timer (started (set_ihs (asked s inp) (finalize_request_tx prim request (in_now inp) (snd (begun (ep_ihs s))))) inp) TResponse) WaitForBeginReply).
Proof.
  intros H Hs Hr Hst Hia. destruct (begun_some (ep_ihs s)) as (me & md & B1 & B2 & B3 & B4). destruct OK as [[R _] _ F _ _ _ _ _ _ _ _].
  cbn [exec] in H. rewrite R in H. unfold on_handshake_required in H. rewrite Hs, Hr in H. cbn [negb] in H.
  change (ep_ihs (asked s inp)) with (ep_ihs s) in H. rewrite Hia in H. fold prim in H. fold (begun (ep_ihs s)) in H. rewrite B1 in H.
  rewrite (frame_write2_fits _ _ _ (wlaw_request _ B3)) in H by lia. rewrite <- B2 in H. unfold fits in B4. apply N.leb_le in B4. rewrite B4 in H.
  subst r. do 3 eexists. split; [reflexivity|]. auto.
Qed.
Lemma step_request s inp s' pushed ev : exec (n_ca L) s IHandshakeRequired inp = Ok (s', pushed, ev) -> ep_state s = Idle ->
  in_ready inp = true -> in_started inp = true -> in_ianswers inp = n_ia L ->
  pushed = [] /\ ev = [EvQuery true; EvTx TxRequest (frame_of (e_kind (c_env (n_ca L))) request)] /\
  s' = set_state (start_timer (started (set_ihs (asked s inp) (finalize_request_tx prim request (in_now inp) (snd (begun (ep_ihs s))))) inp) TResponse) WaitForBeginReply.
Proof. intros. edestruct step_request_gen as (? & ? & ? & X & Y); [eassumption..|]. injection X as <- <- <-. exact Y. Qed.

Lemma step_reply_gen r s inp : exec (n_cb L) s (IProcess request) inp = r -> in_answers inp = n_ans L ->
  exists s' pushed ev, r = Ok (s', pushed, ev) /\
  (exists sr, is_sr (in_now inp) sr /\ pushed = [] /\ ev = [EvKeys sr; EvTx TxReply (frame_of (e_kind (c_env (n_cb L))) reply)] /\ s' = started (set_pending s sr) inp).
Proof.
  intros H Ha. destruct (begun_some new_ihs) as (me & md & B1 & B2 & B3 & B4). destruct (sessions_exist new_ihs new_session (ep_pending s) 0 (in_now inp) 0 ltac:(lia)) as (_ & sr & _ & Hr & _).
  pose proof (ex_intro _ _ Hr : is_sr (in_now inp) sr) as Hsr. unfold respond_bytes in Hr.
  assert (Rd : exists msg, request_read request = inl msg /\ major_version (rq_version msg) = major_version version_get).
  { exists (make_request (ic_handshake c) (ic_limits c) me md). split; [|reflexivity]. apply request_read_wire; [rewrite B2; apply wire_request_bytes, B3|auto]. }
  assert (Hd : exists tl, request = 0%N :: tl) by (rewrite B2; unfold wire_request; cbn [app]; eauto).
  destruct Rd as (msg & Rd & Rv). rewrite Rd in Hr. unfold respond in Hr. rewrite Rv, N.eqb_refl in Hr. cbn [negb] in Hr.
  destruct OK as [[_ R] _ F _ _ _ _ _ _ _ _]. cbn [exec] in H. unfold process_message in H. destruct Hd as [tl Hd].
  rewrite R in H. rewrite Hd in H at 1. change (function_from 0) with (Some request_handshake_begin) in H. cbn iota in H. rewrite <- ?Hd in H. rewrite Rd in H.
  unfold on_request in H. rewrite Rv, N.eqb_refl in H. cbn [negb] in H. rewrite Ha in H.
  destruct (process (c_env (n_cb L)) (c_supports (n_cb L)) h (n_ans L) msg request (in_now inp) (ep_pending s)) as [[q p']| |] eqn:E; cbn [obind] in Hr, H; try discriminate.
  destruct q as [f|e].
  - assert (f = frame_of (e_kind (c_env (n_cb L))) reply /\ p' = sr) as [-> ->] by (split; congruence). subst r. do 3 eexists. split; [reflexivity|]. exists sr. auto.
  - exfalso. assert (X : error_frame (c_env (n_cb L)) e = Some (frame_of (e_kind (c_env (n_cb L))) reply)) by congruence.
    destruct (error_frame_spec (c_env (n_cb L)) e ltac:(lia)) as [Y|[_ Y]]; [|congruence]. rewrite X in Y. injection Y as Y. apply frame_of_inj in Y. symmetry in Y. exact (wire_error_reply _ _ Y).
Qed.
Lemma step_reply s inp s' pushed ev : exec (n_cb L) s (IProcess request) inp = Ok (s', pushed, ev) -> in_answers inp = n_ans L ->
  exists sr, is_sr (in_now inp) sr /\ pushed = [] /\ ev = [EvKeys sr; EvTx TxReply (frame_of (e_kind (c_env (n_cb L))) reply)] /\ s' = started (set_pending s sr) inp.
Proof. intros. edestruct step_reply_gen as (? & ? & ? & X & Y); [eassumption..|]. injection X as <- <- <-. exact Y. Qed.

Lemma max_time_small : (ms (l_max_time_ms (ic_limits c)) <= ms 4294967295)%Z.
Proof. destruct OK as [_ _ _ _ (_ & _ & [_ X] & _) _ _ _ _ _ _]. unfold ms. change (2 ^ 32)%N with 4294967296%N in X. lia. Qed.

(** The initiator's authentication *)
Lemma step_auth_gen r s inp i0 t0 t : exec (n_ca L) s (IProcess reply) inp = r -> ep_state s = WaitForBeginReply ->
  ep_ihs s = finalize_request_tx prim request t0 (snd (begun i0)) -> ep_remainder s = [] -> in_started inp = true ->
  (t0 <= in_now inp <= in_now2 inp)%Z -> (in_now2 inp - t0 <= n_end L)%Z -> (t + n_oa L <= in_now2 inp)%Z -> 0 < n_limit L ->
  exists s' pushed ev, r = Ok (s', pushed, ev) /\
  (exists si x i2 k, is_si t0 (in_now inp) si /\ carried (c_env (n_ca L)) si (n_oa L) 0 (t, x) [] /\ pushed = [] /\
    ev = [EvKeys si; EvTx (TxAuth []) (frame_of (e_kind (c_env (n_ca L))) x)] /\
    s' = set_state (start_timer (set_pending (started (set_pending (set_ihs (set_timer s None) i2) si) inp) (at_nonces si 1 0)) TResponse) k /\ k = WaitForAuthReply).
Proof.
  intros H Hs Hi Hr Hst Ht He Hx Hl. destruct (sessions_exist i0 (ep_pending s) new_session t0 0 (in_now inp) ltac:(lia)) as (si & _ & i2 & _ & Rd & HI).
  assert (Hsi : is_si t0 (in_now inp) si) by (exists i0, (ep_pending s), i2; exact HI). destruct (si_known _ _ _ Hsi) as (V & Kl & Tx & Rx & Mn & Mt & St).
  destruct OK as [[R _] [HP _] F _ _ _ _ _ _ He' Hl']. cbn [exec] in H. unfold process_message in H.
  assert (Hd : exists tl, reply = 1%N :: tl) by (unfold reply, wire_reply; cbn [app]; eauto). destruct Hd as [tl Hd].
  rewrite R in H. rewrite Hd in H at 1. change (function_from 1) with (Some reply_handshake_begin) in H. cbn iota in H. rewrite <- ?Hd in H. rewrite Rd in H.
  unfold on_reply_message in H. rewrite Hs in H. fold prim in H.
  assert (E1 : ep_ihs (set_timer s None) = finalize_request_tx prim request t0 (snd (begun i0))) by exact Hi. change (ep_pending (set_timer s None)) with (ep_pending s) in H.
  rewrite E1, HI in H. cbn [obind negb] in H. unfold transmit_session_auth in H.
  assert (E3 : forall a b, ep_remainder (set_pending (set_ihs (set_timer s None) a) b) = []) by (intros; exact Hr). rewrite !E3 in H.
  assert (CS : can_send (c_env (n_ca L)) si (in_now2 inp)).
  { repeat split; [exact V|exact Kl|lia| |rewrite Tx, Mn; lia]. rewrite Mt. unfold ms. destruct He' as [He' _]. lia. }
  destruct (formatted (c_env (n_ca L)) si (n_oa L) (in_now2 inp) t [] HP ltac:(lia) CS) as (x & rest & X1 & X2 & X3 & X4 & X5); [rewrite Tx; lia|constructor|exact Hx|rewrite Mt; exact max_time_small|rewrite Tx; lia|].
  destruct (X5 eq_refl) as [X6 X7]. subst rest. rewrite (format_auth_data _ _ _ _ Tx) in H by (rewrite Mn; lia). rewrite X1 in H. cbn [obind is_empty] in H. rewrite Hst in H. cbn [negb] in H.
  rewrite X6 in *. rewrite Tx in X2. subst r. do 3 eexists. split; [reflexivity|]. exists si, x, i2, WaitForAuthReply. split; [exact Hsi|]. split; [exact X2|]. split; [reflexivity|]. split; [reflexivity|]. split; [|reflexivity].
  unfold at_nonces. f_equal. f_equal. f_equal. destruct si; cbn in *; subst; reflexivity.
Qed.
Lemma step_auth s inp s' pushed ev i0 t0 t : exec (n_ca L) s (IProcess reply) inp = Ok (s', pushed, ev) -> ep_state s = WaitForBeginReply ->
  ep_ihs s = finalize_request_tx prim request t0 (snd (begun i0)) -> ep_remainder s = [] -> in_started inp = true ->
  (t0 <= in_now inp <= in_now2 inp)%Z -> (in_now2 inp - t0 <= n_end L)%Z -> (t + n_oa L <= in_now2 inp)%Z -> 0 < n_limit L ->
  exists si x i2 k, is_si t0 (in_now inp) si /\ carried (c_env (n_ca L)) si (n_oa L) 0 (t, x) [] /\ pushed = [] /\
    ev = [EvKeys si; EvTx (TxAuth []) (frame_of (e_kind (c_env (n_ca L))) x)] /\
    s' = set_state (start_timer (set_pending (started (set_pending (set_ihs (set_timer s None) i2) si) inp) (at_nonces si 1 0)) TResponse) k /\ k = WaitForAuthReply.
Proof. intros. edestruct step_auth_gen as (? & ? & ? & X & Y); [eassumption..|]. injection X as <- <- <-. exact Y. Qed.

(** ** Receiving session messages *)
(** The session [own] of one side and the session [peer] of the other; by time [ref] the former exists *)
Record faces (own peer : session) (oown opeer ref : Z) : Prop := {
  fa_valid : s_valid own = true;
  fa_key : k_rx (s_keys own) = k_tx (s_keys peer);
  fa_mode : s_crypto_mode own = s_crypto_mode peer;
  fa_nonce : p_max_nonce (s_param own) = l_max_nonce (ic_limits c);
  fa_time : p_max_time (s_param own) = ms (l_max_time_ms (ic_limits c));
  fa_start : (oown <= p_start (s_param own) <= ref + oown)%Z;
  fa_near : (p_start (s_param peer) - opeer - (p_start (s_param own) - oown) <= n_delay L)%Z }.

Lemma faces_later own peer a b r r' : faces own peer a b r -> (r <= r')%Z -> faces own peer a b r'.
Proof. intros [] ?. constructor; auto. lia. Qed.

Lemma si_faces t0 t1 t2 si sr : is_si (t0 + n_oa L) (t2 + n_oa L) si -> is_sr (t1 + n_ob L) sr -> (0 <= t0)%Z -> (t0 <= t1 <= t0 + n_delay L)%Z ->
  faces si sr (n_oa L) (n_ob L) t2.
Proof.
  intros HI HR H0 H1. destruct (sessions_match _ _ _ _ _ HI HR) as ([M1 M2 M3 M4 M5 M6] & Y1 & Y2 & Y3 & Y4 & Y5 & Y6).
  constructor; auto; try tauto; lia.
Qed.
Lemma sr_faces t0 t1 t2 si sr : is_si (t0 + n_oa L) (t2 + n_oa L) si -> is_sr (t1 + n_ob L) sr -> (0 <= t1)%Z -> (t1 <= t2 <= t1 + n_delay L)%Z ->
  faces sr si (n_ob L) (n_oa L) t1.
Proof.
  intros HI HR H0 H1. destruct (sessions_match _ _ _ _ _ HI HR) as ([M1 M2 M3 M4 M5 M6] & Y1 & Y2 & Y3 & Y4 & Y5 & Y6).
  constructor; try (symmetry; tauto); auto; try tauto; lia.
Qed.

Lemma carried_read E s off n x chunk : carried E s off n x chunk -> (N.of_nat n < 65536)%N ->
  exists m tl, session_data_read (snd x) = inl m /\ am_nonce (sd_metadata m) = N.of_nat n /\ snd x = wire_session_data m /\ session_data_ok m /\ snd x = 3%N :: tl.
Proof.
  intros (m & M1 & M2 & M3 & M) Hn. exists m, (tl (snd x)). rewrite M1 at 1. rewrite (proj2 (C10_session_data_round_trip m _ M2 (le_n _))). repeat (split; [auto|]). rewrite M1. reflexivity.
Qed.

Lemma received E E' own peer oown opeer ref n x chunk m t a b cap verify : faces own peer oown opeer ref -> carried E peer opeer n x chunk ->
  snd x = wire_session_data m -> session_data_ok m -> e_prims E = e_prims E' -> 1024 <= cap < N.to_nat 65536 ->
  (2 * n_delay L + 1000000 <= ms (e_ttl_pad_ms E))%Z -> n < n_limit L ->
  (ref <= t <= n_end L)%Z -> (t <= fst x + n_delay L)%Z -> verify b (N.of_nat n) = true ->
  validate_with E' verify (at_nonces own a b) m (t + oown) cap = Ok (inl chunk, at_nonces own a (N.of_nat n), [st_success]).
Proof.
  intros [F1 F2 F3 F4 F5 F6 F7] HC Em Hm HE Hcap Hpad Hn Ht Hd Hv.
  destruct (co_limit _ _ _ OK) as [Hl _]. destruct (co_end _ _ _ OK) as [He _].
  erewrite validated with (s := at_nonces own a b); eauto; cbn [at_nonces set_tx_nonce set_rx_nonce s_valid s_keys s_crypto_mode s_param s_rx_nonce]; auto; try lia.
  - rewrite F5. unfold ms. lia.
Qed.

Definition read_data_into (s : endpoint) (a : session) (chunk : list N) (inp : input) : endpoint :=
  set_buffer (set_active s a) (buffer_after (s_crypto_mode (ep_active s)) (inl chunk) (ep_buffer s) (in_scratch inp)).

Lemma step_data_gen r C E s inp own peer oown opeer ref n x chunk a t : exec C s (IProcess (snd x)) inp = r ->
  faces own peer oown opeer ref -> carried E peer opeer (S n) x chunk -> ep_active s = at_nonces own a (N.of_nat n) ->
  e_prims E = e_prims (c_env C) -> 1024 <= c_payload_size C < N.to_nat 65536 -> (2 * n_delay L + 1000000 <= ms (e_ttl_pad_ms E))%Z -> S n < n_limit L ->
  (ref <= t <= n_end L)%Z -> (t <= fst x + n_delay L)%Z -> in_now inp = (t + oown)%Z ->
  exists s' pushed ev, r = Ok (s', pushed, ev) /\
  (exists m, pushed = [INonceChange; IUpRxReady] /\ ev = [EvDataOk (at_nonces own a (N.of_nat (S n))) m chunk] /\ chunk <> [] /\
    s' = set_payload (read_data_into s (at_nonces own a (N.of_nat (S n))) chunk inp) (payload_slice (s_crypto_mode own) (ep_generation s) chunk)).
Proof.
  intros H HF HC Ha HE Hb Hpad Hn Ht Hd Hnow. destruct (co_limit _ _ _ OK) as [Hl _]. destruct (co_sides _ _ _ OK) as (_ & _ & [Hmn _] & _). change (2 ^ 16)%N with 65536%N in Hmn.
  destruct (carried_read _ _ _ _ _ _ HC ltac:(lia)) as (m & tl & R1 & R2 & R3 & R4 & R5).
  assert (Hne : chunk <> []) by (destruct HC as (? & ? & ? & ? & ? & ? & ? & ? & X); apply X; lia).
  assert (X : on_session_data C s m inp = r).
  { cbn [exec] in H. unfold process_message in H. rewrite R1, R2 in H. replace (N.of_nat (S n) =? 0)%N with false in H by (symmetry; apply N.eqb_neq; lia).
    rewrite R5 in H. change (function_from 3) with (Some session_data) in H. destruct (c_role C); exact H. }
  unfold on_session_data in X. rewrite Ha, Hnow in X. unfold validate_session_data in X.
  rewrite (received E (c_env C) own peer oown opeer ref (S n) x chunk m t a (N.of_nat n)) in X; auto; [|apply verify_next; lia].
  cbn [obind] in X. destruct chunk as [|b chunk]; [congruence|]. cbn [length Nat.eqb obind] in X. clear H. subst r. do 3 eexists. split; [reflexivity|]. exists m.
  unfold read_data_into. rewrite Ha. auto.
Qed.
Lemma step_data C E s inp s' pushed ev own peer oown opeer ref n x chunk a t : exec C s (IProcess (snd x)) inp = Ok (s', pushed, ev) ->
  faces own peer oown opeer ref -> carried E peer opeer (S n) x chunk -> ep_active s = at_nonces own a (N.of_nat n) ->
  e_prims E = e_prims (c_env C) -> 1024 <= c_payload_size C < N.to_nat 65536 -> (2 * n_delay L + 1000000 <= ms (e_ttl_pad_ms E))%Z -> S n < n_limit L ->
  (ref <= t <= n_end L)%Z -> (t <= fst x + n_delay L)%Z -> in_now inp = (t + oown)%Z ->
  exists m, pushed = [INonceChange; IUpRxReady] /\ ev = [EvDataOk (at_nonces own a (N.of_nat (S n))) m chunk] /\ chunk <> [] /\
    s' = set_payload (read_data_into s (at_nonces own a (N.of_nat (S n))) chunk inp) (payload_slice (s_crypto_mode own) (ep_generation s) chunk).
Proof. intros. edestruct step_data_gen as (? & ? & ? & X & Y); [eassumption..|]. injection X as <- <- <-. exact Y. Qed.

(** The initiator receives the authentication of the responder *)
Lemma step_open_a_gen r s inp t0 t1 t2 t si sr x : exec (n_ca L) s (IProcess (snd x)) inp = r ->
  is_si (t0 + n_oa L) (t2 + n_oa L) si -> is_sr (t1 + n_ob L) sr -> (0 <= t0)%Z -> (t0 <= t1 <= t0 + n_delay L)%Z -> carried (c_env (n_cb L)) sr (n_ob L) 0 x [] ->
  ep_state s = WaitForAuthReply -> ep_pending s = at_nonces si 1 0 -> 0 < n_limit L -> (t2 <= t <= n_end L)%Z -> (t <= fst x + n_delay L)%Z -> in_now inp = (t + n_oa L)%Z ->
  exists s' pushed ev, r = Ok (s', pushed, ev) /\
  (exists m, pushed = [IUpOpen; IAuthPayload None; ISetState Idle] /\ ev = [EvAuthOk (at_nonces si 1 0) m []] /\
    s' = start_session_timer (set_required (activate (set_buffer (set_pending (set_timer s None) (at_nonces si 1 0)) (buffer_after (s_crypto_mode si) (inl []) (ep_buffer s) (in_scratch inp)))) false)).
Proof.
  intros H HI HR H0 H1 HC Hs Hp Hl Ht Hd Hnow. pose proof (si_faces _ _ _ _ _ HI HR H0 H1) as HF.
  destruct OK as [[R _] [_ HE] _ [Hb _] _ _ _ _ [_ [_ Hpad]] _ _].
  destruct (carried_read _ _ _ _ _ _ HC ltac:(lia)) as (m & tl & R1 & R2 & R3 & R4 & R5).
  cbn [exec] in H. unfold process_message in H. rewrite R1, R2 in H. cbn [N.of_nat N.eqb] in H. rewrite R5, R in H. change (function_from 3) with (Some session_data) in H. cbn iota in H.
  unfold on_auth_message in H. rewrite Hs in H. assert (E2 : ep_pending (set_timer s None) = at_nonces si 1 0) by exact Hp. rewrite E2, Hnow in H. unfold validate_session_auth in H.
  change (N.of_nat 0) with 0%N in *. rewrite (received (c_env (n_cb L)) (c_env (n_ca L)) si sr (n_oa L) (n_ob L) t2 0 x [] m t 1 0) in H; auto.
  cbn [obind payload_slice] in H. subst r. do 3 eexists. split; [reflexivity|]. exists m. auto.
Qed.
Lemma step_open_a s inp s' pushed ev t0 t1 t2 t si sr x : exec (n_ca L) s (IProcess (snd x)) inp = Ok (s', pushed, ev) ->
  is_si (t0 + n_oa L) (t2 + n_oa L) si -> is_sr (t1 + n_ob L) sr -> (0 <= t0)%Z -> (t0 <= t1 <= t0 + n_delay L)%Z -> carried (c_env (n_cb L)) sr (n_ob L) 0 x [] ->
  ep_state s = WaitForAuthReply -> ep_pending s = at_nonces si 1 0 -> 0 < n_limit L -> (t2 <= t <= n_end L)%Z -> (t <= fst x + n_delay L)%Z -> in_now inp = (t + n_oa L)%Z ->
  exists m, pushed = [IUpOpen; IAuthPayload None; ISetState Idle] /\ ev = [EvAuthOk (at_nonces si 1 0) m []] /\
    s' = start_session_timer (set_required (activate (set_buffer (set_pending (set_timer s None) (at_nonces si 1 0)) (buffer_after (s_crypto_mode si) (inl []) (ep_buffer s) (in_scratch inp)))) false).
Proof. intros. edestruct step_open_a_gen as (? & ? & ? & X & Y); [eassumption..|]. injection X as <- <- <-. exact Y. Qed.

(** The responder receives the authentication of the initiator and answers *)
Lemma step_open_b_gen r s inp t0 t1 t2 t te si sr x : exec (n_cb L) s (IProcess (snd x)) inp = r ->
  is_si (t0 + n_oa L) (t2 + n_oa L) si -> is_sr (t1 + n_ob L) sr -> (0 <= t1)%Z -> (t1 <= t2 <= t1 + n_delay L)%Z -> carried (c_env (n_ca L)) si (n_oa L) 0 x [] ->
  ep_pending s = sr -> ep_remainder s = [] -> in_started inp = true -> 0 < n_limit L -> (t1 <= t <= te)%Z -> (te <= n_end L)%Z -> (t <= fst x + n_delay L)%Z ->
  in_now inp = (t + n_ob L)%Z -> in_now2 inp = (te + n_ob L)%Z ->
  exists s' pushed ev, r = Ok (s', pushed, ev) /\
  (exists m y, carried (c_env (n_cb L)) sr (n_ob L) 0 (t, y) [] /\ pushed = [IUpOpen; IAuthPayload None] /\
    ev = [EvAuthOk sr m []; EvTx (TxAuth []) (frame_of (e_kind (c_env (n_cb L))) y)] /\
    s' = set_active (started (activate (set_buffer (set_pending s sr) (buffer_after (s_crypto_mode sr) (inl []) (ep_buffer s) (in_scratch inp)))) inp) (at_nonces sr 1 0)).
Proof.
  intros H HI HR H0 H1 HC Hp Hr Hst Hl Ht He Hd Hnow Hnow2. pose proof (sr_faces _ _ _ _ _ HI HR H0 H1) as HF. destruct (sr_known _ _ HR) as (V & Kl & Tx & Rx & Mn & Mt & St).
  assert (Esr : at_nonces sr 0 0 = sr) by (unfold at_nonces; destruct sr; cbn in *; subst; reflexivity).
  pose proof max_time_small as Hms. destruct OK as [[_ R] [HP HE] [_ Hf] [_ Hb] _ _ _ _ [_ [Hpad _]] [_ He'] [Hl' _]].
  destruct (carried_read _ _ _ _ _ _ HC ltac:(lia)) as (m & tl & R1 & R2 & R3 & R4 & R5).
  cbn [exec] in H. unfold process_message in H. rewrite R1, R2 in H. cbn [N.of_nat N.eqb] in H. rewrite R5, R in H. change (function_from 3) with (Some session_data) in H. cbn iota in H.
  unfold on_auth_session in H. rewrite Hp, V in H. cbn [negb] in H. rewrite Hnow in H. unfold validate_session_auth in H.
  change (N.of_nat 0) with 0%N in *. pose proof (received (c_env (n_ca L)) (c_env (n_cb L)) sr si (n_ob L) (n_oa L) t1 0 x [] m t 0 0 (c_payload_size (n_cb L)) equal_to_zero HF HC R3 R4 (eq_sym HE) Hb Hpad Hl ltac:(lia) Hd eq_refl) as Rv.
  change (N.of_nat 0) with 0%N in Rv. rewrite Esr in Rv. rewrite Rv in H. cbn [obind] in H.
  set (s2 := activate (set_buffer (set_pending s sr) (buffer_after (s_crypto_mode sr) (inl []) (ep_buffer s) (in_scratch inp)))) in *.
  assert (E3 : ep_remainder s2 = []) by exact Hr. assert (E4 : ep_active s2 = sr) by reflexivity. rewrite E4 in H. unfold transmit_session_auth in H. rewrite E3, Hnow2 in H.
  assert (CS : can_send (c_env (n_cb L)) sr (te + n_ob L)).
  { repeat split; [exact V|exact Kl|lia| |rewrite Tx, Mn; lia]. rewrite Mt. unfold ms. lia. }
  destruct (formatted (c_env (n_cb L)) sr (n_ob L) (te + n_ob L) t []) as (y & rest & X1 & X2 & X3 & X4 & X5); auto; [rewrite HE; exact HP|lia|rewrite Tx; lia|constructor|lia|rewrite Mt; exact Hms|rewrite Tx; lia|].
  destruct (X5 eq_refl) as [X6 X7]. subst rest. rewrite (format_auth_data _ _ _ _ Tx) in H by (rewrite Mn; lia). rewrite X1 in H. cbn [obind is_empty payload_slice] in H. rewrite Hst in H. cbn [negb app] in H.
  rewrite X6 in *. rewrite Tx in X2. subst r. do 3 eexists. split; [reflexivity|]. exists m, y. split; [exact X2|]. split; [reflexivity|]. split; [reflexivity|].
  rewrite Tx. f_equal. clear - Rx. unfold at_nonces. destruct sr; cbn in *; subst; reflexivity.
Qed.
Lemma step_open_b s inp s' pushed ev t0 t1 t2 t te si sr x : exec (n_cb L) s (IProcess (snd x)) inp = Ok (s', pushed, ev) ->
  is_si (t0 + n_oa L) (t2 + n_oa L) si -> is_sr (t1 + n_ob L) sr -> (0 <= t1)%Z -> (t1 <= t2 <= t1 + n_delay L)%Z -> carried (c_env (n_ca L)) si (n_oa L) 0 x [] ->
  ep_pending s = sr -> ep_remainder s = [] -> in_started inp = true -> 0 < n_limit L -> (t1 <= t <= te)%Z -> (te <= n_end L)%Z -> (t <= fst x + n_delay L)%Z ->
  in_now inp = (t + n_ob L)%Z -> in_now2 inp = (te + n_ob L)%Z ->
  exists m y, carried (c_env (n_cb L)) sr (n_ob L) 0 (t, y) [] /\ pushed = [IUpOpen; IAuthPayload None] /\
    ev = [EvAuthOk sr m []; EvTx (TxAuth []) (frame_of (e_kind (c_env (n_cb L))) y)] /\
    s' = set_active (started (activate (set_buffer (set_pending s sr) (buffer_after (s_crypto_mode sr) (inl []) (ep_buffer s) (in_scratch inp)))) inp) (at_nonces sr 1 0).
Proof. intros. edestruct step_open_b_gen as (? & ? & ? & X & Y); [eassumption..|]. injection X as <- <- <-. exact Y. Qed.

(** An established side sends data *)
Lemma step_send_gen r C s inp own off a b t : exec C s ICheckTransmit inp = r ->
  prims_ok (e_prims (c_env C)) -> (1051 <= e_max_payload (c_env C))%N -> s_valid own = true -> length (k_tx (s_keys own)) = 32 ->
  p_max_nonce (s_param own) = l_max_nonce (ic_limits c) -> p_max_time (s_param own) = ms (l_max_time_ms (ic_limits c)) -> (off <= p_start (s_param own) <= t + off)%Z ->
  (t <= n_end L)%Z -> (n_end L + ms (e_ttl_pad_ms (c_env C)) <= ms (l_max_time_ms (ic_limits c)))%Z -> in_now inp = (t + off)%Z ->
  ep_active s = at_nonces own (N.of_nat (S a)) b -> S a < n_limit L -> bytes_ok (ep_remainder s) -> in_ready inp = true -> ep_transmitting s = false -> ep_remainder s <> [] ->
  exists s' pushed ev, r = Ok (s', pushed, ev) /\
  (exists y rest, carried (c_env C) own off (S a) (t, y) (Endpoint.taken (ep_remainder s) rest) /\ pushed = [INonceChange] /\
    ev = [EvQuery true; EvTx (TxData (Endpoint.taken (ep_remainder s) rest)) (frame_of (e_kind (c_env C)) y)] /\
    ep_remainder s = Endpoint.taken (ep_remainder s) rest ++ rest /\ bytes_ok rest /\
    s' = started (begin_transmit (set_active (asked s inp) (at_nonces own (N.of_nat (S (S a))) b)) rest) inp).
Proof.
  intros H HP Hf V Kl Mn Mt St He He' Hnow Ha Hl Hr Hrd Htr Hne. pose proof max_time_small as Hms. destruct (co_limit _ _ _ OK) as [Hl' _].
  destruct (co_sides _ _ _ OK) as (_ & _ & [Hmn _] & _). change (2 ^ 16)%N with 65536%N in Hmn.
  cbn [exec] in H. unfold check_transmit in H. rewrite Ha in H. change (s_valid (at_nonces own (N.of_nat (S a)) b)) with (s_valid own) in H. rewrite V in H. cbn [negb] in H.
  unfold tx_ready in H. change (ep_transmitting (asked s inp)) with (ep_transmitting s) in H. change (ep_remainder (asked s inp)) with (ep_remainder s) in H. change (ep_active (asked s inp)) with (ep_active s) in H.
  rewrite Htr, Hrd, Ha, Hnow in H. destruct (ep_remainder s) as [|r0 rs] eqn:Er; [congruence|]. cbn [is_empty negb andb] in H. rewrite <- Er in *.
  assert (CS : can_send (c_env C) (at_nonces own (N.of_nat (S a)) b) (t + off)).
  { unfold can_send. cbn [at_nonces set_tx_nonce set_rx_nonce s_valid s_keys s_param s_tx_nonce]. repeat split; auto; [lia| |rewrite Mn; lia]. rewrite Mt. lia. }
  destruct (formatted (c_env C) (at_nonces own (N.of_nat (S a)) b) off (t + off) t (ep_remainder s)) as (y & rest & X1 & X2 & X3 & X4 & _); auto; try lia.
  - cbn. lia.
  - cbn [at_nonces set_tx_nonce s_param set_rx_nonce]. rewrite Mt. exact Hms.
  - rewrite X1 in H. cbn [obind] in H. subst r. do 3 eexists. split; [reflexivity|]. exists y, rest.
    cbn [at_nonces set_tx_nonce s_tx_nonce] in X2. replace (N.to_nat (N.of_nat (S a))) with (S a) in X2 by lia.
    split; [|split; [reflexivity|split; [reflexivity|split; [exact X4|split; [exact X3|]]]]].
    + exact X2.
    + assert (En : nonce_increment (N.of_nat (S a)) = N.of_nat (S (S a))).
      { unfold nonce_increment, u16, trunc. rewrite N.mod_small; change (2 ^ 16)%N with 65536%N; lia. }
      rewrite <- En. reflexivity.
Qed.
Lemma step_send C s inp s' pushed ev own off a b t : exec C s ICheckTransmit inp = Ok (s', pushed, ev) ->
  prims_ok (e_prims (c_env C)) -> (1051 <= e_max_payload (c_env C))%N -> s_valid own = true -> length (k_tx (s_keys own)) = 32 ->
  p_max_nonce (s_param own) = l_max_nonce (ic_limits c) -> p_max_time (s_param own) = ms (l_max_time_ms (ic_limits c)) -> (off <= p_start (s_param own) <= t + off)%Z ->
  (t <= n_end L)%Z -> (n_end L + ms (e_ttl_pad_ms (c_env C)) <= ms (l_max_time_ms (ic_limits c)))%Z -> in_now inp = (t + off)%Z ->
  ep_active s = at_nonces own (N.of_nat (S a)) b -> S a < n_limit L -> bytes_ok (ep_remainder s) -> in_ready inp = true -> ep_transmitting s = false -> ep_remainder s <> [] ->
  exists y rest, carried (c_env C) own off (S a) (t, y) (Endpoint.taken (ep_remainder s) rest) /\ pushed = [INonceChange] /\
    ev = [EvQuery true; EvTx (TxData (Endpoint.taken (ep_remainder s) rest)) (frame_of (e_kind (c_env C)) y)] /\
    ep_remainder s = Endpoint.taken (ep_remainder s) rest ++ rest /\ bytes_ok rest /\
    s' = started (begin_transmit (set_active (asked s inp) (at_nonces own (N.of_nat (S (S a))) b)) rest) inp.
Proof. intros. edestruct step_send_gen as (? & ? & ? & X & Y); [eassumption..|]. injection X as <- <- <-. exact Y. Qed.
End handshake.
