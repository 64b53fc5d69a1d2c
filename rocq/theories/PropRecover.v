(** * C50: after any history, a new connection works like the first one *)
From Verif Require Import Base BaseFacts Codec CodecSpec CodecFacts Link LinkLayer Primitives Session SessionSpec SessionFacts SessionMain
  Handshake HandshakeSpec HandshakeFacts HandshakeMain HandshakePair PropHandshake Endpoint EndpointSpec EndpointFacts EndpointMain EndpointRx EndpointRuns
  PropEndpoint PairSpec Line LineSpec LineFacts LineLive LineRuns PropLine RecoverSpec RecoverFacts.

(** Two endpoints that are configured for each other, whatever happened to either of them before, whose
    connections were closed, are connected by a reliable line.  Whatever happens over the new
    connection, each application reads a beginning of what the other one gave to its endpoint over the
    new connection: nothing of the past reappears. *)
Theorem C50_prefix_partial : forall L c h sa sb x, compatible L c h -> disconnected (n_ca L) sa -> disconnected (n_cb L) sb -> drained (n_ca L) sa -> drained (n_cb L) sb ->
  reachable_from L (start_line sa sb) x ->
  (exists r, got (l_b x) ++ r = given (l_a x)) /\ (exists r, got (l_a x) ++ r = given (l_b x)).
Proof. intros L c h sa sb x OK HA HB DA DB H. exact (line_prefix L c h x (recovered L c h OK sa sb x HA HB DA DB H)). Qed.
Print Assumptions C50_prefix_partial.

(** When there is nothing left to do, both applications know that the layer is open again, and each has
    read exactly what the other one has given to its endpoint over the new connection. *)
Theorem C50_all_delivered_partial : forall L c h sa sb x, compatible L c h -> disconnected (n_ca L) sa -> disconnected (n_cb L) sb -> drained (n_ca L) sa -> drained (n_cb L) sb ->
  reachable_from L (start_line sa sb) x -> at_rest (l_a x) -> at_rest (l_b x) ->
  (given (l_a x) = got (l_b x) /\ given (l_b x) = got (l_a x)) /\ told_open (l_a x) /\ told_open (l_b x).
Proof. intros L c h sa sb x OK HA HB DA DB H. exact (line_delivered L c h x (recovered L c h OK sa sb x HA HB DA DB H)). Qed.
Print Assumptions C50_all_delivered_partial.

(** No step gets stuck. *)
Theorem C50_never_stuck_partial : forall L c h sa sb x, compatible L c h -> disconnected (n_ca L) sa -> disconnected (n_cb L) sb -> drained (n_ca L) sa -> drained (n_cb L) sb ->
  reachable_from L (start_line sa sb) x ->
  (forall s i rest inp t1 t2, d_conf (l_a x) = (s, i :: rest) -> (l_now x <= t1 <= t2)%Z -> (t2 <= n_end L)%Z -> room L (l_a x) ->
    answers_step L (n_oa L) (d_out (l_b x)) (l_a x) i inp t1 t2 ->
    exists s' pushed ev ms, exec (n_ca L) s i inp = Ok (s', pushed, ev) /\ Forall2 (fun f m => f = frame_of (e_kind (c_env (n_ca L))) m) (frames ev) ms /\ length (d_out (l_a x)) + length ms <= n_limit L) /\
  (forall s i rest inp t1 t2, d_conf (l_b x) = (s, i :: rest) -> (l_now x <= t1 <= t2)%Z -> (t2 <= n_end L)%Z -> room L (l_b x) ->
    answers_step L (n_ob L) (d_out (l_a x)) (l_b x) i inp t1 t2 ->
    exists s' pushed ev ms, exec (n_cb L) s i inp = Ok (s', pushed, ev) /\ Forall2 (fun f m => f = frame_of (e_kind (c_env (n_cb L))) m) (frames ev) ms /\ length (d_out (l_b x)) + length ms <= n_limit L).
Proof. intros L c h sa sb x OK HA HB DA DB H. exact (line_never_stuck L c h OK x (recovered L c h OK sa sb x HA HB DA DB H)). Qed.
Print Assumptions C50_never_stuck_partial.

(** A new session is established and everything is delivered, whatever the interleaving of the steps
    that remain, unless they take so long that a message gets too old. *)
Theorem C50_inevitable_partial : forall L c h sa sb x deadline, compatible L c h -> disconnected (n_ca L) sa -> disconnected (n_cb L) sb -> drained (n_ca L) sa -> drained (n_cb L) sb ->
  reachable_from L (start_line sa sb) x -> room L (l_a x) -> room L (l_b x) -> in_time L deadline x ->
  inevitable L (fun y => (deadline < l_now y)%Z \/ all_delivered y) x.
Proof. intros L c h sa sb x deadline OK HA HB DA DB H. exact (line_inevitable L c h OK deadline x (recovered L c h OK sa sb x HA HB DA DB H)). Qed.
Print Assumptions C50_inevitable_partial.

(** ** The hypotheses hold *)
Definition rx_net (via : bool) (c : SessionCryptoMode) : net :=
  {| n_ca := dr_i c 900 via; n_cb := dr_r via; n_ia := dr_ia; n_ans := dr_ans; n_oa := 1000000; n_ob := 77; n_delay := 4000000000; n_limit := 900; n_end := 50000000000 |}.
Lemma rx_compatible via c : compatible (rx_net via c) {| ic_handshake := ISharedSecret (dr_suite c) (repeat 7%N 32); ic_limits := dr_limits; ic_nonce_trigger := 900 |} (RSharedSecret (repeat 7%N 32)).
Proof.
  constructor; unfold rx_net; cbn [n_ca n_cb n_ia n_ans n_oa n_ob n_delay n_limit n_end c_env c_role c_payload_size c_supports ic_handshake ic_limits ic_nonce_trigger dr_i dr_r].
  - split; reflexivity.
  - split; [exact toy_ok|reflexivity].
  - cbn; lia.
  - split; (split; [apply Nat.leb_le; vm_compute; reflexivity|lia]).
  - repeat split; auto; try (apply all_bytes_ok; vm_compute; reflexivity); try (cbn; lia).
  - split; [constructor|exact I].
  - split; [|split; reflexivity]. destruct c; reflexivity.
  - split.
    + intros me md i X.
      assert (Y : exists me md i1, initialize_new_handshake toy (ISharedSecret (dr_suite c) (repeat 7%N 32)) dr_ia new_ihs = (Some (me, md), i1) /\ fits dr_env (length (wire_request (Handshake.make_request (ISharedSecret (dr_suite c) (repeat 7%N 32)) dr_limits me md)))).
      { clear X. destruct c; do 3 eexists; (split; [reflexivity|]); vm_compute; discriminate. }
      destruct Y as (me' & md' & i' & Y & F). change (e_prims dr_env) with toy in X. rewrite Y in X. injection X as <- <- _. exact F.
    + vm_compute; discriminate.
  - cbn; lia.
  - cbn; lia.
  - cbn; lia.
Qed.

(** The initiator had a session; it has read one payload and not asked for more, and is transmitting
    when the connection is closed.  The application of the responder has read what it got and not asked for
    more when its connection is closed. *)
Definition past_i (c : SessionCryptoMode) : list happening :=
  ex_initiator c ++ [happen (Enter (StartTx [8; 8; 8]%N)) 8; happen (Enter LowerClose) 9].
Definition past_r (c : SessionCryptoMode) : list happening :=
  [happen (Enter LowerOpen) 1; arrive (dr_request c) 2; happen (Enter LowerTxReady) 2;
   arrive (dr_message (dr_session_i c) 0 []) 4; happen (Enter LowerTxReady) 4;
   arrive (dr_message (dr_session_i c) 1 [1; 2; 3]%N) 5; happen (Enter StartRx) 5; happen (Enter LowerTxReady) 5;
   happen (Enter LowerClose) 9].
Definition past_state (C : econf) (hs : list happening) : endpoint :=
  match run C (new_endpoint C, []) (ex_run C hs) with Ok (k, _) => fst k | _ => new_endpoint C end.
Definition past_check (C : econf) (hs : list happening) (f : endpoint -> list event -> bool) : bool :=
  alongb (fun k l => calmb k l && lower_okb k l) C (new_endpoint C, []) (ex_run C hs) &&
  match run C (new_endpoint C, []) (ex_run C hs) with Ok (k, t) => quiescentb k && negb (ep_open (fst k)) && f (fst k) t | _ => false end.
Lemma past_ok C hs f : past_check C hs f = true ->
  disconnected C (past_state C hs) /\ exists t, run C (new_endpoint C, []) (ex_run C hs) = Ok ((past_state C hs, []), t) /\ f (past_state C hs) t = true.
Proof.
  unfold past_check, past_state. intros H. apply andb_prop in H as [H1 H2]. destruct (run C (new_endpoint C, []) (ex_run C hs)) as [[[s k] t]| |] eqn:E; try discriminate.
  apply andb_prop in H2 as [H2 H4]. apply andb_prop in H2 as [H2 H3]. apply quiescentb_ok in H2. unfold quiescent in H2. cbn [fst snd] in *. subst k.
  split; [|exists t; auto]. split; [|apply Bool.negb_true_iff, H3]. exists (ex_run C hs), t. split; [|exact E].
  revert H1. apply alongb_ok. intros k l X. apply andb_prop in X as [X Y]. split; [apply calmb_ok, X|apply lower_okb_ok, Y].
Qed.
Definition opened_once (t : list event) : bool := existsb is_up_open t.
Lemma past_i_ok c : disconnected (dr_i c 900 false) (past_state (dr_i c 900 false) (past_i c)) /\
  exists t, run (dr_i c 900 false) (new_endpoint (dr_i c 900 false), []) (ex_run (dr_i c 900 false) (past_i c)) = Ok ((past_state (dr_i c 900 false) (past_i c), []), t) /\ opened_once t = true.
Proof. apply (past_ok _ _ (fun _ t => opened_once t)). destruct c; vm_compute; reflexivity. Qed.
Lemma past_r_ok via c : disconnected (dr_r via) (past_state (dr_r via) (past_r c)) /\
  exists t, run (dr_r via) (new_endpoint (dr_r via), []) (ex_run (dr_r via) (past_r c)) = Ok ((past_state (dr_r via) (past_r c), []), t) /\ opened_once t = true.
Proof. apply (past_ok _ _ (fun _ t => opened_once t)). destruct via, c; vm_compute; reflexivity. Qed.

(** Both theorems apply to them: the new session is established in any case ... *)
Definition rx_start (c : SessionCryptoMode) : line := start_line (past_state (dr_i c 900 false) (past_i c)) (past_state (dr_r false) (past_r c)).
Example C50_inevitable_instance : forall c, inevitable (rx_net false c) (fun y => (4000000000 < l_now y)%Z \/ all_delivered y) (rx_start c).
Proof.
  intros c. eapply C50_inevitable_partial; [apply rx_compatible|apply past_i_ok|apply past_r_ok|intros X; discriminate X|intros X; discriminate X|constructor|apply Nat.leb_le; vm_compute; reflexivity|apply Nat.leb_le; vm_compute; reflexivity|].
  split; [cbn; lia|]. split; [cbn; lia|]. split; constructor.
Qed.
(** ... and the data that is offered then arrives. *)
Definition rx_run (via : bool) (c : SessionCryptoMode) (x0 : line) : line :=
  let x := settle (rx_net via c) 200 x0 in
  let x := settle (rx_net via c) 200 (then_act (rx_net via c) x true (ACall (StartTx ([1; 2; 3; 4; 5]%N)))) in
  settle (rx_net via c) 200 (then_act (rx_net via c) x false (ACall (StartTx [2; 3]%N))).
Lemma rx_reachable via c x0 : reachable_from (rx_net via c) x0 (rx_run via c x0).
Proof. unfold rx_run. repeat first [apply settle_ok; [reflexivity|reflexivity|]|apply then_ok; [reflexivity|reflexivity|]]. constructor. Qed.
Example C50_instance : forall c, reachable_from (rx_net false c) (rx_start c) (rx_run false c (rx_start c)) /\
  at_rest (l_a (rx_run false c (rx_start c))) /\ at_rest (l_b (rx_run false c (rx_start c))) /\
  given (l_a (rx_run false c (rx_start c))) = [1; 2; 3; 4; 5]%N /\ got (l_a (rx_run false c (rx_start c))) = [2; 3]%N /\ length (d_out (l_a (rx_run false c (rx_start c)))) = 3.
Proof.
  intros c. split; [apply rx_reachable|].
  assert (X : lx_check (rx_run false c (rx_start c)) = true) by (destruct c; vm_compute; reflexivity).
  exact (lx_check_ok _ X).
Qed.

(** An application that reads through the stack object and did not ask for more before the connection was
    closed: the first data of the new connection is lost. *)
Definition lost_check (x : line) : bool :=
  resting (l_a x) && resting (l_b x) && bytes_eqb (given (l_a x)) [1; 2; 3; 4; 5]%N && bytes_eqb (got (l_b x)) [].
Theorem C50_stack_flag_refuted : exists L c h sa sb x, compatible L c h /\ disconnected (n_ca L) sa /\ disconnected (n_cb L) sb /\
  reachable_from L (start_line sa sb) x /\ at_rest (l_a x) /\ at_rest (l_b x) /\ given (l_a x) = [1; 2; 3; 4; 5]%N /\ got (l_b x) = [].
Proof.
  pose (L := rx_net true hmac_sha256_16). pose (sa := new_endpoint (n_ca L)). pose (sb := past_state (n_cb L) (past_r hmac_sha256_16)).
  exists L. do 2 eexists. exists sa, sb, (rx_run true hmac_sha256_16 (start_line sa sb)).
  split; [apply rx_compatible|]. split; [split; [exists [], []; split; [exact I|reflexivity]|reflexivity]|]. split; [apply (past_r_ok true)|]. split; [apply rx_reachable|].
  assert (X : lost_check (rx_run true hmac_sha256_16 (start_line sa sb)) = true) by (vm_compute; reflexivity).
  unfold lost_check in X. apply andb_prop in X as [X X4]. apply andb_prop in X as [X X3]. apply andb_prop in X as [X1 X2].
  split; [apply resting_ok, X1|]. split; [apply resting_ok, X2|]. split; [apply bytes_eqb_eq, X3|apply bytes_eqb_eq, X4].
Qed.
Print Assumptions C50_stack_flag_refuted.
