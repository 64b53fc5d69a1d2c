(** * C48: what two endpoints over a reliable line do for the applications *)
From Verif Require Import Base BaseFacts Codec CodecSpec CodecFacts Link LinkLayer Primitives Session SessionSpec SessionFacts SessionMain
  Handshake HandshakeSpec HandshakeFacts HandshakeMain HandshakePair PropHandshake Endpoint EndpointSpec PairSpec Line LineSpec LineFacts LineLive LineRuns.

(** In every state two endpoints that are configured for each other can get into over a line that
    neither loses nor changes nor reorders messages, with any interleaving of the steps of the two
    sides, any calls of the two applications at any time and inside any notification, and any delays
    up to the limit: what an application has read is the beginning of what the other one gave to its
    endpoint, byte for byte. *)
Theorem C48_prefix : forall L c h x, compatible L c h -> reachable L x ->
  (exists r, got (l_b x) ++ r = given (l_a x)) /\ (exists r, got (l_a x) ++ r = given (l_b x)).
Proof. intros L c h x OK H. exact (line_prefix L c h x (line_invariant L c h OK x H)). Qed.
Print Assumptions C48_prefix.

(** When there is nothing left to do for either side, both applications know that the layer is open,
    and each of them has read exactly what the other one has given to its endpoint. *)
Theorem C48_all_delivered : forall L c h x, compatible L c h -> reachable L x -> at_rest (l_a x) -> at_rest (l_b x) ->
  (given (l_a x) = got (l_b x) /\ given (l_b x) = got (l_a x)) /\ told_open (l_a x) /\ told_open (l_b x).
Proof. intros L c h x OK H. exact (line_delivered L c h x (line_invariant L c h OK x H)). Qed.
Print Assumptions C48_all_delivered.

(** Whatever the environment answers, no step of either side gets stuck: the code has no undefined
    behaviour and what it sends is a frame with a message, as long as the session has room for the data. *)
Theorem C48_never_stuck : forall L c h x, compatible L c h -> reachable L x ->
  (forall s i rest inp t1 t2, d_conf (l_a x) = (s, i :: rest) -> (l_now x <= t1 <= t2)%Z -> (t2 <= n_end L)%Z -> room L (l_a x) ->
    answers_step L (n_oa L) (d_out (l_b x)) (l_a x) i inp t1 t2 ->
    exists s' pushed ev ms, exec (n_ca L) s i inp = Ok (s', pushed, ev) /\ Forall2 (fun f m => f = frame_of (e_kind (c_env (n_ca L))) m) (frames ev) ms /\ length (d_out (l_a x)) + length ms <= n_limit L) /\ (forall s i rest inp t1 t2, d_conf (l_b x) = (s, i :: rest) -> (l_now x <= t1 <= t2)%Z -> (t2 <= n_end L)%Z -> room L (l_b x) ->
    answers_step L (n_ob L) (d_out (l_a x)) (l_b x) i inp t1 t2 ->
    exists s' pushed ev ms, exec (n_cb L) s i inp = Ok (s', pushed, ev) /\ Forall2 (fun f m => f = frame_of (e_kind (c_env (n_cb L))) m) (frames ev) ms /\ length (d_out (l_b x)) + length ms <= n_limit L).
Proof. intros L c h x OK H. exact (line_never_stuck L c h OK x (line_invariant L c h OK x H)). Qed.
Print Assumptions C48_never_stuck.

(** Everything the applications have given to their endpoints is delivered, whatever the interleaving
    of the steps that remain: from every reachable state, whichever steps of the endpoints and of the
    lower layers are made, and even if the applications read at other times as well, some step can be
    made until everything is delivered and both applications know that the layer is open, and after
    finitely many steps that is the case, unless the steps take so long that a message gets too old. *)
Theorem C48_inevitable : forall L c h x deadline, compatible L c h -> reachable L x -> room L (l_a x) -> room L (l_b x) -> in_time L deadline x ->
  inevitable L (fun y => (deadline < l_now y)%Z \/ all_delivered y) x.
Proof. intros L c h x deadline OK H. exact (line_inevitable L c h OK deadline x (line_invariant L c h OK x H)). Qed.
Print Assumptions C48_inevitable.

(** The hypotheses hold for all four kinds of configuration (shared secret, quantum key, preshared
    public keys, certificates), with a delay of up to 4 seconds. *)
Definition lx_net (ka kb : frame_kind) (n : nat) : net :=
  {| n_ca := {| c_env := hx_E ka; c_supports := sodium_supports; c_role := Initiator {| ic_handshake := hx_hi n; ic_limits := hx_limits; ic_nonce_trigger := 900 |}; c_payload_size := 1024; c_via_stack := true |};
     n_cb := {| c_env := hx_E kb; c_supports := sodium_supports; c_role := Responder (hx_hr n); c_payload_size := 1024; c_via_stack := true |};
     n_ia := hx_ia; n_ans := hx_ans; n_oa := 1000000; n_ob := 77; n_delay := 4000000000; n_limit := 900; n_end := 50000000000 |}.
Lemma lx_compatible ka kb n : n < 4 -> compatible (lx_net ka kb n) {| ic_handshake := hx_hi n; ic_limits := hx_limits; ic_nonce_trigger := 900 |} (hx_hr n).
Proof.
  intros Hn. constructor; unfold lx_net; cbn [n_ca n_cb n_ia n_ans n_oa n_ob n_delay n_limit n_end c_env c_role c_payload_size c_supports ic_handshake ic_limits ic_nonce_trigger].
  - split; reflexivity.
  - split; [exact toy_ok|reflexivity].
  - cbn; lia.
  - split; (split; [apply Nat.leb_le; vm_compute; reflexivity|lia]).
  - repeat split; auto using hx_hi_ok, hx_hr_ok, hx_limits_ok; try apply hx_limits_ok; try apply hx_ia_ok; apply hx_ans_ok.
  - split; [apply hx_configured|]. destruct n as [|[|[|n]]]; cbn [hx_hi hx_hr dh_works]; try exact I; (repeat split); eexists; reflexivity.
  - split; [|split; reflexivity]. destruct n as [|[|[|n]]]; reflexivity.
  - split.
    + intros me md i X.
      assert (Y : exists me md i1, initialize_new_handshake toy (hx_hi n) hx_ia new_ihs = (Some (me, md), i1) /\ fits (hx_E ka) (length (wire_request (make_request (hx_hi n) hx_limits me md)))).
      { clear X. destruct n as [|[|[|[|n]]]]; [..|lia]; do 3 eexists; (split; [reflexivity|]); vm_compute; discriminate. }
      destruct Y as (me' & md' & i' & Y & F). change (e_prims (hx_E ka)) with toy in X. rewrite Y in X. injection X as <- <- _. exact F.
    + destruct n as [|[|[|[|n]]]]; [..|lia]; vm_compute; discriminate.
  - cbn; lia.
  - cbn; lia.
  - cbn; lia.
Qed.

(** A concrete run with each of them: the handshake, then the initiator's application sends
    data and the responder's application answers: both theorems apply to its end. *)
Definition lx_raw := lx_net FRaw FRaw.
Definition lx_run (n : nat) : line :=
  let x := settle (lx_raw n) 200 (new_line (lx_raw n)) in
  let x := settle (lx_raw n) 200 (then_act (lx_raw n) x true (ACall (StartTx ([1; 2; 3; 4; 5]%N)))) in
  settle (lx_raw n) 200 (then_act (lx_raw n) x false (ACall (StartTx [2; 3]%N))).
Definition resting (d : side) : bool :=
  ep_open (fst (d_conf d)) && idle d && negb (ep_busy (fst (d_conf d))) && negb (d_owed d) && match ep_payload (fst (d_conf d)) with None => true | _ => false end.
Lemma resting_ok d : resting d = true -> at_rest d.
Proof.
  unfold resting, at_rest. intros H. repeat (apply andb_prop in H as [H ?]). destruct (ep_payload _); [discriminate|].
  repeat split; auto using idle_ok; apply negb_true_iff; assumption.
Qed.
Definition lx_check (x : line) : bool :=
  resting (l_a x) && resting (l_b x) && bytes_eqb (given (l_a x)) [1; 2; 3; 4; 5]%N && bytes_eqb (got (l_a x)) [2; 3]%N && (length (d_out (l_a x)) =? 3).
Lemma lx_check_ok x : lx_check x = true -> at_rest (l_a x) /\ at_rest (l_b x) /\ given (l_a x) = [1; 2; 3; 4; 5]%N /\ got (l_a x) = [2; 3]%N /\ length (d_out (l_a x)) = 3.
Proof.
  intros X. unfold lx_check in X. apply andb_prop in X as [X X5]. apply andb_prop in X as [X X4]. apply andb_prop in X as [X X3]. apply andb_prop in X as [X1 X2].
  split; [apply resting_ok, X1|]. split; [apply resting_ok, X2|]. split; [apply bytes_eqb_eq, X3|]. split; [apply bytes_eqb_eq, X4|apply Nat.eqb_eq, X5].
Qed.
Example C48_instance : forall n, n < 4 -> reachable (lx_raw n) (lx_run n) /\ at_rest (l_a (lx_run n)) /\ at_rest (l_b (lx_run n)) /\
  given (l_a (lx_run n)) = [1; 2; 3; 4; 5]%N /\ got (l_a (lx_run n)) = [2; 3]%N /\ length (d_out (l_a (lx_run n))) = 3.
Proof.
  intros n Hn. split; [repeat first [apply settle_ok; [reflexivity|reflexivity|]|apply then_ok; [reflexivity|reflexivity|]]; constructor|].
  assert (X : lx_check (lx_run n) = true) by (destruct n as [|[|[|[|n]]]]; [..|lia]; vm_compute; reflexivity).
  exact (lx_check_ok _ X).
Qed.

(** The beginning is such a state, for every one of these configurations: the handshake completes.  So
    is the state after it, when both applications have just offered data. *)
Example C48_inevitable_start : forall ka kb n, n < 4 ->
  inevitable (lx_net ka kb n) (fun y => (4000000000 < l_now y)%Z \/ all_delivered y) (new_line (lx_net ka kb n)).
Proof.
  intros ka kb n Hn. eapply C48_inevitable; [apply lx_compatible, Hn|constructor|apply Nat.leb_le; vm_compute; reflexivity|apply Nat.leb_le; vm_compute; reflexivity|].
  split; [cbn; lia|]. split; [cbn; lia|]. split; constructor.
Qed.
Definition lx_ready (n : nat) : line :=
  let x := settle (lx_raw n) 200 (new_line (lx_raw n)) in
  then_act (lx_raw n) (then_act (lx_raw n) x true (ACall (StartTx [1; 2; 3; 4; 5]%N))) false (ACall (StartTx [2; 3]%N)).
Definition lx_pending (x : line) : bool :=
  (2 + length (given (l_a x)) + in_progress (snd (d_conf (l_a x))) <=? 900) && (2 + length (given (l_b x)) + in_progress (snd (d_conf (l_b x))) <=? 900) &&
  match unprocessed (d_out (l_b x)) (l_a x), unprocessed (d_out (l_a x)) (l_b x) with [], [] => true | _, _ => false end && (l_now x =? 0)%Z &&
  (in_progress (snd (d_conf (l_a x))) =? 5) && (in_progress (snd (d_conf (l_b x))) =? 2).
Lemma lx_pending_ok n x : lx_pending x = true -> room (lx_raw n) (l_a x) /\ room (lx_raw n) (l_b x) /\ in_time (lx_raw n) 4000000000 x /\ in_progress (snd (d_conf (l_a x))) = 5 /\ in_progress (snd (d_conf (l_b x))) = 2.
Proof.
  unfold lx_pending. intros X. apply andb_prop in X as [X X6]. apply andb_prop in X as [X X5]. apply andb_prop in X as [X X4]. apply andb_prop in X as [X X3]. apply andb_prop in X as [X1 X2].
  apply Nat.leb_le in X1, X2. apply Nat.eqb_eq in X5, X6. apply Z.eqb_eq in X4. unfold room, in_time. rewrite X4. destruct (unprocessed _ (l_a x)); [|discriminate]. destruct (unprocessed _ (l_b x)); [|discriminate].
  cbn [n_limit n_end n_delay lx_raw lx_net]. repeat split; try assumption; try lia; constructor.
Qed.
Example C48_inevitable_instance : forall n, n < 4 -> in_progress (snd (d_conf (l_a (lx_ready n)))) = 5 /\ inevitable (lx_raw n) (fun y => (4000000000 < l_now y)%Z \/ all_delivered y) (lx_ready n).
Proof.
  intros n Hn.
  assert (X : lx_pending (lx_ready n) = true) by (destruct n as [|[|[|[|n]]]]; [..|lia]; vm_compute; reflexivity).
  assert (R : reachable (lx_raw n) (lx_ready n)) by (unfold lx_ready; repeat first [apply settle_ok; [reflexivity|reflexivity|]|apply then_ok; [reflexivity|reflexivity|]]; constructor).
  destruct (lx_pending_ok n _ X) as (Ra & Rb & T & P & _). split; [exact P|]. exact (C48_inevitable _ _ _ _ _ (lx_compatible FRaw FRaw n Hn) R Ra Rb T).
Qed.
