(** * LineCost: the work left for the two sides of a reliable line *)
From Verif Require Import Base BaseFacts Codec CodecSpec CodecFacts Link LinkLayer Primitives Session SessionSpec SessionFacts SessionMain
  Handshake HandshakeSpec HandshakeFacts HandshakeMain HandshakePair Endpoint EndpointSpec EndpointFacts EndpointMain EndpointRx EndpointTx EndpointNonce PairSpec Line LineSpec LineMsgs LineHandshake LineLocal LineSide.

Definition weight (i : instr) : nat :=
  match i with
  | ICall (StartTx d) => 4 + 42 * length d
  | ICall StartRx | ICall LowerRxReady => 4
  | IProcess _ => 16
  | IUpOpen | IUpTxReady | IUpRxReady => 6
  | _ => 2
  end.
Fixpoint wsum (k : list instr) : nat := match k with [] => 0 | i :: r => weight i + wsum r end.
Definition held_cost (s : endpoint) : nat := match ep_payload s with None => 0 | Some _ => if ep_proc s then 4 else 6 end.
(** The calls that are paid for by what the endpoint has left to do *)
Definition head_cost (s : endpoint) (i : instr) (rest : list instr) : nat :=
  match i, rest with
  | ICall LowerOpen, [] => if ep_open s then 2 else 0
  | ICall LowerTxReady, [] => if ep_busy s then 0 else 2
  | ICall StartRx, [] => match ep_payload s with Some _ => 0 | None => 4 end
  | _, _ => weight i
  end.
Definition stack_cost (s : endpoint) (k : list instr) : nat := match k with [] => 1 | i :: r => head_cost s i r + wsum r end.
Definition core_cost (s : endpoint) : nat := 42 * length (ep_remainder s) + (if ep_busy s then 16 else 0) + held_cost s + (if ep_open s then 0 else 4).
Definition cost (out : list (Z * list N)) (d : side) : nat :=
  stack_cost (fst (d_conf d)) (snd (d_conf d)) + core_cost (fst (d_conf d)) + (if d_owed d then 4 else 0) + 18 * length (waiting out d) + 42 * (2 - length (d_out d)).

(** The application offers nothing new; it may read *)
Definition calm_calls (inp : input) : Prop := in_calls inp = [] \/ in_calls inp = [StartRx].

Lemma wsum_app a b : wsum (a ++ b) = wsum a + wsum b.
Proof. induction a; cbn; lia. Qed.
Lemma head_le s i r : head_cost s i r <= weight i.
Proof. destruct i as [[]| | | | | | | | | | | | |], r; cbn; try lia; repeat match goal with |- context [if ?b then _ else _] => destruct b | |- context [match ?b with _ => _ end] => destruct b end; lia. Qed.
Lemma stack_le s k : stack_cost s k <= 1 + wsum k.
Proof. destruct k as [|i r]; cbn; [lia|]. pose proof (head_le s i r). lia. Qed.
Lemma weight_pos i : 2 <= weight i.
Proof. destruct i as [[]| | | | | | | | | | | | |]; cbn; lia. Qed.
Lemma stack_le' s k : k <> [] -> stack_cost s k <= wsum k.
Proof. destruct k as [|i r]; cbn; [congruence|]. intros _. pose proof (head_le s i r). lia. Qed.

Lemma cost_step out d s i rest s' pushed ev ms : d_conf d = (s, i :: rest) -> d_taken d + takes ev <= length out ->
  wsum pushed + core_cost s' + 2 + 22 * length ms + 42 * (2 - (length (d_out d) + length ms)) <= head_cost s i rest + core_cost s + 18 * takes ev + 42 * (2 - length (d_out d)) ->
  cost out (stepped d s' (pushed ++ rest) ev ms) + 22 * length ms < cost out d.
Proof.
  intros Hd Ht H. unfold cost. rewrite Hd. cbn [stepped d_conf fst snd d_owed d_out d_taken]. unfold waiting. rewrite !skipn_length, app_length. cbn [stepped d_taken].
  pose proof (stack_le s' (pushed ++ rest)) as X. rewrite wsum_app in X. cbn [stack_cost]. lia.
Qed.

Lemma cost_informed out more d : cost (out ++ more) (informed out (out ++ more) d) <= cost out d + 22 * length more.
Proof.
  unfold cost. cbn [informed d_conf d_owed d_out]. unfold waiting. cbn [informed d_taken]. rewrite !skipn_length, app_length. destruct more as [|x more].
  - rewrite Nat.add_0_r, Nat.eqb_refl, orb_false_r. cbn [length]. lia.
  - cbn [length]. destruct (d_owed d); cbn [orb]; [lia|]. destruct (negb _); lia.
Qed.

(** Data arrives *)
Lemma cost_data s a chunk inp g mode sess m : chunk <> [] -> ep_payload s = None -> forall m0 rest n,
  wsum [INonceChange; IUpRxReady] + core_cost (set_payload (read_data_into s a chunk inp) (payload_slice mode g chunk)) + 2 + 22 * length (@nil (Z * list N)) + 42 * (2 - (n + length (@nil (Z * list N)))) <=
  head_cost s (IProcess m0) rest + core_cost s + 18 * takes [EvDataOk sess m chunk] + 42 * (2 - n).
Proof.
  intros Hc Hp m0 rest n. destruct chunk as [|b chunk]; [congruence|]. cbn [payload_slice]. unfold core_cost, held_cost, read_data_into. eps. rewrite Hp. cbn [wsum weight head_cost takes flat_map length].
  destruct (ep_proc s); lia.
Qed.
(** Data is sent *)
Lemma cost_send out d s rest inp s' ev a rest' x c f : d_conf d = (s, ICheckTransmit :: rest) -> d_taken d <= length out -> ev = [EvQuery true; EvTx (TxData c) f] -> ep_busy s = false -> in_ready inp = true -> in_started inp = true ->
  ep_remainder s = taken (ep_remainder s) rest' ++ rest' -> taken (ep_remainder s) rest' <> [] -> 2 <= length (d_out d) ->
  s' = started (begin_transmit (set_active (asked s inp) a) rest') inp ->
  cost out (stepped d s' ([INonceChange] ++ rest) ev [x]) + 22 * length [x] < cost out d.
Proof.
  intros Hd Ht -> Hb Hr Hs Er Hne Hl ->. apply (cost_step out d s ICheckTransmit rest); auto; [cbn; lia|]. unfold core_cost, held_cost. eps.
  destruct (is_empty (ep_remainder s)) eqn:Em; [destruct (ep_remainder s); [cbn in Hne; destruct (length rest'); destruct rest'; cbn in *; congruence|discriminate]|]. eps.
  rewrite Hs, Hb. cbn [orb wsum weight head_cost takes flat_map length]. apply (f_equal (@length N)) in Er. rewrite app_length in Er.
  destruct (taken (ep_remainder s) rest'); [congruence|]. cbn [length] in Er. lia.
Qed.

(** A step that neither sends nor processes a message *)
Lemma cost_quiet C L off out est d s i rest inp t1 t2 s' pushed ev cs : side_ok est d out cs -> d_conf d = (s, i :: rest) -> answers_step L off out d i inp t1 t2 ->
  exec C s i inp = Ok (s', pushed, ev) -> calm_calls inp -> frames ev = [] -> d_taken d + takes ev <= length out ->
  (forall c, c_role C = Initiator c -> i = INonceChange -> est = true -> (N.max (s_tx_nonce (ep_active s)) (s_rx_nonce (ep_active s)) < ic_nonce_trigger c)%N) ->
  (forall m, i <> IProcess m) -> i <> IHandshakeRequired -> i <> ICall LowerOpen -> (i = ICheckTransmit -> ep_busy s = true \/ ep_transmitting s = true \/ ep_remainder s = [] \/ est = false) ->
  (est = false -> s_valid (ep_active s) = false) ->
  cost out (stepped d s' (pushed ++ rest) ev []) < cost out d.
Proof.
  intros HS Hd [A1 A2 A3 _ _ _ _] HX Hc Hf Ht Hn N1 N2 N3 N4 Hv. pose proof (sk_local _ _ _ _ HS) as HL. rewrite Hd in HL, A1, A2, A3. cbn [fst snd] in *.
  pose proof (stack_head _ _ _ _ (lc_stack _ _ _ _ HL)) as Hi. pose proof (lc_req _ _ _ _ HL) as Hq. pose proof (lc_proc _ _ _ _ HL) as Hp.
  enough (G : wsum pushed + core_cost s' + 2 <= head_cost s i rest + core_cost s + 18 * takes ev).
  { pose proof (cost_step out d s i rest s' pushed ev [] Hd Ht) as Q. cbn [length] in Q. rewrite !Nat.mul_0_r, !Nat.add_0_r in Q. apply Q. lia. }
  assert (Ea : asked s inp = s) by (unfold asked; rewrite A1, negb_involutive; destruct s; reflexivity).
  destruct Hi as [F|[[m ->]|[-> Hi]]]; [|destruct (N1 m eq_refl)|].
  - destruct i as [c0| | | | | | | | | | |p|h0|]; cbn in F; try contradiction.
    + destruct c0; try contradiction; cbn [exec enter] in HX.
      * unfold start_tx in HX. destruct (ep_open s && ep_up s && tx_idle s) eqn:G; injection HX as <- <- <-; cbn [head_cost weight wsum takes flat_map length]; [|lia].
        unfold core_cost, held_cost. eps. lia.
      * unfold start_rx in HX. destruct (ep_proc s) eqn:Pr.
        { destruct (ep_payload s) eqn:Pl; [|destruct (Hp eq_refl eq_refl)]. cbn [set_proc set_payload ep_payload] in HX. injection HX as <- <- <-. cbn [wsum weight takes flat_map length]. unfold core_cost, held_cost. eps. rewrite Pl, Pr. lia. }
        destruct (ep_payload s) eqn:Pl.
        { destruct (slice_bytes s s0); try discriminate. cbn [obind] in HX. injection HX as <- <- <-. cbn [wsum weight takes flat_map length]. unfold core_cost, held_cost. eps. rewrite Pl, Pr. lia. }
        injection HX as <- <- <-. cbn [wsum weight takes flat_map length head_cost]. rewrite Pl. destruct rest; lia.
    + cbn [exec] in HX. unfold try_read_one in HX. rewrite Ea in HX. destruct (in_ready inp); cbn [negb] in HX; [|injection HX as <- <- <-; cbn [wsum weight takes flat_map length head_cost app]; lia].
      destruct (ep_payload s) eqn:Pl; [injection HX as <- <- <-; cbn [wsum weight takes flat_map length head_cost app]; lia|].
      destruct (in_message inp); injection HX as <- <- <-; cbn [wsum weight takes flat_map length head_cost app]; unfold core_cost, held_cost; eps; rewrite Pl; lia.
    + cbn [exec] in HX. unfold check_transmit in HX. rewrite Ea in HX. destruct (s_valid (ep_active s)) eqn:V; cbn [negb] in HX; [|injection HX as <- <- <-; cbn [wsum weight takes flat_map length head_cost app]; lia].
      assert (G : in_ready inp && tx_ready s = false).
      { rewrite A1. unfold tx_ready. destruct (N4 eq_refl) as [X|[X|[X|X]]]; [rewrite X; reflexivity|rewrite X; apply andb_false_r|rewrite X; cbn; rewrite !andb_false_r; reflexivity|specialize (Hv X); congruence]. }
      rewrite G in HX. cbn [negb] in HX. injection HX as <- <- <-; cbn [wsum weight takes flat_map length head_cost app]; lia.
    + cbn [exec] in HX. unfold notify in HX. destruct Hc as [Hc|Hc]; rewrite Hc in HX; destruct (ep_up s); injection HX as <- <- <-; cbn [wsum weight takes flat_map length head_cost app map ep_payload]; unfold core_cost, held_cost; eps; lia.
    + cbn [exec] in HX. unfold notify in HX. destruct Hc as [Hc|Hc]; rewrite Hc in HX; destruct (ep_up s); injection HX as <- <- <-; cbn [wsum weight takes flat_map length head_cost app map ep_payload]; lia.
    + cbn [exec] in HX. unfold notify in HX. destruct Hc as [Hc|Hc]; rewrite Hc in HX; destruct (ep_up s); injection HX as <- <- <-; cbn [wsum weight takes flat_map length head_cost app map ep_payload]; lia.
    + cbn [exec] in HX. unfold on_nonce_change in HX. destruct (c_role C) as [c|h].
      * specialize (Hn c eq_refl eq_refl F). destruct (N.leb_spec (ic_nonce_trigger c) (N.max (s_tx_nonce (ep_active s)) (s_rx_nonce (ep_active s)))); [lia|]. injection HX as <- <- <-. cbn [wsum weight takes flat_map length head_cost app]; lia.
      * injection HX as <- <- <-. cbn [wsum weight takes flat_map length head_cost app]; lia.
    + cbn [exec] in HX. rewrite Hq in HX. destruct (c_role C); injection HX as <- <- <-; cbn [wsum weight takes flat_map length head_cost app]; lia.
    + destruct p; [contradiction|]. cbn [exec] in HX. injection HX as <- <- <-; cbn [wsum weight takes flat_map length head_cost app]; lia.
    + destruct h0; try contradiction. cbn [exec] in HX. injection HX as <- <- <-; cbn [wsum weight takes flat_map length head_cost app]; unfold core_cost, held_cost; eps; lia.
  - destruct Hi as [[-> _]|[[-> Hb]|[[-> Ho]|[-> _]]]]; try congruence; cbn [exec enter] in HX.
    + change (ep_open (set_busy s false)) with (ep_open s) in HX. destruct (ep_open s) eqn:Ho; injection HX as <- <- <-; unfold core_cost, held_cost; eps; rewrite Hb, ?Ho.
      * destruct (ep_transmitting s && is_empty (ep_remainder s)); cbn [wsum weight takes flat_map length app head_cost]; lia.
      * cbn [wsum weight takes flat_map length app head_cost]; lia.
    + rewrite Ho in HX. injection HX as <- <- <-. cbn [wsum weight takes flat_map length head_cost app]; lia.
Qed.

(** A call from outside *)
Lemma cost_call out d c owed : snd (d_conf d) = [] ->
  (c = LowerOpen /\ ep_open (fst (d_conf d)) = false /\ owed = d_owed d) \/ (c = LowerTxReady /\ ep_busy (fst (d_conf d)) = true /\ owed = d_owed d) \/
  (c = LowerRxReady /\ d_owed d = true /\ owed = false) \/ (c = StartRx /\ ep_payload (fst (d_conf d)) <> None /\ owed = d_owed d) -> cost out (call_in d c owed) < cost out d.
Proof.
  intros Hk Hc. unfold cost. change (waiting out (call_in d c owed)) with (waiting out d). cbn [call_in d_conf fst snd d_owed d_out]. rewrite Hk. cbn [stack_cost wsum].
  destruct Hc as [(-> & H & ->)|[(-> & H & ->)|[(-> & H & ->)|(-> & H & ->)]]]; cbn [head_cost weight]; rewrite ?H; try lia. destruct (ep_payload _); [lia|congruence].
Qed.
