(** * EndpointPair: proofs about two endpoints *)
From Verif Require Import Base BaseFacts Codec CodecSpec CodecFacts Link LinkLayer Primitives Session SessionSpec SessionFacts SessionMain Handshake HandshakeSpec HandshakeFacts HandshakeMain Endpoint EndpointSpec EndpointFacts EndpointMain EndpointRx EndpointTx EndpointNonce PairSpec.

(** ** The derived sessions *)
Lemma responder_finish_new P msg now salt ikm frame s r s' : prims_ok P -> responder_finish P msg now salt ikm frame s = Ok (r, s') ->
  (exists f, r = inl f) /\ s_valid s' = true /\ s_rx_nonce s' = 0%N /\ s_tx_nonce s' = 0%N /\ p_max_nonce (s_param s') = sc_max_nonce (rq_constraints msg).
Proof.
  intros HP. unfold responder_finish. destruct (hkdf_rfc P salt ikm HP) as (_ & L1 & L2). destruct (hkdf P salt ikm) as [k1 k2]. cbn [fst snd] in *.
  unfold initialize. replace (keys_valid {| k_rx := k1; k_tx := k2 |}) with true by (unfold keys_valid; cbn; rewrite L1, L2; reflexivity). cbn [negb].
  intros H. injection H as <- <-. cbn. eauto 10.
Qed.
Lemma process_new E S h ans msg bytes now s r s' : prims_ok (e_prims E) -> process E S h ans msg bytes now s = Ok (r, s') ->
  (exists e, r = inr e /\ s' = s) \/
  (exists f, r = inl f /\ s_valid s' = true /\ s_rx_nonce s' = 0%N /\ s_tx_nonce s' = 0%N /\ p_max_nonce (s_param s') = sc_max_nonce (rq_constraints msg)).
Proof.
  intros HP. unfold process. intros H. destruct h;
    repeat match type of H with
    | responder_finish _ _ _ _ _ _ _ = _ => apply (responder_finish_new _ _ _ _ _ _ _ _ _ HP) in H; destruct H as [[f ->] H]; right; exists f; auto
    | Ok (_, _) = Ok _ => injection H as <- <-; left; eauto
    | UB = Ok _ => discriminate H
    | NoFuel = Ok _ => discriminate H
    | obind ?o _ = Ok _ => destruct o as [?| |]; cbn [obind] in H
    | (let (_, _) := ?x in _) = _ => destruct x
    | (if ?b then _ else _) = _ => destruct b
    | match ?x with _ => _ end = _ => destruct x
    end; try discriminate.
Qed.
Lemma initiator_finish_new P h i l now salt ikm s ok i' s' : initiator_finish P h i l now salt ikm s = Ok (ok, i', s') ->
  ok = false /\ s' = s \/ ok = true /\ p_max_nonce (s_param s') = l_max_nonce l.
Proof.
  unfold initiator_finish. destruct (hkdf P salt ikm) as [k1 k2]. destruct (_ <? _)%Z; [intros H; injection H as <- _ <-; auto|].
  unfold initialize. destruct (negb _); intros H; injection H as <- _ <-; cbn; auto.
Qed.
Lemma initialize_session_new P S h i msg bytes l now s ok i' s' : initialize_session P S h i msg bytes l now s = Ok (ok, i', s') ->
  ok = false /\ s' = s \/ ok = true /\ p_max_nonce (s_param s') = l_max_nonce l.
Proof.
  unfold initialize_session. intros H. destruct h;
    repeat match type of H with
    | initiator_finish _ _ _ _ _ _ _ _ = _ => apply initiator_finish_new in H; exact H
    | Ok (_, _, _) = Ok _ => injection H as <- _ <-; auto
    | UB = Ok _ => discriminate H
    | NoFuel = Ok _ => discriminate H
    | obind ?o _ = Ok _ => destruct o as [?| |]; cbn [obind] in H
    | (let (_, _) := ?x in _) = _ => destruct x
    | (if ?b then _ else _) = _ => destruct b
    | match ?x with _ => _ end = _ => destruct x
    end; discriminate.
Qed.

(** ** Typed environments give plain traces *)
Definition instr_typed (i : instr) : Prop :=
  match i with ICall c => call_typed c | IProcess m => bytes_ok m | _ => True end.
Lemma plain_exec C s i inp s' pushed e : prims_ok (e_prims (c_env C)) -> conf_typed C -> instr_typed i ->
  bytes_ok (in_message inp) -> Forall call_typed (in_calls inp) ->
  exec C s i inp = Ok (s', pushed, e) -> Forall plain e /\ Forall instr_typed pushed.
Proof.
  intros HP HC Hi Hm Hc H. assert (X : Forall instr_typed (map ICall (in_calls inp))) by (clear - Hc; induction Hc; constructor; auto).
  unfold conf_typed in HC.
  destruct i as [[]| | | | | | | | | | | | |]; exec_cases H; splits.
  all: try (split; [repeat constructor; assumption|first [exact X|repeat constructor; fail]]; fail).
  all: try (split; [repeat constructor; fail|]; exact X).
  all: try (split; [repeat constructor; fail|]; rewrite <- ?Heql; repeat (constructor; [first [exact I|assumption]|]); constructor; fail).
  1: split; [repeat constructor|constructor; [exact Hm|repeat constructor]].
  all: split; [|constructor].
  all: constructor; [|repeat constructor]; cbn [plain]; unfold bounded.
  all: match goal with
       | H : initialize_session _ _ _ _ _ _ _ _ _ = Ok _ |- _ => apply initialize_session_new in H; destruct H as [(-> & _)|(_ & ->)]; [discriminate|exact HC]
       | H : process _ _ _ _ _ _ _ _ = Ok _ |- _ => apply (process_new _ _ _ _ _ _ _ _ _ _ HP) in H; destruct H as [(? & X1 & _)|(? & _ & _ & _ & _ & ->)]; [discriminate|];
           match goal with R : request_read _ = inl _ |- _ => apply request_read_wire in R; [|exact Hi]; destruct R as [(_ & Rc & _) _] end;
           destruct Rc as [Rc _]; change (2 ^ 16)%N with 65536%N in *; lia
       end.
Qed.

Lemma inject_typed s x : match x with Enter c => call_typed c | _ => True end -> Forall instr_typed (snd (inject s x)).
Proof.
  destruct x; cbn; intros H.
  - repeat constructor. exact H.
  - destruct (ep_timer s) as [[]|]; repeat constructor.
  - destruct (nth_error _ _) as [[]|]; repeat constructor.
  - destruct (ep_session_timer s); repeat constructor.
  - destruct (ep_session_stale s); repeat constructor.
Qed.
Lemma plain_run C ls k t : prims_ok (e_prims (c_env C)) -> conf_typed C -> along typed C (new_endpoint C, []) ls ->
  run C (new_endpoint C, []) ls = Ok (k, t) -> Forall plain t.
Proof.
  intros HP HC HQ H.
  apply (trace_invariant (fun t k => Forall plain t /\ Forall instr_typed (snd k)) typed C) with (ls := ls) (t0 := []) (k := (new_endpoint C, [])) (k' := k); auto.
  2: split; constructor.
  intros t0 k1 l k2 e [I1 I2] Hq Hs.
  destruct (step_inv _ _ _ _ _ Hs) as [[-> ->]|[(x & s1 & -> & -> & -> & ->)|(inp & s1 & i & rest & s2 & pushed & -> & -> & He & ->)]].
  - rewrite app_nil_r. auto.
  - rewrite app_nil_r. split; [exact I1|]. apply inject_typed. destruct x; exact Hq.
  - cbn [snd] in *. apply Forall_cons_iff in I2 as [I2 I3]. destruct Hq as [Q1 Q2]. destruct (plain_exec _ _ _ _ _ _ _ HP HC I2 Q1 Q2 He) as [X1 X2].
    split; apply Forall_app; auto.
Qed.

(** ** The log of what was sealed *)
Record kinv (C : econf) (a : kstate) (k : config) : Prop := {
  k_pending : s_valid (ep_pending (fst k)) = true -> exists d, kp a = Some (d, s_tx_nonce (ep_pending (fst k))) /\ same_session d (ep_pending (fst k)) /\ bounded d;
  k_responder : is_initiator C = false -> s_valid (ep_pending (fst k)) = true -> s_tx_nonce (ep_pending (fst k)) = 0%N;
  k_active : s_valid (ep_active (fst k)) = true -> exists d, ka a = Some (d, s_tx_nonce (ep_active (fst k))) /\ same_session d (ep_active (fst k)) /\ bounded d;
  k_bytes : bytes_ok (ep_remainder (fst k));
  k_log : Forall (seals_frame C) (klog a) }.

Lemma seals_same E d s f c rest : same_session d s -> seals E s f c rest -> bytes_ok c -> (s_tx_nonce s < 65536)%N ->
  exists md, carries E (s_crypto_mode d) (k_tx (s_keys d)) f md (taken c rest) /\ am_nonce md = s_tx_nonce s.
Proof. intros (_ & K & _ & M & _) S B L. destruct (S B) as [_ S2]. destruct (S2 L) as (md & M1 & M2). exists md. rewrite K, M. auto. Qed.

Lemma kinv_exec C a s i inp rest s' pushed e : prims_ok (e_prims (c_env C)) -> kinv C a (s, i :: rest) ->
  exec C s i inp = Ok (s', pushed, e) -> Forall plain e ->
  exists a', play (sealing (is_initiator C)) a e = Some a' /\ kinv C a' (s', pushed ++ rest).
Proof.
  intros HP [J1 J2 J3 J4 J5] H Hpl. cbn [fst snd] in *.
  assert (RI : forall c, c_role C = Initiator c -> is_initiator C = true) by (intros c R; unfold is_initiator; rewrite R; reflexivity).
  assert (RR : forall h, c_role C = Responder h -> is_initiator C = false) by (intros h R; unfold is_initiator; rewrite R; reflexivity).
  destruct i as [[]| | | | | | | | | | | | |]; exec_cases H; splits; formats HP;
    try match goal with X : process _ _ _ _ _ _ _ _ = Ok _ |- _ => apply (process_new _ _ _ _ _ _ _ _ _ _ HP) in X; destruct X as [(? & X & ?)|(? & X & ? & ? & ? & ?)]; first [discriminate X|injection X as ?]; subst end; sessions.
  all: try match goal with F : validate_facts _ _ _ _ _ _ _ _ |- _ => pose proof (vf_session _ _ _ _ _ _ _ _ F); pose proof (vf_valid _ _ _ _ _ _ _ _ F); clear F end; subst.
  all: repeat match goal with H : Forall plain (_ :: _) |- _ => inversion H; clear H; subst end; cbn [plain] in *.
  all: try (exists a; split; [reflexivity|]; constructor; cbn [fst snd]; eps; auto; try discriminate; fail).
  all: repeat match goal with H : s_valid (set_rx_nonce _ _) = true |- _ => cbn [set_rx_nonce s_valid] in H end.
  all: repeat match goal with H : s_tx_nonce (set_rx_nonce _ _) = 0%N |- _ => cbn [set_rx_nonce s_tx_nonce] in H end.
  all: try (pose proof (RI _ eq_refl) as R; rewrite R in *); try (pose proof (RR _ eq_refl) as R; rewrite R in *).
  all: try match goal with V : s_valid (ep_pending _) = true |- _ => destruct (J1 V) as (d & D1 & D2 & D3) end.
  all: try match goal with V : s_valid (ep_active _) = true |- _ => destruct (J3 V) as (b & B1 & B2 & B3) end.
  all: cbn [play sealing seal kp ka klog]; rewrite ?D1; cbn [play sealing seal kp ka klog]; rewrite ?B1; cbn [play sealing seal kp ka klog].
  all: eexists; split; [reflexivity|].
  all: constructor; cbn [fst snd kp ka klog]; eps.
  all: try discriminate; try assumption.
  all: try (match goal with S : seals _ _ _ _ _ |- bytes_ok _ => exact (proj1 (S J4)) end).
  all: cbn [set_rx_nonce set_tx_nonce s_valid s_tx_nonce].
  all: try apply Forall_nil.
  all: try (intros X; rewrite X in *; discriminate).
  all: try (intros; assumption).
  all: try match goal with X : (s_tx_nonce (ep_active _) < _)%N |- _ =>
         assert (Y : (s_tx_nonce (ep_active s) < 65535)%N) by (destruct B2 as (_ & _ & _ & _ & Bp); unfold bounded in B3; rewrite Bp in B3; lia) end.
  all: try (apply Forall_app; split; [assumption|]; constructor; [|constructor]; unfold seals_frame; cbn [sm_session sm_frame sm_nonce sm_data];
            match goal with Z : s_tx_nonce ?x = 0%N, S : seals _ ?x _ _ _ |- context [0%N] => rewrite <- Z; eapply seals_same; [apply same_session_refl|exact S|exact J4|lia]
            | S : seals _ (set_rx_nonce _ _) _ _ _ |- _ => eapply (seals_same _ _ (set_rx_nonce _ _)); [eapply same_session_trans; [exact D2|apply same_set_rx]|exact S|exact J4|cbn; lia]
            | S : seals _ _ _ _ _ |- _ => eapply seals_same; [exact B2|exact S|exact J4|lia] end; fail).
  all: intros _.
  all: try (eexists; split; [|split; [apply same_session_refl|assumption]]; congruence).
  all: try (eexists; split; [reflexivity|split; [apply same_set_tx|assumption]]).
  all: try (exists d; split; [f_equal; f_equal; lia|split; [|exact D3]];
            eapply same_session_trans; [exact D2|]; first [apply same_set_rx|eapply same_session_trans; [apply same_set_rx|apply same_set_tx]]).
  all: exists b; split; [rewrite (nonce_succ _ 65535) by lia; reflexivity|split; [|exact B3]]; eapply same_session_trans; [exact B2|apply same_set_tx].
Qed.

Lemma plain_app t1 t2 : Forall plain (t1 ++ t2) <-> Forall plain t1 /\ Forall plain t2.
Proof. apply Forall_app. Qed.
Lemma sealing_run C ls k t : prims_ok (e_prims (c_env C)) -> run C (new_endpoint C, []) ls = Ok (k, t) -> Forall plain t ->
  exists a, play (sealing (is_initiator C)) kstart t = Some a /\ Forall (seals_frame C) (klog a).
Proof.
  intros HP H Hp.
  enough (X : exists a, play (sealing (is_initiator C)) kstart t = Some a /\ kinv C a k) by (destruct X as (a & X1 & [_ _ _ _ X2]); eauto).
  apply (trace_invariant (fun t k => Forall plain t -> exists a, play (sealing (is_initiator C)) kstart t = Some a /\ kinv C a k) (fun _ _ => True) C) with (ls := ls) (t0 := []) (k := (new_endpoint C, [])) (k' := k); auto using along_true.
  - intros t0 k1 l k2 e HI _ Hs Hf. apply Forall_app in Hf. destruct Hf as [Hf1 Hf2]. destruct (HI Hf1) as (a & I1 & I2).
    destruct (step_inv _ _ _ _ _ Hs) as [[-> ->]|[(x & s1 & -> & -> & -> & ->)|(inp & s1 & i & rest & s2 & pushed & -> & -> & He & ->)]].
    + rewrite app_nil_r. eauto.
    + rewrite app_nil_r. exists a. split; [exact I1|]. destruct I2 as [J1 J2 J3 J4 J5]. cbn [fst snd] in *.
      destruct (inject_tx s1 x) as (E1 & _). destruct (inject_sessions s1 x) as (E5 & E6). constructor; rewrite ?E1, ?E5, ?E6; assumption.
    + destruct (kinv_exec _ _ _ _ _ _ _ _ _ HP I2 He Hf2) as (a' & A1 & A2). exists a'. rewrite play_app, I1. auto.
  - intros _. exists kstart. split; [reflexivity|]. constructor; cbn; try discriminate; constructor.
Qed.

(** The nonces under one key count from zero *)
Definition key_of (s : session) : list N := k_tx (s_keys s).
Definition nonces_of (key : list N) (log : list sealed_message) : list N := map sm_nonce (filter (under key) log).
Definition counts (l : list N) : Prop := l = map N.of_nat (seq 0 (length l)).
Record ainv (t : list event) (a : kstate) : Prop := {
  a_kp : forall s n, kp a = Some (s, n) -> In (key_of s) (map key_of (derived t)) /\ N.of_nat (length (nonces_of (key_of s) (klog a))) = n;
  a_ka : forall s n, ka a = Some (s, n) -> In (key_of s) (map key_of (derived t)) /\ N.of_nat (length (nonces_of (key_of s) (klog a))) = n;
  a_diff : forall s n s' n', kp a = Some (s, n) -> ka a = Some (s', n') -> key_of s <> key_of s';
  a_log : forall x, In x (klog a) -> In (key_of (sm_session x)) (map key_of (derived t));
  a_counts : forall key, counts (nonces_of key (klog a)) }.

Lemma bytes_eqb_iff a b : bytes_eqb a b = true <-> a = b.
Proof. split; [|intros ->; apply bytes_eqb_same]. revert b. induction a as [|x a IH]; intros [|y b]; cbn; try discriminate; auto.
  intros H. apply Bool.andb_true_iff in H. destruct H as [H1 H2]. apply N.eqb_eq in H1. f_equal; auto. Qed.
Lemma under_iff key x : under key x = true <-> key_of (sm_session x) = key.
Proof. apply bytes_eqb_iff. Qed.
Lemma nonces_of_snoc key log s n data frame : nonces_of key (log ++ [{| sm_session := s; sm_nonce := n; sm_data := data; sm_frame := frame |}]) =
  nonces_of key log ++ (if bytes_eqb (key_of s) key then [n] else []).
Proof. unfold nonces_of. rewrite filter_app, map_app. f_equal. cbn. unfold under, key_of. cbn [sm_session]. destruct (bytes_eqb _ _); reflexivity. Qed.
Lemma counts_snoc l : counts l -> counts (l ++ [N.of_nat (length l)]).
Proof. unfold counts. intros H. rewrite app_length. cbn [length]. rewrite seq_app, map_app. cbn [seq map]. rewrite Nat.add_0_l. f_equal. exact H. Qed.

Lemma sealing_cases i a e a' : sealing i a e = Some a' ->
  (a' = a /\ derived [e] = []) \/
  (exists s, e = EvKeys s /\ a' = {| kp := Some (s, 0%N); ka := ka a; klog := klog a |}) \/
  (exists s m p x, e = EvAuthOk s m p /\ kp a = Some x /\ a' = {| kp := None; ka := Some x; klog := klog a |}) \/
  (exists k s n data f, e = EvTx k f /\ (k = TxAuth data \/ k = TxData data) /\
     ((kp a = Some (s, n) /\ a' = {| kp := Some (s, n + 1)%N; ka := ka a; klog := klog a ++ [{| sm_session := s; sm_nonce := n; sm_data := data; sm_frame := f |}] |}) \/
      (ka a = Some (s, n) /\ a' = {| kp := kp a; ka := Some (s, n + 1)%N; klog := klog a ++ [{| sm_session := s; sm_nonce := n; sm_data := data; sm_frame := f |}] |}))).
Proof.
  destruct e; cbn; try (intros H; injection H as <-; left; auto; fail).
  - destruct k; try (intros H; injection H as <-; left; auto; fail).
    + destruct i; unfold seal; [destruct (kp a) as [[s n]|] eqn:E|destruct (ka a) as [[s n]|] eqn:E]; try discriminate; intros H; injection H as <-; right; right; right; do 5 eexists;
        (split; [reflexivity|]; split; [first [left; reflexivity|right; reflexivity]|]); first [left; split; reflexivity|right; split; reflexivity].
    + unfold seal. destruct (ka a) as [[s n]|] eqn:E; try discriminate; intros H; injection H as <-; right; right; right; do 5 eexists;
        (split; [reflexivity|]; split; [first [left; reflexivity|right; reflexivity]|]); first [left; split; reflexivity|right; split; reflexivity].
  - intros H; injection H as <-. right; left. eauto.
  - destruct (kp a) eqn:E; try discriminate. intros H; injection H as <-. right; right; left. do 4 eexists. repeat split; reflexivity.
Qed.
Lemma derived_app t1 t2 : derived (t1 ++ t2) = derived t1 ++ derived t2.
Proof. apply flat_map_app. Qed.
Lemma nonces_of_none key log : (forall x, In x log -> key_of (sm_session x) <> key) -> nonces_of key log = [].
Proof.
  intros H. unfold nonces_of. induction log as [|x log IH]; [reflexivity|]. cbn.
  destruct (under key x) eqn:E; [exfalso; apply under_iff in E; apply (H x); [left; reflexivity|exact E]|]. apply IH. intros y Hy. apply H. right. exact Hy.
Qed.
Lemma nonces_snoc_same log s n data f : length (nonces_of (key_of s) (log ++ [{| sm_session := s; sm_nonce := n; sm_data := data; sm_frame := f |}])) = S (length (nonces_of (key_of s) log)).
Proof. rewrite nonces_of_snoc, bytes_eqb_same, app_length. cbn. lia. Qed.
Lemma nonces_snoc_other key log s n data f : key_of s <> key -> nonces_of key (log ++ [{| sm_session := s; sm_nonce := n; sm_data := data; sm_frame := f |}]) = nonces_of key log.
Proof. intros H. rewrite nonces_of_snoc. destruct (bytes_eqb _ _) eqn:E; [apply bytes_eqb_iff in E; congruence|apply app_nil_r]. Qed.
Lemma counts_log s n key log data f : N.of_nat (length (nonces_of (key_of s) log)) = n -> counts (nonces_of key log) ->
  counts (nonces_of key (log ++ [{| sm_session := s; sm_nonce := n; sm_data := data; sm_frame := f |}])).
Proof.
  intros Hn Hc. rewrite nonces_of_snoc. destruct (bytes_eqb _ _) eqn:E; [|rewrite app_nil_r; exact Hc]. apply bytes_eqb_iff in E. subst key.
  rewrite <- Hn. apply counts_snoc. exact Hc.
Qed.

Lemma ainv_step i t a e a' : ainv t a -> sealing i a e = Some a' -> NoDup (map key_of (derived (t ++ [e]))) -> ainv (t ++ [e]) a'.
Proof.
  intros [A1 A2 A3 A4 A5] H ND. assert (IN : forall k, In k (map key_of (derived t)) -> In k (map key_of (derived (t ++ [e])))) by
    (intros k X; rewrite derived_app, map_app, in_app_iff; auto).
  destruct (sealing_cases _ _ _ _ H) as [[-> _]|[(s & -> & ->)|[(s & m & p & [x nx] & -> & Hx & ->)|(k & s & n & data & f & -> & _ & Hk)]]].
  - constructor; eauto; intros s n X; [apply A1 in X|apply A2 in X]; destruct X; auto.
  - assert (NEW : ~ In (key_of s) (map key_of (derived t))).
    { rewrite derived_app, map_app in ND. cbn in ND. apply NoDup_remove_2 in ND. rewrite app_nil_r in ND. exact ND. }
    constructor; cbn [kp ka klog].
    + intros s' n X. injection X as <- <-. split; [rewrite derived_app, map_app, in_app_iff; right; left; reflexivity|].
      rewrite nonces_of_none; [reflexivity|]. intros y Hy E. apply NEW. rewrite <- E. apply A4. exact Hy.
    + intros s' n X. apply A2 in X. destruct X; auto.
    + intros s1 n1 s2 n2 X Y. injection X as <- _. apply A2 in Y. intros E. rewrite E in NEW. tauto.
    + auto.
    + exact A5.
  - constructor; cbn [kp ka klog].
    + discriminate.
    + intros s' n X. injection X as <- <-. apply A1 in Hx. destruct Hx; auto.
    + discriminate.
    + auto.
    + exact A5.
  - destruct Hk as [[Hk ->]|[Hk ->]]; constructor; cbn [kp ka klog].
    + intros s' n' X. injection X as <- <-. destruct (A1 _ _ Hk) as [X1 X2]. split; auto. rewrite nonces_snoc_same. lia.
    + intros s' n' X. destruct (A2 _ _ X) as [X1 X2]. split; auto. rewrite nonces_snoc_other; eauto.
    + intros s1 n1 s2 n2 X Y. injection X as <- _. eauto.
    + intros x Hx. apply in_app_iff in Hx as [Hx|[<-|[]]]; [apply IN; auto|]. cbn [sm_session]. apply IN. apply (A1 _ _ Hk).
    + intros key. apply counts_log; auto. apply (A1 _ _ Hk).
    + intros s' n' X. destruct (A1 _ _ X) as [X1 X2]. split; auto. rewrite nonces_snoc_other; auto. intros E. symmetry in E. revert E. eapply A3; eauto.
    + intros s' n' X. injection X as <- <-. destruct (A2 _ _ Hk) as [X1 X2]. split; auto. rewrite nonces_snoc_same. lia.
    + intros s1 n1 s2 n2 X Y. injection Y as <- _. eauto.
    + intros x Hx. apply in_app_iff in Hx as [Hx|[<-|[]]]; [apply IN; auto|]. cbn [sm_session]. apply IN. apply (A2 _ _ Hk).
    + intros key. apply counts_log; auto. apply (A2 _ _ Hk).
Qed.
Lemma NoDup_front {A} (a b : list A) : NoDup (a ++ b) -> NoDup a.
Proof. induction a as [|x a IH]; cbn; intros H; [constructor|]. inversion H; subst. constructor; [|auto]. intros X. apply H2. apply in_app_iff. auto. Qed.
Lemma ainv_play i : forall t t0 a a', ainv t0 a -> play (sealing i) a t = Some a' -> NoDup (map key_of (derived (t0 ++ t))) -> ainv (t0 ++ t) a'.
Proof.
  induction t as [|e t IH]; intros t0 a a' A P ND; cbn in P; [injection P as <-; rewrite app_nil_r; exact A|].
  destruct (sealing i a e) as [a1|] eqn:E; [|discriminate]. replace (t0 ++ e :: t) with ((t0 ++ [e]) ++ t) in * by (rewrite <- app_assoc; reflexivity).
  eapply IH; eauto. eapply ainv_step; eauto. rewrite derived_app, map_app in ND. apply NoDup_front in ND. exact ND.
Qed.
Lemma ainv_start : ainv [] kstart.
Proof. constructor; cbn; try discriminate; try tauto. intros key. reflexivity. Qed.

(** The n-th message sealed under a key has nonce n *)
Lemma map_nth_eq {A B} (f : A -> B) l i x : nth_error l i = Some x -> nth_error (map f l) i = Some (f x).
Proof. apply map_nth_error. Qed.
Lemma counts_nth l i n : counts l -> nth_error l i = Some n -> n = N.of_nat i.
Proof.
  intros H X. assert (L : i < length l) by (apply nth_error_Some; congruence). rewrite H in X.
  rewrite (map_nth_error N.of_nat i (seq 0 (length l)) (d := i)) in X; [congruence|].
  rewrite (nth_error_nth' _ 0) by (rewrite seq_length; exact L). rewrite seq_nth by exact L. reflexivity.
Qed.
Lemma log_nth C t a x key : play (sealing (is_initiator C)) kstart t = Some a -> fresh_keys t -> In x (klog a) -> key_of (sm_session x) = key ->
  nth_error (sent_under C key t) (N.to_nat (sm_nonce x)) = Some (sm_data x).
Proof.
  intros P F Hx Hk. pose proof (ainv_play _ _ [] _ _ ainv_start P F) as [_ _ _ _ A]. specialize (A key). cbn [app] in A.
  assert (I : In x (filter (under key) (klog a))) by (apply filter_In; split; [exact Hx|apply under_iff; exact Hk]).
  apply In_nth_error in I. destruct I as [i I]. pose proof (counts_nth _ _ _ A (map_nth_eq sm_nonce _ _ _ I)) as ->.
  rewrite Nat2N.id. unfold sent_under, sealed_log. rewrite P. apply map_nth_eq. exact I.
Qed.

(** ** The receiver *)
Lemma last_received_in t : forall d, last_received t d = d \/ In (EvRecv (last_received t d)) t.
Proof.
  induction t as [|e t IH]; intros d; cbn; auto. destruct e; try (destruct (IH d); auto; fail). destruct (IH message) as [->|H]; auto.
Qed.
Definition accepted_of (e : event) : list (N * list N) :=
  match e with EvAuthOk _ m p | EvDataOk _ m p => [(am_nonce (sd_metadata m), p)] | EvEmpty m => [(am_nonce (sd_metadata m), [])] | _ => [] end.
Definition accepted_in (t : list event) : list (N * list N) := flat_map accepted_of t.
Definition no_auth (e : event) : bool := match e with EvAuthOk _ _ _ => false | _ => true end.
Lemma payloads_accepted t : payloads t = filter nonempty (map snd (accepted_in t)).
Proof. unfold payloads, accepted_in. induction t as [|e t IH]; [reflexivity|]. cbn. rewrite !map_app, !filter_app, IH. destruct e; reflexivity. Qed.
Lemma established_kept t : forallb no_auth t = true -> forall d, last_established t d = d.
Proof. induction t as [|e t IH]; cbn; auto. intros H d. apply Bool.andb_true_iff in H. destruct H as [H1 H2]. destruct e; try discriminate; auto. Qed.
Lemma read_received t m : session_data_read (last_received t []) = inl m -> In (EvRecv (last_received t [])) t.
Proof. intros H. destruct (last_received_in t []) as [E|H']; [rewrite E in H; discriminate H|exact H']. Qed.

Lemma accepted_sent CA tA a CB tB s m0 p0 t0 rest t2 :
  play (sealing (is_initiator CA)) kstart tA = Some a -> Forall (seals_frame CA) (klog a) -> fresh_keys tA ->
  every (justified (e_prims (c_env CB))) [] tB -> unforged CA tA CB tB ->
  tB = t0 ++ (EvAuthOk s m0 p0 :: rest) ++ t2 -> forallb no_auth rest = true ->
  Forall (fun x => nth_error (sent_under CA (k_rx (s_keys s)) tA) (N.to_nat (fst x)) = Some (snd x)) (accepted_in (EvAuthOk s m0 p0 :: rest)).
Proof.
  intros P L F J U Et Hr.
  assert (KEY : forall raw m p, In (EvRecv raw) tB -> session_data_read raw = inl m ->
            authentic (e_prims (c_env CB)) (s_crypto_mode s) (k_rx (s_keys s)) m p ->
            nth_error (sent_under CA (k_rx (s_keys s)) tA) (N.to_nat (am_nonce (sd_metadata m))) = Some p).
  { intros raw m p R1 R2 R3. assert (I : In (EvAuthOk s m0 p0) tB) by (rewrite Et; apply in_app_iff; right; left; reflexivity).
    destruct (U _ _ _ _ _ _ R1 R2 I R3) as (x & X1 & X2 & X3 & X4). unfold sealed_log in X1. rewrite P in X1.
    pose proof (proj1 (Forall_forall _ _) L x X1) as (md & S1 & S2). rewrite X2, X3 in S1. destruct (carries_unique _ _ _ _ _ _ _ _ X4 S1) as [-> ->].
    rewrite S2. eapply log_nth; eauto. }
  apply Forall_forall. intros [n p] Hx. unfold accepted_in in Hx. apply in_flat_map in Hx. destruct Hx as (e & E1 & E2). cbn [fst snd].
  destruct E1 as [<-|E1].
  - cbn in E2. destruct E2 as [E2|[]]. injection E2 as <- <-. pose proof (every_split _ _ J _ _ _ Et) as (J1 & J2 & J3 & _).
    eapply KEY; [|exact J1|exact J3]. rewrite Et. apply in_app_iff. left. eapply read_received; eauto.
  - apply in_split in E1. destruct E1 as (r1 & r2 & ->). assert (Et2 : tB = (t0 ++ EvAuthOk s m0 p0 :: r1) ++ e :: (r2 ++ t2)) by (rewrite Et; repeat (cbn [app]; rewrite <- ?app_assoc); reflexivity).
    pose proof (every_split _ _ J _ _ _ Et2) as J'. rewrite forallb_app in Hr. apply Bool.andb_true_iff in Hr. destruct Hr as [Hr1 Hr2]. cbn in Hr2. apply Bool.andb_true_iff in Hr2. destruct Hr2 as [Hr2 _].
    assert (LE : last_established (t0 ++ EvAuthOk s m0 p0 :: r1) None = Some s) by (rewrite last_established_app; cbn; apply established_kept; exact Hr1).
    destruct e; cbn in E2; try contradiction; try discriminate; destruct E2 as [E2|[]]; injection E2 as <- <-; cbn [justified] in J'.
    + destruct J' as (J1 & _ & _ & J3 & d & D1 & D2 & _). rewrite LE in D1. injection D1 as <-. destruct D2 as (_ & K1 & _ & K2 & _). rewrite <- K1, <- K2 in J3.
      eapply KEY; [|exact J1|exact J3]. rewrite Et2. apply in_app_iff. left. eapply read_received; eauto.
    + destruct J' as (J1 & _ & d & D1 & J3). rewrite LE in D1. injection D1 as <-.
      eapply KEY; [|exact J1|exact J3]. rewrite Et2. apply in_app_iff. left. eapply read_received; eauto.
Qed.

Lemma nonces_order : forall t mode max last st, forallb no_auth t = true -> play nonces (Some (mode, max, last)) t = Some st ->
  above last (map fst (accepted_in t)) /\ (mode = strict_increment -> consecutive last (map fst (accepted_in t))).
Proof.
  induction t as [|e t IH]; intros mode max last st Ha H; cbn in Ha; [split; cbn; auto|]. apply Bool.andb_true_iff in Ha. destruct Ha as [Ha1 Ha2].
  cbn [play] in H. destruct e; cbn [nonces no_auth] in *; try discriminate; try (eapply IH; eassumption).
  all: destruct (_ && _) eqn:E; [|discriminate H]; apply Bool.andb_true_iff in E; destruct E as [_ E]; destruct (IH _ _ _ _ Ha2 H) as [I1 I2]; cbn;
    (destruct mode; [apply N.eqb_eq in E|apply N.ltb_lt in E]); (split; [split; [lia|exact I1]|]); intros X; try discriminate X; split; auto.
Qed.

Lemma subseq_filter2 {A} (f : A -> bool) l l' : subseq l l' -> subseq (filter f l) (filter f l').
Proof. induction 1 as [l'|x l l' H IH|x l l' H IH]; [constructor| |]; cbn; destruct (f x); try constructor; exact IH. Qed.
Lemma filter_firstn {A} (f : A -> bool) l : forall n, exists m, filter f (firstn n l) = firstn m (filter f l).
Proof.
  induction l as [|x l IH]; intros [|n]; cbn; try (exists 0; reflexivity). destruct (IH n) as [m ->]. destruct (f x); [exists (S m)|exists m]; reflexivity.
Qed.

(** The data delivered in one session is the data sent, in order *)
Lemma pair_payloads CA lsA kA tA CB lsB kB tB s part : prims_ok (e_prims (c_env CA)) ->
  run CA (new_endpoint CA, []) lsA = Ok (kA, tA) -> Forall plain tA -> run CB (new_endpoint CB, []) lsB = Ok (kB, tB) ->
  fresh_keys tA -> unforged CA tA CB tB -> session_part tB s part ->
  subseq (payloads part) (filter nonempty (sent_under CA (k_rx (s_keys s)) tA)) /\
  (s_nonce_mode s = strict_increment -> exists n, payloads part = firstn n (filter nonempty (sent_under CA (k_rx (s_keys s)) tA))).
Proof.
  intros HP HA Hpl HB F U (t0 & m & p & rest & t2 & Et & -> & Hr). destruct (sealing_run _ _ _ _ HP HA Hpl) as (a & P & L).
  pose proof (accepted_sent _ _ _ _ _ _ _ _ _ _ _ P L F (justified_run _ _ _ _ HB) U Et Hr) as X.
  destruct (nonces_run _ _ _ _ HB) as [st N1]. rewrite Et, play_app in N1. destruct (play nonces None t0) as [st0|]; [|discriminate]. rewrite play_app in N1.
  destruct (play nonces st0 (EvAuthOk s m p :: rest)) as [st1|] eqn:N2; [|discriminate]. cbn [play nonces] in N2.
  destruct (N.eqb_spec (am_nonce (sd_metadata m)) 0) as [Z|]; [|discriminate]. destruct (nonces_order _ _ _ _ _ Hr N2) as [O1 O2].
  rewrite payloads_accepted. unfold accepted_in in *. cbn [flat_map accepted_of app] in *. apply Forall_cons_iff in X as [X1 X2]. cbn [fst snd] in X1. rewrite Z in X1. cbn [map snd].
  destruct (sent_under CA (k_rx (s_keys s)) tA) as [|c0 chunks] eqn:Es; [discriminate X1|]. cbn in X1. injection X1 as ->.
  split.
  - apply subseq_filter2. apply subseq_take. exact (subseq_indexed _ _ _ O1 X2).
  - intros Hm. pose proof (prefix_indexed _ _ _ (O2 Hm) X2) as Y. cbn [N.to_nat skipn] in Y. rewrite Y.
    apply (filter_firstn nonempty (p :: chunks) (S (length (flat_map accepted_of rest)))).
Qed.

(** What the application reads is among what was accepted *)
Definition rest_of (held : option (list N * bool)) : list (list N) := match held with Some (p, false) => [p] | _ => [] end.
Lemma reads_payloads : forall t held held', play delivery held t = Some held' -> subseq (read_data t) (rest_of held ++ payloads t).
Proof.
  induction t as [|e t IH]; intros held held' H; [constructor|]. cbn [play] in H. destruct (delivery held e) as [h1|] eqn:E; [|discriminate]. specialize (IH _ _ H).
  unfold read_data, payloads in *. cbn [flat_map].
  assert (SK : subseq (flat_map (fun e => match e with EvRead d => [d] | _ => [] end) t) (rest_of h1 ++ filter nonempty (flat_map (fun e => match e with EvAuthOk _ _ p | EvDataOk _ _ p => [p] | _ => [] end) t))) by exact IH.
  destruct e; cbn [delivery app] in *.
  all: try (injection E as <-; exact IH).
  all: try (injection E as <-; cbn [rest_of app] in IH; destruct held as [[q []]|]; cbn [rest_of app]; try apply subseq_skip; exact IH).
  - destruct held as [[q []]|]; try discriminate; injection E as <-; exact IH.
  - destruct held as [[q []]|]; try discriminate. destruct (bytes_eqb q data) eqn:B; [|discriminate]. injection E as <-. apply bytes_eqb_iff in B. subst q. apply subseq_take. exact IH.
  - destruct held; [discriminate|]. injection E as <-. cbn [rest_of app filter]. destruct payload as [|b p]; cbn [rest_of app filter nonempty] in *; exact IH.
  - destruct held; [discriminate|]. injection E as <-. cbn [rest_of app filter]. destruct payload as [|b p]; cbn [rest_of app filter nonempty] in *; exact IH.
Qed.
Lemma play_part {A} (f : A -> event -> option A) a t0 t1 t2 b : play f a (t0 ++ t1 ++ t2) = Some b -> exists a1 b1, play f a t0 = Some a1 /\ play f a1 t1 = Some b1.
Proof.
  rewrite play_app. destruct (play f a t0) as [a1|]; [|discriminate]. rewrite play_app. destruct (play f a1 t1) as [b1|] eqn:E; [|discriminate]. eauto.
Qed.
Lemma subseq_trans {A} (a b c : list A) : subseq a b -> subseq b c -> subseq a c.
Proof.
  intros H1 H2. revert a H1. induction H2 as [l|x l l' H IH|x l l' H IH]; intros a H1.
  - inversion H1; subst. constructor.
  - inversion H1; subst; constructor; auto.
  - constructor. auto.
Qed.
Lemma pair_reads CB lsB kB tB s part : c_via_stack CB = false -> along reader_ok CB (new_endpoint CB, []) lsB ->
  run CB (new_endpoint CB, []) lsB = Ok (kB, tB) -> session_part tB s part -> subseq (read_data part) (payloads part).
Proof.
  intros Hv HQ H (t0 & m & p & rest & t2 & -> & -> & Hr). destruct (delivery_run _ _ _ _ Hv HQ H) as [h D].
  apply play_part in D. destruct D as (a1 & b1 & _ & D). pose proof (reads_payloads _ _ _ D) as R. cbn [play delivery] in D. destruct a1; [discriminate|]. exact R.
Qed.

(** ** The sender's data comes from the application *)
Definition chunks (t : list event) : list (list N) := flat_map (fun e => match e with EvTx (TxAuth c) _ | EvTx (TxData c) _ => [c] | _ => [] end) t.
Lemma log_chunks i : forall t a a', play (sealing i) a t = Some a' -> map sm_data (klog a') = map sm_data (klog a) ++ chunks t.
Proof.
  induction t as [|e t IH]; intros a a' H; cbn [play] in H; [injection H as <-; symmetry; apply app_nil_r|]. destruct (sealing i a e) as [a1|] eqn:E; [|discriminate].
  rewrite (IH _ _ H). unfold chunks. cbn [flat_map]. rewrite app_assoc. f_equal. clear IH H.
  destruct (sealing_cases _ _ _ _ E) as [[-> _]|[(s & -> & ->)|[(s & m & p & x & -> & Hx & ->)|(k & s & n & data & f & -> & Hd & Hk)]]]; cbn [klog]; rewrite ?app_nil_r; try reflexivity.
  - destruct e; try (symmetry; apply app_nil_r). destruct k; try (symmetry; apply app_nil_r); exfalso; cbn in E.
    + destruct i; unfold seal in E; [destruct (kp a) as [[]|]|destruct (ka a) as [[]|]]; try discriminate E; apply (f_equal (fun x => option_map (fun y => length (klog y)) x)) in E; cbn in E; rewrite app_length in E; cbn in E; injection E; lia.
    + unfold seal in E; destruct (ka a) as [[]|]; try discriminate E; apply (f_equal (fun x => option_map (fun y => length (klog y)) x)) in E; cbn in E; rewrite app_length in E; cbn in E; injection E; lia.
  - destruct Hk as [[_ ->]|[_ ->]]; cbn [klog]; rewrite map_app; cbn; destruct Hd as [->| ->]; reflexivity.
Qed.
Lemma chunks_offered : forall t left left', play sending left t = Some left' ->
  exists s0 sent, starts_with left s0 /\ Forall2 starts_with (offered t) sent /\ concat (chunks t) = s0 ++ concat sent.
Proof.
  induction t as [|e t IH]; intros left left' H; cbn [play] in H; [exists [], []; repeat split; [exists left; reflexivity|constructor]|].
  destruct (sending left e) as [l1|] eqn:E; [|discriminate]. destruct (IH _ _ H) as (s0 & sent & S1 & S2 & S3). unfold offered, chunks in *. cbn [flat_map].
  assert (TX : forall c, l1 = skipn (length c) left -> c = firstn (length c) left -> starts_with left (c ++ s0)).
  { intros c -> Hc. destruct S1 as [r S1]. exists r. rewrite <- app_assoc, <- S1. rewrite Hc at 1. symmetry. apply firstn_skipn. }
  destruct e; cbn [sending app] in *.
  all: try (injection E as <-; exists s0, sent; auto; fail).
  - destruct k; try (injection E as <-; exists s0, sent; auto; fail).
    + destruct (bytes_eqb _ _) eqn:B; [|discriminate]. injection E as <-. apply bytes_eqb_iff in B. exists (data ++ s0), sent. split; [apply TX; auto|]. split; [exact S2|]. cbn [app concat]. rewrite S3. apply app_assoc.
    + match type of E with match ?c with [] => _ | _ :: _ => _ end = _ => destruct c; [discriminate|] end. destruct (bytes_eqb _ _) eqn:B; [|discriminate]. injection E as <-. apply bytes_eqb_iff in B. exists ((n :: data) ++ s0), sent. split; [apply (TX (n :: data)); auto|]. split; [exact S2|]. cbn [app concat]. rewrite S3. apply (app_assoc (n :: data)).
  - destruct left; [|discriminate]. injection E as <-. exists s0, sent. auto.
  - destruct left; [|discriminate]. injection E as <-. exists [], (s0 :: sent). split; [exists []; reflexivity|]. split; [constructor; auto|exact S3].
  - injection E as <-. destruct S1 as [r S1]. symmetry in S1. apply app_eq_nil in S1. destruct S1 as [-> _]. exists [], sent. split; [exists left; reflexivity|]. split; [exact S2|exact S3].
Qed.
Lemma piece_left (c l l1 : list N) : l1 = skipn (length c) l -> c = firstn (length c) l -> forall d, (exists a, d = a ++ l) -> piece_of c d /\ exists a, d = a ++ l1.
Proof.
  intros -> Hc d [a ->]. split; [exists a, (skipn (length c) l)|exists (a ++ c)]; rewrite ?app_assoc; [rewrite <- app_assoc|rewrite <- app_assoc]; do 2 f_equal; rewrite Hc at 1; symmetry; apply firstn_skipn.
Qed.
Lemma chunks_pieces : forall t past left left', play sending left t = Some left' -> (left = [] \/ exists d a, In d past /\ d = a ++ left) ->
  Forall (fun c => c = [] \/ exists d, In d (past ++ offered t) /\ piece_of c d) (chunks t).
Proof.
  induction t as [|e t IH]; intros past left left' H HL; cbn [play] in H; [constructor|].
  destruct (sending left e) as [l1|] eqn:E; [|discriminate]. unfold offered, chunks in *. cbn [flat_map].
  assert (GO : forall past', incl past' (past ++ match e with EvAccept d => [d] | _ => [] end) -> (l1 = [] \/ exists d a, In d past' /\ d = a ++ l1) ->
     Forall (fun c => c = [] \/ exists d, In d (past ++ match e with EvAccept d => [d] | _ => [] end ++ flat_map (fun e => match e with EvAccept d => [d] | _ => [] end) t) /\ piece_of c d)
       (flat_map (fun e => match e with EvTx (TxAuth c) _ | EvTx (TxData c) _ => [c] | _ => [] end) t)).
  { intros past' Hi X. eapply Forall_impl; [|eapply IH; eauto]. cbn. intros c [->|(d & D1 & D2)]; auto. right. exists d. split; auto.
    rewrite app_assoc. apply in_app_iff in D1 as [D1|D1]; apply in_app_iff; auto. }
  assert (TX : forall c, l1 = skipn (length c) left -> c = firstn (length c) left -> (c = [] \/ exists d, In d past /\ piece_of c d) /\ (l1 = [] \/ exists d a, In d past /\ d = a ++ l1)).
  { intros c X1 X2. destruct HL as [->|(d & a & D1 & D2)]; [rewrite firstn_nil in X2; rewrite skipn_nil in X1; auto|].
    destruct (piece_left _ _ _ X1 X2 d) as [Y1 (a' & Y2)]; eauto. split; right; eauto. }
  destruct e; cbn [sending app] in *.
  all: try (injection E as <-; apply (GO past); [rewrite app_nil_r; apply incl_refl|exact HL]; fail).
  - destruct k; try (injection E as <-; apply (GO past); [rewrite app_nil_r; apply incl_refl|exact HL]; fail).
    + destruct (bytes_eqb _ _) eqn:B; [|discriminate]. injection E as <-. apply bytes_eqb_iff in B. destruct (TX _ eq_refl B) as [X1 X2]. cbn [app]. constructor.
      * destruct X1 as [X1|(d & X1 & X3)]; auto. right. exists d. split; [apply in_app_iff; auto|exact X3].
      * apply (GO past); [rewrite app_nil_r; apply incl_refl|exact X2].
    + match type of E with match ?c with [] => _ | _ :: _ => _ end = _ => destruct c; [discriminate|] end. destruct (bytes_eqb _ _) eqn:B; [|discriminate]. injection E as <-. apply bytes_eqb_iff in B. destruct (TX (n :: data) eq_refl B) as [X1 X2]. cbn [app]. constructor.
      * destruct X1 as [X1|(d & X1 & X3)]; auto. right. exists d. split; [apply in_app_iff; auto|exact X3].
      * apply (GO past); [rewrite app_nil_r; apply incl_refl|exact X2].
  - destruct left; [|discriminate]. injection E as <-. apply (GO past); [rewrite app_nil_r; apply incl_refl|auto].
  - destruct left; [|discriminate]. injection E as <-. apply (GO (past ++ [data])); [apply incl_refl|]. right. exists data, []. split; [apply in_app_iff; right; left; reflexivity|reflexivity].
  - injection E as <-. apply (GO past); [rewrite app_nil_r; apply incl_refl|auto].
Qed.

(** ** The whole life of the sender *)
Lemma log_frames i : forall t a a', play (sealing i) a t = Some a' ->
  map (fun x => (sm_data x, sm_frame x)) (klog a') = map (fun x => (sm_data x, sm_frame x)) (klog a) ++
    flat_map (fun e => match e with EvTx (TxAuth c) f | EvTx (TxData c) f => [(c, f)] | _ => [] end) t.
Proof.
  induction t as [|e t IH]; intros a a' H; cbn [play] in H; [injection H as <-; symmetry; apply app_nil_r|]. destruct (sealing i a e) as [a1|] eqn:E; [|discriminate].
  rewrite (IH _ _ H). cbn [flat_map]. rewrite app_assoc. f_equal. clear IH H.
  destruct (sealing_cases _ _ _ _ E) as [[-> _]|[(s & -> & ->)|[(s & m & p & x & -> & Hx & ->)|(k & s & n & data & f & -> & Hd & Hk)]]]; cbn [klog]; rewrite ?app_nil_r; try reflexivity.
  - destruct e; try (symmetry; apply app_nil_r). destruct k; try (symmetry; apply app_nil_r); exfalso; cbn in E.
    + destruct i; unfold seal in E; [destruct (kp a) as [[]|]|destruct (ka a) as [[]|]]; try discriminate E; apply (f_equal (fun x => option_map (fun y => length (klog y)) x)) in E; cbn in E; rewrite app_length in E; cbn in E; injection E; lia.
    + unfold seal in E; destruct (ka a) as [[]|]; try discriminate E; apply (f_equal (fun x => option_map (fun y => length (klog y)) x)) in E; cbn in E; rewrite app_length in E; cbn in E; injection E; lia.
  - destruct Hk as [[_ ->]|[_ ->]]; cbn [klog]; rewrite map_app; cbn; destruct Hd as [->| ->]; reflexivity.
Qed.
Lemma log_run C ls k t : prims_ok (e_prims (c_env C)) -> conf_typed C -> along typed C (new_endpoint C, []) ls ->
  run C (new_endpoint C, []) ls = Ok (k, t) ->
  (exists st, play (sealing (is_initiator C)) kstart t = Some st) /\ Forall (seals_frame C) (sealed_log C t) /\
  map (fun x => (sm_data x, sm_frame x)) (sealed_log C t) =
    flat_map (fun e => match e with EvTx (TxAuth c) f | EvTx (TxData c) f => [(c, f)] | _ => [] end) t.
Proof.
  intros HP HC HQ H. destruct (sealing_run _ _ _ _ HP H (plain_run _ _ _ _ HP HC HQ H)) as (a & P & L). unfold sealed_log. rewrite P.
  split; [eauto|]. split; [exact L|]. exact (log_frames _ _ _ _ P).
Qed.

(** Positions in a filtered list *)
Lemma filter_position {A} (f : A -> bool) l : forall i x, nth_error l i = Some x -> f x = true ->
  nth_error (filter f l) (length (filter f (firstn i l))) = Some x.
Proof.
  induction l as [|y l IH]; intros [|i] x H Hf; cbn in *; try discriminate.
  - injection H as ->. rewrite Hf. reflexivity.
  - specialize (IH _ _ H Hf). destruct (f y); exact IH.
Qed.
Lemma filter_position_inj {A} (f : A -> bool) l : forall i j x y, nth_error l i = Some x -> nth_error l j = Some y -> f x = true -> f y = true ->
  length (filter f (firstn i l)) = length (filter f (firstn j l)) -> i = j.
Proof.
  induction l as [|z l IH]; intros [|i] [|j] x y Hi Hj Fx Fy E; cbn in *; try discriminate; auto.
  - injection Hi as ->. rewrite Fx in E. cbn in E. discriminate.
  - injection Hj as ->. rewrite Fy in E. cbn in E. discriminate.
  - f_equal. eapply IH; eauto. destruct (f z); cbn in E; congruence.
Qed.
Lemma log_unique C t a i j x y : play (sealing (is_initiator C)) kstart t = Some a -> fresh_keys t ->
  nth_error (sealed_log C t) i = Some x -> nth_error (sealed_log C t) j = Some y ->
  k_tx (s_keys (sm_session x)) = k_tx (s_keys (sm_session y)) -> sm_nonce x = sm_nonce y -> i = j.
Proof.
  intros P F Hi Hj Hk Hn. pose proof (ainv_play _ _ [] _ _ ainv_start P F) as [_ _ _ _ A]. specialize (A (key_of (sm_session x))). cbn [app] in A.
  unfold sealed_log in *. rewrite P in *.
  assert (Fx : under (key_of (sm_session x)) x = true) by (apply under_iff; reflexivity).
  assert (Fy : under (key_of (sm_session x)) y = true) by (apply under_iff; symmetry; exact Hk).
  eapply filter_position_inj; eauto.
  pose proof (counts_nth _ _ _ A (map_nth_eq sm_nonce _ _ _ (filter_position _ _ _ _ Hi Fx))) as E1.
  pose proof (counts_nth _ _ _ A (map_nth_eq sm_nonce _ _ _ (filter_position _ _ _ _ Hj Fy))) as E2. lia.
Qed.

Lemma established_in t : forall d s, last_established t d = Some s -> d = Some s \/ exists m p, In (EvAuthOk s m p) t.
Proof.
  induction t as [|e t IH]; intros d s H; cbn in H; auto. destruct e; try (destruct (IH _ _ H) as [->|(m' & p' & X)]; [auto|right; exists m', p'; right; exact X]; fail).
  destruct (IH _ _ H) as [X|(m' & p' & X)]; [injection X as ->; right; exists m, payload; left; reflexivity|right; exists m', p'; right; exact X].
Qed.
Lemma accepted_logged CA tA a CB tB e n p : play (sealing (is_initiator CA)) kstart tA = Some a -> Forall (seals_frame CA) (klog a) ->
  every (justified (e_prims (c_env CB))) [] tB -> unforged CA tA CB tB -> In e tB -> In (n, p) (accepted_of e) -> exists x, In x (klog a) /\ sm_data x = p.
Proof.
  intros P L J U He Ha. apply in_split in He. destruct He as (t0 & t1 & Et).
  assert (KEY : forall s m0 p0 raw m, In (EvAuthOk s m0 p0) tB -> In (EvRecv raw) tB -> session_data_read raw = inl m ->
            authentic (e_prims (c_env CB)) (s_crypto_mode s) (k_rx (s_keys s)) m p -> exists x, In x (klog a) /\ sm_data x = p).
  { intros s m0 p0 raw m I R1 R2 R3. destruct (U _ _ _ _ _ _ R1 R2 I R3) as (x & X1 & X2 & X3 & X4). unfold sealed_log in X1. rewrite P in X1.
    pose proof (proj1 (Forall_forall _ _) L x X1) as (md & S1 & S2). rewrite X2, X3 in S1. destruct (carries_unique _ _ _ _ _ _ _ _ X4 S1) as [_ X5]. eauto. }
  pose proof (every_split _ _ J _ _ _ Et) as J'.
  assert (RC : forall m, session_data_read (last_received t0 []) = inl m -> In (EvRecv (last_received t0 [])) tB) by (intros m X; rewrite Et; apply in_app_iff; left; eapply read_received; eauto).
  assert (ES : forall d, last_established t0 None = Some d -> exists m0 p0, In (EvAuthOk d m0 p0) tB).
  { intros d X. destruct (established_in _ _ _ X) as [Y|(m0 & p0 & Y)]; [discriminate|]. exists m0, p0. rewrite Et. apply in_app_iff. auto. }
  destruct e; cbn in Ha; try contradiction; destruct Ha as [Ha|[]]; injection Ha as <- <-; cbn [justified] in J'.
  - destruct J' as (J1 & J2 & J3 & _). eapply KEY; [|eapply RC; exact J1|exact J1|exact J3]. rewrite Et. apply in_app_iff. right. left. reflexivity.
  - destruct J' as (J1 & _ & _ & J3 & d & D1 & D2 & _). destruct D2 as (_ & K1 & _ & K2 & _). rewrite <- K1, <- K2 in J3. destruct (ES _ D1) as (m0 & p0 & D3). eapply KEY; [exact D3|eapply RC; exact J1|exact J1|exact J3].
  - destruct J' as (J1 & _ & d & D1 & J3). destruct (ES _ D1) as (m0 & p0 & D3). eapply KEY; [exact D3|eapply RC; exact J1|exact J1|exact J3].
Qed.
Lemma contents_accepted : forall t last last' d, play contents last t = Some last' -> In (EvRead d) t -> last = Some d \/ exists e n, In e t /\ In (n, d) (accepted_of e).
Proof.
  induction t as [|e t IH]; intros last last' d H Hd; cbn [play] in H; [destruct Hd|]. destruct (contents last e) as [l1|] eqn:E; [|discriminate].
  assert (GO : l1 = last -> In (EvRead d) t -> last = Some d \/ (exists e0 n, In e0 (e :: t) /\ In (n, d) (accepted_of e0))).
  { intros -> X. destruct (IH _ _ _ H X) as [Y|(e0 & n & Y1 & Y2)]; auto. right. exists e0, n. split; [right; exact Y1|exact Y2]. }
  assert (GO2 : forall n q, l1 = Some q -> In (n, q) (accepted_of e) -> In (EvRead d) t -> last = Some d \/ (exists e0 n, In e0 (e :: t) /\ In (n, d) (accepted_of e0))).
  { intros n q -> Hq X. destruct (IH _ _ _ H X) as [Y|(e0 & n0 & Y1 & Y2)]; [injection Y as ->; right; exists e, n; split; [left; reflexivity|exact Hq]|].
    right. exists e0, n0. split; [right; exact Y1|exact Y2]. }
  destruct Hd as [->|Hd].
  - cbn in E. destruct last as [q|]; [|discriminate]. destruct (bytes_eqb q d) eqn:B; [|discriminate]. apply bytes_eqb_iff in B. subst q. auto.
  - destruct e; cbn [contents] in E; try (injection E as <-; auto; fail).
    + destruct last as [q|]; [|discriminate]. destruct (bytes_eqb q data); [|discriminate]. injection E as <-. auto.
    + destruct payload as [|b q]; [injection E as <-; auto|]. injection E as <-. eapply GO2; [reflexivity|left; reflexivity|exact Hd].
    + destruct payload as [|b q]; [injection E as <-; auto|]. injection E as <-. eapply GO2; [reflexivity|left; reflexivity|exact Hd].
Qed.

Lemma contents_nonempty : forall t last last' d, play contents last t = Some last' -> In (EvRead d) t -> last <> Some [] -> d <> [].
Proof.
  induction t as [|e t IH]; intros last last' d H Hd Hl; cbn [play] in H; [destruct Hd|]. destruct (contents last e) as [l1|] eqn:E; [|discriminate].
  assert (X : l1 <> Some []).
  { destruct e; cbn [contents] in E; try (injection E as <-; exact Hl).
    - destruct last as [q|]; [|discriminate]. destruct (bytes_eqb q data); [|discriminate]. injection E as <-. exact Hl.
    - destruct payload; injection E as <-; [exact Hl|discriminate].
    - destruct payload; injection E as <-; [exact Hl|discriminate]. }
  destruct Hd as [->|Hd]; [|eapply IH; eauto]. cbn in E. destruct last as [q|]; [|discriminate]. destruct (bytes_eqb q d) eqn:B; [|discriminate]. apply bytes_eqb_iff in B. congruence.
Qed.
