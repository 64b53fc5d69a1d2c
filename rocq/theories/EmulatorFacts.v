(** * EmulatorFacts: proofs about the QIX emulator *)
From Coq Require Import ZArith Lia.
From Verif Require Import Base BaseFacts Crc Codec Link Qix QixSpec QixFacts Emulator EmulatorSpec.
Local Open Scope nat_scope.

Lemma port_bytes_app p a b : port_bytes p (a ++ b) = port_bytes p a ++ port_bytes p b.
Proof. unfold port_bytes. apply flat_map_app. Qed.
Lemma printed_app a b : printed (a ++ b) = printed a ++ printed b.
Proof. apply flat_map_app. Qed.
Lemma pauses_app a b : pauses (a ++ b) = pauses a ++ pauses b.
Proof. apply flat_map_app. Qed.
Lemma alarms_app a b : alarms (a ++ b) = alarms a ++ alarms b.
Proof. apply flat_map_app. Qed.

Lemma pb_printed p f l : port_bytes p (Printed f :: l) = port_bytes p l. Proof. reflexivity. Qed.
Lemma pb_until p z l : port_bytes p (SleptUntil z :: l) = port_bytes p l. Proof. reflexivity. Qed.
Lemma pr_printed f l : printed (Printed f :: l) = f :: printed l. Proof. reflexivity. Qed.
Lemma pr_until z l : printed (SleptUntil z :: l) = printed l. Proof. reflexivity. Qed.
Lemma pa_printed f l : pauses (Printed f :: l) = pauses l. Proof. reflexivity. Qed.
Lemma al_printed f l : alarms (Printed f :: l) = alarms l. Proof. reflexivity. Qed.
Lemma al_until z l : alarms (SleptUntil z :: l) = z :: alarms l. Proof. reflexivity. Qed.

Lemma qix_write_wire f : length (q_key f) = 32 -> qix_write f = Some (wire_of f).
Proof. intros H. unfold qix_write. rewrite H. cbn [Nat.eqb]. unfold wire_of, wire. now rewrite <- !app_assoc. Qed.

#[local] Opaque wire_of.

(** ** Writing to all ports *)
Lemma write_ports_quiet n : forall devs idx f, printed (fst (write_ports n idx devs f)) = [] /\ pauses (fst (write_ports n idx devs f)) = [] /\ alarms (fst (write_ports n idx devs f)) = [].
Proof.
  induction devs as [|d devs IH]; intros idx f; cbn [write_ports]; [auto|]. destruct (qix_write f) as [b|]; [|auto].
  destruct (d_takes d n) as [k|]; [auto|]. specialize (IH (S idx) f). destruct (write_ports n (S idx) devs f) as [l ok]. cbn. exact IH.
Qed.

Lemma write_ports_spec n f : length (q_key f) = 32 -> forall devs idx l ok, write_ports n idx devs f = (l, ok) ->
  (ok = true /\ forall p, port_bytes p l = if (idx <=? p) && (p <? idx + length devs) then wire_of f else []) \/
  (ok = false /\ exists j d k, nth_error devs j = Some d /\ d_takes d n = Some k /\
     forall p, port_bytes p l = if (idx <=? p) && (p <? idx + j) then wire_of f else if p =? idx + j then firstn k (wire_of f) else []).
Proof.
  intros H. pose proof (qix_write_wire f H) as W. induction devs as [|d devs IH]; intros idx l ok E; cbn [write_ports] in E.
  - inversion E; subst. left. split; [reflexivity|]. intros p. cbn [length]. replace ((idx <=? p) && (p <? idx + 0)) with false by lia. reflexivity.
  - rewrite W in E. destruct (d_takes d n) as [k|] eqn:T.
    + inversion E; subst. right. split; [reflexivity|]. exists 0, d, k. repeat split; auto. intros p. cbn [port_bytes flat_map].
      rewrite app_nil_r, Nat.add_0_r. destruct (idx <=? p) eqn:A, (p <? idx) eqn:B; cbn [andb]; try (rewrite Nat.eqb_sym; reflexivity); lia.
    + destruct (write_ports n (S idx) devs f) as [l' ok'] eqn:E1. inversion E; subst. destruct (IH _ _ _ E1) as [[-> G]|[-> [j [d' [k [G1 [G2 G3]]]]]]].
      * left. split; [reflexivity|]. intros p. cbn [port_bytes flat_map]. fold (port_bytes p l'). rewrite G. cbn [length].
        destruct (idx =? p) eqn:A.
        { apply Nat.eqb_eq in A. subst p. replace (S idx <=? idx) with false by lia. replace (idx <=? idx) with true by lia. replace (idx <? idx + S (length devs)) with true by lia. cbn. now rewrite app_nil_r. }
        cbn [app]. replace (idx <=? p) with (S idx <=? p) by lia. now replace (S idx + length devs) with (idx + S (length devs)) by lia.
      * right. split; [reflexivity|]. exists (S j), d', k. repeat split; auto. intros p. cbn [port_bytes flat_map]. fold (port_bytes p l'). rewrite G3.
        destruct (idx =? p) eqn:A.
        { apply Nat.eqb_eq in A. subst p. replace (S idx <=? idx) with false by lia. replace (idx <=? idx) with true by lia. replace (idx <? idx + S j) with true by lia.
          replace (idx =? S idx + j) with false by lia. cbn. now rewrite app_nil_r. }
        cbn [app]. replace (idx <=? p) with (S idx <=? p) by lia. now replace (S idx + j) with (idx + S j) by lia.
Qed.

(** ** A list of frames: what is written, how many were written to all ports, and whether all were *)
Fixpoint emit (devs : list device) (n : nat) (fs : list qframe) : list event * nat * bool :=
  match fs with
  | [] => ([], 0, true)
  | f :: fs' =>
      let (w, ok) := write_ports n 0 devs f in
      if ok then match emit devs (S n) fs' with (l, m, ok') => (w ++ l, S m, ok') end else (w, 0, false)
  end.

Lemma emit_true devs : forall fs n l m, emit devs n fs = (l, m, true) -> m = length fs.
Proof.
  induction fs as [|f fs IH]; intros n l m E; cbn [emit] in E; [inversion E; reflexivity|].
  destruct (write_ports n 0 devs f) as [w ok]. destruct ok; [|discriminate]. destruct (emit devs (S n) fs) as [[l' m'] ok'] eqn:E1.
  inversion E; subst. apply IH in E1. cbn. lia.
Qed.

Lemma emit_spec devs : forall fs n l m ok, Forall (fun f => length (q_key f) = 32) fs -> emit devs n fs = (l, m, ok) ->
  (ok = true /\ forall p, p < length devs -> port_bytes p l = wires fs) \/
  (ok = false /\ m < length fs /\ exists j d k f, nth_error devs j = Some d /\ d_takes d (n + m) = Some k /\ nth_error fs m = Some f /\
    forall p, p < length devs -> port_bytes p l = if p <? j then wires (firstn (S m) fs) else if p =? j then wires (firstn m fs) ++ firstn k (wire_of f) else wires (firstn m fs)).
Proof.
  induction fs as [|f fs IH]; intros n l m ok H E; cbn [emit] in E.
  - inversion E; subst. left. auto.
  - inversion H as [|? ? H1 H2]; subst. destruct (write_ports n 0 devs f) as [w okw] eqn:W. destruct (write_ports_spec n f H1 devs 0 w okw W) as [[-> G]|[-> [j [d [k [G1 [G2 G3]]]]]]].
    + destruct (emit devs (S n) fs) as [[l' m'] ok'] eqn:E1. inversion E; subst.
      assert (forall p, p < length devs -> port_bytes p w = wire_of f) as G' by (intros p Hp; rewrite G; replace (p <? 0 + length devs) with true by lia; now rewrite andb_true_r).
      destruct (IH _ _ _ _ H2 E1) as [[-> K]|[-> [Hm [j [d [k [f' [K1 [K2 [K3 K4]]]]]]]]]].
      * left. split; [reflexivity|]. intros p Hp. rewrite port_bytes_app, G', K by assumption. reflexivity.
      * right. split; [reflexivity|]. split; [cbn; lia|]. exists j, d, k, f'. repeat split; auto.
        { rewrite <- K2. f_equal. lia. }
        intros p Hp. rewrite port_bytes_app, G', K4 by assumption. cbn [firstn wires flat_map]. fold (wires (firstn m' fs)).
        destruct (p <? j); [reflexivity|]. destruct (p =? j); [now rewrite app_assoc|reflexivity].
    + inversion E; subst. right. split; [reflexivity|]. split; [cbn; lia|]. exists j, d, k, f. repeat split; auto.
      { rewrite <- G2. f_equal. lia. }
      intros p Hp. rewrite G3. cbn [Nat.add Nat.leb andb firstn wires flat_map app]. destruct (p <? j); [now rewrite app_nil_r|]. reflexivity.
Qed.

Lemma write_ports_reliable n f : length (q_key f) = 32 -> forall devs idx, Forall reliable devs -> snd (write_ports n idx devs f) = true.
Proof.
  intros H. pose proof (qix_write_wire f H) as W. induction devs as [|d devs IH]; intros idx R; cbn [write_ports]; [reflexivity|].
  inversion R as [|? ? [_ R1] R2]; subst. rewrite W, R1. specialize (IH (S idx) R2). destruct (write_ports n (S idx) devs f). exact IH.
Qed.
Lemma emit_reliable devs : Forall reliable devs -> forall fs n, Forall (fun f => length (q_key f) = 32) fs -> snd (emit devs n fs) = true.
Proof.
  intros R. induction fs as [|f fs IH]; intros n H; cbn [emit]; [reflexivity|]. inversion H as [|? ? H1 H2]; subst.
  pose proof (write_ports_reliable n f H1 devs 0 R) as G. destruct (write_ports n 0 devs f) as [w ok]. cbn [snd] in G. subst ok.
  specialize (IH (S n) H2). destruct (emit devs (S n) fs) as [[l m] ok]. exact IH.
Qed.

(** ** Numbering *)
Definition numbered_from (i : N) (keys : list (list N)) : list qframe := map (fun j => frame (i + N.of_nat j) (nth j keys [])) (seq 0 (length keys)).
Lemma numbered_from_cons i k ks : numbered_from i (k :: ks) = frame i k :: numbered_from (i + 1) ks.
Proof.
  unfold numbered_from. cbn [length seq map nth]. rewrite N.add_0_r. f_equal. rewrite <- seq_shift, map_map. apply map_ext. intros j. f_equal. lia.
Qed.
Lemma numbered_from_0 keys : numbered_from 0 keys = numbered keys.
Proof. reflexivity. Qed.
Lemma numbered_from_length i keys : length (numbered_from i keys) = length keys.
Proof. unfold numbered_from. now rewrite map_length, seq_length. Qed.

(** ** Random keys *)
Lemma random_loop_spec devs count delay : (count < 2 ^ 64)%N -> forall ds n i log st, (i <= count)%N ->
  random_loop devs count delay n i ds = (log, st) ->
  exists l m ok, emit devs n (numbered_from i (map dr_key (firstn (N.to_nat (count - i)) ds))) = (l, m, ok) /\
    (forall p, port_bytes p log = port_bytes p l) /\
    printed log = firstn m (numbered_from i (map dr_key (firstn (N.to_nat (count - i)) ds))) /\
    (ok = true -> st = if (N.of_nat (length ds) <? count - i)%N then Running else Exit 0) /\ (ok = false -> st = Exit (-1)) /\
    (Forall (fun d => (dr_start d - dr_end d < delay)%Z) ds -> pauses log = map (fun d => (delay + (dr_end d - dr_start d))%Z) (firstn m ds)).
Proof.
  intros Hc. induction ds as [|d ds IH]; intros n i log st Hi E; cbn [random_loop] in E.
  - exists [], 0, true. rewrite firstn_nil. cbn [map]. destruct (N.ltb_spec i count); inversion E; subst; repeat split; auto; try discriminate; intros _.
    + replace (N.of_nat (length (@nil draw)) <? count - i)%N with true by (cbn [length]; lia). reflexivity.
    + replace (N.of_nat (length (@nil draw)) <? count - i)%N with false by (cbn [length]; lia). reflexivity.
  - destruct (N.ltb_spec i count) as [L|L].
    + replace (N.to_nat (count - i)) with (S (N.to_nat (count - (i + 1)))) by lia. cbn [firstn map]. rewrite numbered_from_cons. cbn [emit].
      fold (frame i (dr_key d)) in E. destruct (write_ports n 0 devs (frame i (dr_key d))) as [w ok] eqn:W.
      pose proof (write_ports_quiet n devs 0 (frame i (dr_key d))) as Q. rewrite W in Q. cbn [fst] in Q. destruct Q as [Q1 [Q2 _]]. destruct ok.
      * assert (u64 (i + 1) = i + 1)%N as U by (unfold u64, trunc; apply N.mod_small; lia). rewrite U in E.
        destruct (random_loop devs count delay (S n) (i + 1) ds) as [log' st'] eqn:E1.
        destruct (IH (S n) (i + 1)%N log' st' ltac:(lia) E1) as [l [m [ok [A [B [C [D [F G]]]]]]]]. rewrite A.
        inversion E; subst st' log. exists (w ++ l), (S m), ok. split; [reflexivity|]. split; [|split; [|split; [|split]]].
        { intros p. rewrite port_bytes_app, pb_printed, port_bytes_app, B, port_bytes_app. f_equal. destruct (dr_start d - dr_end d <? delay)%Z; reflexivity. }
        { rewrite printed_app, Q1, pr_printed, printed_app, C. cbn [app firstn]. f_equal. destruct (dr_start d - dr_end d <? delay)%Z; reflexivity. }
        { intros T. rewrite (D T). replace (N.of_nat (length (d :: ds)) <? count - i)%N with (N.of_nat (length ds) <? count - (i + 1))%N by (cbn [length]; lia). reflexivity. }
        { exact F. }
        { intros T. inversion T as [|? ? T1 T2]; subst. rewrite pauses_app, Q2, pa_printed, pauses_app, (G T2).
          replace (dr_start d - dr_end d <? delay)%Z with true by lia. cbn [pauses flat_map app firstn map]. f_equal. lia. }
      * inversion E; subst. exists log, 0, false. repeat split; auto; try discriminate.
    + inversion E; subst. replace (N.to_nat (count - i)) with 0 by lia. exists [], 0, true. repeat split; auto; try discriminate.
      intros _. replace (N.of_nat (length (d :: ds)) <? count - i)%N with false by lia. reflexivity.
Qed.

(** ** Keys from lines *)
Lemma line_byte_inv line byte : forall b, b <= 8 ->
  match fold_left (add_bit line byte) (seq 0 b) (Some 0%N) with
  | Some s => (s < 256)%N /\ (forall j, j < b -> nth (byte * 8 + j) line 0%N = 49%N \/ nth (byte * 8 + j) line 0%N = 48%N) /\
              forall j, j < 8 -> N.testbit s (N.of_nat (7 - j)) = (j <? b) && (nth (byte * 8 + j) line 0 =? 49)%N
  | None => exists j, j < b /\ nth (byte * 8 + j) line 0%N <> 49%N /\ nth (byte * 8 + j) line 0%N <> 48%N
  end.
Proof.
  induction b as [|b IH]; intros Hb.
  - cbn. split; [lia|]. split; [lia|]. intros j Hj. now destruct (N.of_nat (7 - j)).
  - rewrite seq_S, fold_left_app. cbn [fold_left Nat.add]. specialize (IH ltac:(lia)). destruct (fold_left (add_bit line byte) (seq 0 b) (Some 0%N)) as [s|].
    + destruct IH as [I1 [I2 I3]]. cbn [add_bit]. destruct (N.eqb_spec (nth (byte * 8 + b) line 0%N) 49) as [E|E].
      * split; [unfold u8, trunc; apply N.mod_upper_bound; discriminate|]. split.
        { intros j Hj. destruct (Nat.eq_dec j b) as [->|]; [auto|apply I2; lia]. }
        intros j Hj. unfold u8, trunc. rewrite N.mod_pow2_bits_low by lia. rewrite N.lor_spec, N.shiftl_1_l, N.pow2_bits_eqb, I3 by assumption.
        destruct (Nat.eq_dec j b) as [->|].
        { rewrite E, N.eqb_refl. replace (b <? S b) with true by lia. rewrite N.eqb_refl. apply orb_true_r. }
        replace (N.of_nat (7 - b) =? N.of_nat (7 - j))%N with false by lia. rewrite orb_false_r. f_equal. lia.
      * destruct (N.eqb_spec (nth (byte * 8 + b) line 0%N) 48) as [E'|E'].
        { split; [exact I1|]. split.
          - intros j Hj. destruct (Nat.eq_dec j b) as [->|]; [auto|apply I2; lia].
          - intros j Hj. rewrite I3 by assumption. destruct (Nat.eq_dec j b) as [->|]; [rewrite E'; replace (b <? b) with false by lia; now destruct (b <? S b)|]. f_equal. lia. }
        exists b. auto.
    + cbn [add_bit]. destruct IH as [j [A B]]. exists j. split; [lia|exact B].
Qed.

Lemma byte_eq a b : (a < 256)%N -> (b < 256)%N -> (forall j, j < 8 -> N.testbit a (N.of_nat (7 - j)) = N.testbit b (N.of_nat (7 - j))) -> a = b.
Proof.
  intros Ha Hb H. apply N.bits_inj. intros n. destruct (N.ltb_spec n 8) as [L|L].
  - specialize (H (7 - N.to_nat n)). replace (N.of_nat (7 - (7 - N.to_nat n))) with n in H by lia. apply H. lia.
  - rewrite <- (N.mod_small a (2 ^ 8)), <- (N.mod_small b (2 ^ 8)) by assumption. now rewrite !N.mod_pow2_bits_high.
Qed.

Definition byte_of_line (line : list N) (byte : nat) (v : N) : Prop :=
  (v < 256)%N /\ forall j, j < 8 -> nth (byte * 8 + j) line 0%N = if N.testbit v (N.of_nat (7 - j)) then 49%N else 48%N.
Lemma line_byte_iff line byte v : line_byte line byte = Some v <-> byte_of_line line byte v.
Proof.
  unfold line_byte, byte_of_line. pose proof (line_byte_inv line byte 8 (le_n _)) as I. split.
  - intros E. rewrite E in I. destruct I as [I1 [I2 I3]]. split; [exact I1|]. intros j Hj. rewrite I3 by exact Hj. replace (j <? 8) with true by lia. cbn.
    destruct (I2 j Hj) as [->| ->]; reflexivity.
  - intros [H1 H2]. destruct (fold_left (add_bit line byte) (seq 0 8) (Some 0%N)) as [s|].
    + f_equal. destruct I as [I1 [I2 I3]]. apply byte_eq; auto. intros j Hj. rewrite I3 by exact Hj. rewrite H2 by exact Hj. replace (j <? 8) with true by lia.
      destruct (N.testbit v _); reflexivity.
    + destruct I as [j [Hj [A B]]]. rewrite H2 in A, B by exact Hj. destruct (N.testbit v _); congruence.
Qed.

Lemma all_some_iff {A B} (f : A -> option B) : forall l r, all_some (map f l) = Some r <-> Forall2 (fun x y => f x = Some y) l r.
Proof.
  induction l as [|x l IH]; intros r; cbn [map all_some].
  - split; [intros E; inversion E; constructor|intros E; inversion E; reflexivity].
  - split.
    + intros E. destruct (f x) as [y|] eqn:F; [|discriminate]. destruct (all_some (map f l)) as [r'|] eqn:E1; [|discriminate]. inversion E; subst. constructor; [exact F|]. now apply IH.
    + intros E. inversion E as [|? y ? r' F E1]; subst. rewrite F. apply IH in E1. now rewrite E1.
Qed.

Lemma Forall2_seq {B} (P : nat -> B -> Prop) (d : B) : forall n a r, Forall2 P (seq a n) r <-> length r = n /\ forall i, i < n -> P (a + i) (nth i r d).
Proof.
  induction n as [|n IH]; intros a r; cbn [seq].
  - split; [intros E; inversion E; split; [reflexivity|lia]|]. intros [E _]. destruct r; [constructor|discriminate].
  - split.
    + intros E. inversion E as [|? y ? r' F E1]; subst. apply IH in E1. destruct E1 as [E1 E2]. split; [cbn; lia|]. intros [|i] Hi; cbn; [now rewrite Nat.add_0_r|].
      replace (a + S i) with (S a + i) by lia. apply E2. lia.
    + intros [E F]. destruct r as [|y r]; [discriminate|]. constructor; [specialize (F 0 ltac:(lia)); now rewrite Nat.add_0_r in F|].
      apply IH. split; [cbn in E; lia|]. intros i Hi. specialize (F (S i) ltac:(lia)). now replace (a + S i) with (S a + i) in F by lia.
Qed.

Lemma line_key_iff line k : line_key line = Some k <-> spells line k.
Proof.
  unfold line_key, spells, is_key. destruct (Nat.eqb_spec (length line) 256) as [L|L]; [|split; [discriminate|tauto]].
  rewrite all_some_iff, (Forall2_seq _ 0%N). split.
  - intros [H1 H2]. split; [exact L|]. split.
    + split; [exact H1|]. apply Forall_forall. intros x Hx. destruct (In_nth _ _ 0%N Hx) as [i [Hi <-]]. rewrite H1 in Hi. specialize (H2 i Hi). apply line_byte_iff in H2. apply H2.
    + intros i Hi. pose proof (Nat.div_mod i 8 ltac:(lia)) as D. pose proof (Nat.mod_upper_bound i 8 ltac:(lia)) as M. assert (i / 8 < 32) as Q by (apply Nat.div_lt_upper_bound; lia).
      specialize (H2 (i / 8) Q). apply line_byte_iff in H2. destruct H2 as [_ H2]. cbn [Nat.add] in H2. specialize (H2 (i mod 8) M). rewrite <- H2. f_equal. lia.
  - intros [_ [[H1 H2] H3]]. split; [exact H1|]. intros i Hi. apply line_byte_iff. split.
    + cbn [Nat.add]. unfold bytes_ok in H2. rewrite Forall_forall in H2. apply H2. apply nth_In. lia.
    + intros j Hj. cbn [Nat.add]. rewrite H3 by lia. replace ((i * 8 + j) / 8) with i by (rewrite Nat.add_comm, Nat.div_add, Nat.div_small; lia).
      replace ((i * 8 + j) mod 8) with j by (rewrite Nat.add_comm, Nat.mod_add, Nat.mod_small; lia). reflexivity.
Qed.

Lemma spells_key line k : spells line k -> is_key k.
Proof. unfold spells. tauto. Qed.

(** The line of a key *)
Definition line_of (k : list N) : list N := map (fun i => if N.testbit (nth (i / 8) k 0%N) (N.of_nat (7 - i mod 8)) then 49%N else 48%N) (seq 0 256).
Lemma line_of_spells k : is_key k -> spells (line_of k) k.
Proof.
  intros H. unfold spells, line_of. split; [now rewrite map_length, seq_length|]. split; [exact H|]. intros i Hi.
  erewrite nth_indep by (now rewrite map_length, seq_length). rewrite map_nth, seq_nth by exact Hi. reflexivity.
Unshelve. exact 0.
Qed.

Lemma stdin_loop_spec devs : forall keys lines rest n i log st, (i + N.of_nat (length keys) < 2 ^ 64)%N -> Forall2 spells lines keys ->
  match rest with [] => True | l :: _ => forall k, ~ spells l k end ->
  stdin_loop devs n i (lines ++ rest) = (log, st) ->
  exists m ok, emit devs n (numbered_from i keys) = (log, m, ok) /\ printed log = [] /\
    (ok = true -> st = match rest with [] => Exit 0 | _ => Exit (-1) end) /\ (ok = false -> st = Exit (-1)).
Proof.
  intros keys lines rest n i log st Hn F. revert n i log st Hn. induction F as [|line k lines keys S F IH]; intros n i log st Hn Hr E.
  - cbn [app] in E. exists 0, true. destruct rest as [|l rest]; cbn [stdin_loop] in E; [inversion E; subst; repeat split; auto; discriminate|].
    destruct (line_key l) as [k|] eqn:K; [apply line_key_iff in K; destruct (Hr k K)|]. inversion E; subst. repeat split; auto; discriminate.
  - cbn [app stdin_loop] in E. apply line_key_iff in S. rewrite S in E. fold (frame i k) in E. rewrite numbered_from_cons. cbn [emit].
    pose proof (write_ports_quiet n devs 0 (frame i k)) as Q. destruct (write_ports n 0 devs (frame i k)) as [w okw]. destruct Q as [Q _]. cbn [fst] in Q. destruct okw.
    + assert (u64 (i + 1) = i + 1)%N as U by (unfold u64, trunc; apply N.mod_small; cbn [length] in Hn; lia). rewrite U in E.
      destruct (stdin_loop devs (Datatypes.S n) (i + 1) (lines ++ rest)) as [log' st'] eqn:E1.
      destruct (IH (Datatypes.S n) (i + 1)%N log' st' ltac:(cbn [length] in Hn; lia) Hr E1) as [m [ok [A [B [C D]]]]]. rewrite A. inversion E; subst.
      exists (Datatypes.S m), ok. split; [reflexivity|]. split; [now rewrite printed_app, Q, B|]. auto.
    + inversion E; subst. exists 0, false. repeat split; auto; discriminate.
Qed.

(** ** Time-based keys *)
Lemma to_ms_ms t : (0 <= t < 2 ^ 63)%Z -> to_ms t = ms t.
Proof.
  intros H. unfold to_ms, ms. rewrite Z.quot_div_nonneg by lia. rewrite Z.mod_small; [reflexivity|]. split; [apply Z.div_pos; lia|]. apply Z.div_lt_upper_bound; lia.
Qed.

Lemma next_event_next m t : m <> 0%N -> clock_ok m t ->
  in_int64 (next_event m t) = true /\ is_next m t (to_ms (next_event m t)) /\ ms (next_event m t) = to_ms (next_event m t).
Proof.
  intros Hm [H1 H2]. unfold next_event. rewrite to_ms_ms by lia. pose proof (N.mod_upper_bound (ms t) m Hm) as M. pose proof (N.div_mod (ms t) m Hm) as D.
  set (r := (ms t mod m)%N) in *. set (z := (t + Z.of_N (m - r) * 1000000)%Z).
  assert (0 <= z < 2 ^ 63)%Z as Hz by (unfold z; nia). rewrite (to_ms_ms z Hz).
  assert (ms z = ms t + (m - r))%N as E.
  { unfold ms, z. rewrite Z.div_add by lia. assert (0 <= t / 1000000)%Z by (apply Z.div_pos; lia). lia. }
  split; [unfold in_int64; lia|]. split; [|reflexivity]. rewrite E. split; [|lia]. exists (ms t / m + 1)%N. lia.
Qed.

Lemma is_next_unique m t a b : is_next m t a -> is_next m t b -> a = b.
Proof.
  intros [[q ->] [A1 A2]] [[q' ->] [B1 B2]]. assert (q = q'); [|congruence].
  destruct (N.lt_trichotomy q q') as [L|[L|L]]; [|exact L|]; exfalso; nia.
Qed.

Lemma is_next_bound m t id : clock_ok m t -> is_next m t id -> (id < 2 ^ 64)%N.
Proof.
  intros [H1 H2] [_ [_ H]]. unfold ms in H. assert (t / 1000000 < 2 ^ 63)%Z by (apply Z.div_lt_upper_bound; lia). assert (0 <= t / 1000000)%Z by (apply Z.div_pos; lia).
  assert (Z.of_N m < 2 ^ 63)%Z by lia. lia.
Qed.

Lemma time_frame_unique hash m t f g : time_frame hash m t f -> time_frame hash m t g -> f = g.
Proof. intros [a [A ->]] [b [B ->]]. now rewrite (is_next_unique _ _ _ _ A B). Qed.

Lemma time_loop_spec hash devs count m : (count < 2 ^ 64)%N -> m <> 0%N -> forall clock n i log st, (i <= count)%N -> Forall (clock_ok m) clock ->
  time_loop hash devs count m n i clock = (log, st) ->
  exists fs l done ok, Forall2 (time_frame hash m) (firstn (N.to_nat (count - i)) clock) fs /\ emit devs n fs = (l, done, ok) /\
    (forall p, port_bytes p log = port_bytes p l) /\ printed log = firstn done fs /\
    (ok = true -> st = if (N.of_nat (length clock) <? count - i)%N then Running else Exit 0) /\ (ok = false -> st = Exit (-1)) /\
    Forall2 (fun z f => ms z = q_id f) (alarms log) (firstn (if ok then done else S done) fs).
Proof.
  intros Hc Hm. induction clock as [|t clock IH]; intros n i log st Hi F E; cbn [time_loop] in E.
  - exists [], [], 0, true. rewrite firstn_nil. destruct (N.ltb_spec i count); inversion E; subst; repeat split; auto; try discriminate; try constructor; intros _.
    + replace (N.of_nat (length (@nil Z)) <? count - i)%N with true by (cbn [length]; lia). reflexivity.
    + replace (N.of_nat (length (@nil Z)) <? count - i)%N with false by (cbn [length]; lia). reflexivity.
  - inversion F as [|? ? F1 F2]; subst. destruct (N.ltb_spec i count) as [L|L].
    + destruct (next_event_next m t Hm F1) as [N1 [N2 N3]]. rewrite N1 in E. cbn [negb] in E. fold (frame (to_ms (next_event m t)) (hash (be_bytes 8 (to_ms (next_event m t))))) in E.
      set (f := frame (to_ms (next_event m t)) (hash (be_bytes 8 (to_ms (next_event m t))))) in *.
      assert (time_frame hash m t f) as TF by (exists (to_ms (next_event m t)); auto).
      replace (N.to_nat (count - i)) with (S (N.to_nat (count - (i + 1)))) by lia. cbn [firstn].
      pose proof (write_ports_quiet n devs 0 f) as Q. destruct (write_ports n 0 devs f) as [w ok] eqn:W. cbn [fst] in Q. destruct Q as [Q1 [_ Q3]]. destruct ok.
      * assert (u64 (i + 1) = i + 1)%N as U by (unfold u64, trunc; apply N.mod_small; lia). rewrite U in E.
        destruct (time_loop hash devs count m (S n) (i + 1) clock) as [log' st'] eqn:E1.
        destruct (IH (S n) (i + 1)%N log' st' ltac:(lia) F2 E1) as [fs [l [k [ok [Z [A [B [C [D [G H]]]]]]]]]].
        exists (f :: fs), (w ++ l), (S k), ok. inversion E; subst st' log. split; [constructor; assumption|]. cbn [emit]. rewrite W, A. split; [reflexivity|]. split; [|split; [|split; [|split]]].
        { intros p. now rewrite pb_until, !port_bytes_app, pb_printed, B. }
        { now rewrite pr_until, printed_app, Q1, pr_printed, C. }
        { intros T. rewrite (D T). replace (N.of_nat (length (t :: clock)) <? count - i)%N with (N.of_nat (length clock) <? count - (i + 1))%N by (cbn [length]; lia). reflexivity. }
        { exact G. }
        { rewrite al_until, alarms_app, Q3, al_printed. cbn [app]. replace (if ok then S k else S (S k)) with (S (if ok then k else S k)) by (destruct ok; reflexivity).
          cbn [firstn]. constructor; [exact N3|exact H]. }
      * destruct (IH (S n) (i + 1)%N _ _ ltac:(lia) F2 (surjective_pairing _)) as [fs [l [k [ok [Z _]]]]].
        inversion E; subst. exists (f :: fs), w, 0, false. split; [constructor; assumption|]. cbn [emit]. rewrite W. repeat split; auto; try discriminate.
        rewrite al_until, Q3. cbn [firstn]. constructor; [exact N3|constructor].
    + inversion E; subst. replace (N.to_nat (count - i)) with 0 by lia. exists [], [], 0, true. repeat split; auto; try discriminate; try constructor.
      intros _. replace (N.of_nat (length (t :: clock)) <? count - i)%N with false by lia. reflexivity.
Qed.

Lemma clock_forward_increasing hash m : forall clock fs, clock_forward m clock -> Forall2 (time_frame hash m) clock fs -> increasing (map q_id fs).
Proof.
  induction clock as [|t clock IH]; intros fs C F; inversion F as [|? f ? fs' T F']; subst; [exact I|].
  destruct clock as [|t' clock]; inversion F' as [|? f' ? fs'' T' F'']; subst; [exact I|]. cbn [map increasing]. destruct C as [C1 C2]. split.
  - destruct T as [a [A ->]], T' as [b [B ->]]. cbn [frame q_id]. specialize (C1 a A). destruct B as [_ [B _]]. lia.
  - apply (IH (f' :: fs'') C2). constructor; assumption.
Qed.
Lemma clock_forward_firstn m : forall n clock, clock_forward m clock -> clock_forward m (firstn n clock).
Proof.
  induction n as [|n IH]; intros clock C; [exact I|]. destruct clock as [|t clock]; [exact I|]. destruct clock as [|t' clock]; [destruct n; exact I|].
  destruct n as [|n]; [exact I|]. destruct C as [C1 C2]. specialize (IH _ C2). cbn [firstn] in *. split; [exact C1|exact IH].
Qed.

Lemma time_frame_well_formed hash m t f : hash_ok hash -> clock_ok m t -> time_frame hash m t f -> well_formed f.
Proof. intros H C [id [A ->]]. destruct (H (be_bytes 8 id)) as [H1 H2]. split; [eapply is_next_bound; eauto|]. cbn. auto. Qed.

Lemma numbered_from_well_formed : forall keys i, Forall is_key keys -> (i + N.of_nat (length keys) < 2 ^ 64)%N -> Forall well_formed (numbered_from i keys).
Proof.
  induction keys as [|k keys IH]; intros i H L; [constructor|]. inversion H as [|? ? [H1 H1'] H2]; subst. rewrite numbered_from_cons. cbn [length] in L. constructor.
  - split; cbn [frame q_id q_key q_status]; [lia|]. auto.
  - apply IH; [exact H2|lia].
Qed.
