(** * CrcMain: proofs of the CRC theorems stated in PropCrc.v *)
From Verif Require Import Base BaseFacts Crc CrcSpec CrcFacts.

Local Open Scope N_scope.

Definition zeros (n : nat) := repeat false n.

(** Augmented register step: shift in a message bit at the top. *)
Definition astep (r : N) (b : bool) : N := N.lxor (rstep r false) (if b then 0xF4ACFB13 else 0).

Lemma astep_lin c d a b : astep (N.lxor c d) (xorb a b) = N.lxor (astep c a) (astep d b).
Proof.
  unfold astep. change false with (xorb false false) at 1. rewrite rstep_lin.
  rewrite lxor4. f_equal. destruct a, b; reflexivity.
Qed.

Lemma fold_astep_lin a : forall b c d, length a = length b ->
  fold_left astep (xorl a b) (N.lxor c d) = N.lxor (fold_left astep a c) (fold_left astep b d).
Proof.
  unfold xorl.
  induction a as [|x a IH]; intros [|y b] c d H; cbn in H; try discriminate; [reflexivity|].
  cbn [combine map fst snd fold_left]. rewrite astep_lin. apply IH. congruence.
Qed.

Lemma rem_zeros_snoc l b : rem ((l ++ [b]) ++ zeros 32) = astep (rem (l ++ zeros 32)) b.
Proof.
  unfold astep. rewrite <- app_assoc. rewrite rem_app.
  assert (H1 : rem ([b] ++ zeros 32) = if b then 0xF4ACFB13 else 0) by (destruct b; vm_compute; reflexivity).
  rewrite H1. f_equal.
  rewrite rem_app. replace (rem (zeros 32)) with 0 by (symmetry; apply zeros_from_0). rewrite N.lxor_0_r.
  replace (length ([b] ++ zeros 32)) with 33%nat by reflexivity.
  change (zeros 32) with (repeat false 32). rewrite repeat_length.
  change (repeat false 33) with (repeat false (32 + 1)). rewrite repeat_app, fold_left_app. reflexivity.
Qed.

Lemma fold_astep_rem l : fold_left astep l 0 = rem (l ++ zeros 32).
Proof.
  induction l as [|b l IH] using rev_ind.
  - symmetry. apply zeros_from_0.
  - rewrite fold_left_app, rem_zeros_snoc, IH. reflexivity.
Qed.

(** The complete table check: all 256 x 256 combinations of top byte and message byte. *)
Definition bytes_all : list N := map N.of_nat (seq 0 256).

Lemma bytes_all_in b : b < 256 -> In b bytes_all.
Proof.
  intros H. unfold bytes_all. rewrite <- (N2Nat.id b). apply in_map, in_seq. lia.
Qed.

Lemma table_check :
  forallb (fun hi => forallb (fun b =>
    N.eqb (fold_left astep (byte_bits b) (N.shiftl hi 24)) (nth (N.to_nat (N.lxor b hi)) crc_table 0))
    bytes_all) bytes_all = true.
Proof. vm_compute. reflexivity. Qed.

Lemma table_at hi b : hi < 256 -> b < 256 ->
  fold_left astep (byte_bits b) (N.shiftl hi 24) = nth (N.to_nat (N.lxor b hi)) crc_table 0.
Proof.
  intros Hh Hb. pose proof table_check as H. rewrite forallb_forall in H.
  specialize (H hi (bytes_all_in hi Hh)). rewrite forallb_forall in H.
  specialize (H b (bytes_all_in b Hb)). apply N.eqb_eq in H. exact H.
Qed.

(** Eight zero bits shift a value below 2^24 without reduction. *)
Lemma rstep_false_small c k : c < 2 ^ k -> k <= 31 -> rstep c false = N.double c.
Proof.
  intros Hc Hk. unfold rstep. cbv zeta. cbn [b2n]. rewrite N.lxor_0_r.
  rewrite (proj1 (lt_pow2_testbit (N.double c) 32)); [reflexivity| |lia].
  rewrite N.double_spec. apply N.lt_le_trans with (2 * 2 ^ k).
  - apply N.mul_lt_mono_pos_l; [lia|exact Hc].
  - rewrite <- N.pow_succ_r'. apply N.pow_le_mono_r; lia.
Qed.

Lemma eight_zeros_small lo : lo < 2 ^ 24 -> fold_left astep (zeros 8) lo = N.shiftl lo 8.
Proof.
  intros H.
  assert (G : forall n k c, c < 2 ^ k -> k + N.of_nat n <= 32 ->
            fold_left astep (zeros n) c = N.shiftl c (N.of_nat n)).
  { induction n as [|n IH]; intros k c Hc Hk.
    - cbn. rewrite N.shiftl_0_r. reflexivity.
    - cbn [zeros repeat fold_left]. unfold astep at 2. rewrite N.lxor_0_r.
      rewrite (rstep_false_small c k) by (assumption || lia).
      fold (zeros n). rewrite (IH (N.succ k)).
      + rewrite N.double_spec, !N.shiftl_mul_pow2. rewrite Nat2N.inj_succ, N.pow_succ_r'. lia.
      + rewrite N.double_spec, N.pow_succ_r'. apply N.mul_lt_mono_pos_l; [lia|exact Hc].
      + lia. }
  apply (G 8%nat 24); [exact H|cbn; lia].
Qed.

Lemma xorl_zeros l : xorl l (zeros (length l)) = l.
Proof.
  unfold xorl, zeros. induction l as [|x l IH]; [reflexivity|].
  cbn [length repeat combine map fst snd]. rewrite IH. destruct x; reflexivity.
Qed.

Lemma crc_step_bits r b : r < 2 ^ 32 -> b < 256 -> crc_step r b = fold_left astep (byte_bits b) r.
Proof.
  intros Hr Hb.
  pose proof (N.div_mod' r (2 ^ 24)) as Hdm.
  set (hi := r / 2 ^ 24) in *. set (lo := r mod 2 ^ 24) in *.
  assert (Hlo : lo < 2 ^ 24) by (apply N.mod_upper_bound; discriminate).
  assert (Hhi : hi < 256) by (apply N.div_lt_upper_bound; [discriminate|exact Hr]).
  assert (Ex : r = N.lxor (N.shiftl hi 24) lo).
  { rewrite Hdm, N.shiftl_mul_pow2, (N.mul_comm hi). rewrite <- N.add_nocarry_lxor; [reflexivity|].
    apply N.bits_inj; intros k. rewrite N.land_spec, N.bits_0, (N.mul_comm (2 ^ 24)).
    destruct (N.lt_ge_cases k 24) as [Hk|Hk].
    - rewrite N.mul_pow2_bits_low by exact Hk. reflexivity.
    - rewrite (proj1 (lt_pow2_testbit lo 24) Hlo) by exact Hk. apply andb_false_r. }
  transitivity (N.lxor (fold_left astep (byte_bits b) (N.shiftl hi 24)) (fold_left astep (zeros 8) lo)).
  2:{ rewrite <- fold_astep_lin by reflexivity. rewrite <- Ex.
      change 8%nat with (length (byte_bits b)). rewrite xorl_zeros. reflexivity. }
  rewrite table_at by assumption. rewrite eight_zeros_small by exact Hlo.
  unfold crc_step. cbv zeta. f_equal.
  - f_equal. f_equal. rewrite N.shiftr_div_pow2. fold hi.
    unfold u8, trunc. apply N.mod_small. apply (lxor_lt b hi 8); [exact Hb|exact Hhi].
  - unfold u32, trunc. rewrite !N.shiftl_mul_pow2. subst lo.
    change (2 ^ 32) with (2 ^ 24 * 2 ^ 8). rewrite N.mul_mod_distr_r by discriminate. reflexivity.
Qed.

Lemma astep_bound r b : r < 2 ^ 32 -> astep r b < 2 ^ 32.
Proof. intros H. apply lxor_lt; [apply rstep_bound, H|destruct b; reflexivity]. Qed.

Lemma fold_astep_bound l : forall r, r < 2 ^ 32 -> fold_left astep l r < 2 ^ 32.
Proof. induction l as [|b l IH]; intros r H; cbn [fold_left]; [exact H|]. apply IH, astep_bound, H. Qed.

Lemma crc32_bits_acc l : forall r, r < 2 ^ 32 -> bytes_ok l ->
  fold_left crc_step l r = fold_left astep (bits l) r.
Proof.
  induction l as [|b l IH]; intros r Hr H; [reflexivity|].
  inversion H as [|? ? Hb Hl]; subst. unfold bits. cbn [fold_left flat_map].
  rewrite fold_left_app, crc_step_bits by assumption. fold (bits l).
  apply IH; [apply fold_astep_bound, Hr|exact Hl].
Qed.

Lemma crc32_rem l : bytes_ok l -> crc32 l = rem (bits l ++ zeros 32).
Proof.
  intros H. unfold crc32. rewrite crc32_bits_acc by (exact H || reflexivity). apply fold_astep_rem.
Qed.

Lemma crc32_bound l : bytes_ok l -> crc32 l < 2 ^ 32.
Proof. intros H. rewrite crc32_rem by exact H. apply rem_bound. Qed.

(** Numeric value of the bits of a byte string. *)
Lemma bval_acc l : forall a, fold_left (fun a b => N.lxor (N.double a) (b2n b)) l a
  = N.lxor (N.shiftl a (N.of_nat (length l))) (bval l).
Proof.
  induction l as [|b l IH] using rev_ind; intros a.
  - cbn. rewrite N.lxor_0_r, N.shiftl_0_r. reflexivity.
  - rewrite fold_left_app, bval_snoc. cbn [fold_left]. rewrite IH, double_lxor, app_length.
    cbn [length]. rewrite Nat.add_1_r, Nat2N.inj_succ.
    rewrite N.lxor_assoc. f_equal. rewrite N.double_spec, !N.shiftl_mul_pow2, N.pow_succ_r'. lia.
Qed.

Lemma byte_bits_bval b : b < 256 -> bval (byte_bits b) = b.
Proof.
  intros H. assert (C : forallb (fun b => N.eqb (bval (byte_bits b)) b) bytes_all = true) by (vm_compute; reflexivity).
  rewrite forallb_forall in C. apply N.eqb_eq, C, bytes_all_in, H.
Qed.

Lemma bits_length l : length (bits l) = (8 * length l)%nat.
Proof.
  unfold bits. induction l as [|x l IH]; [reflexivity|].
  cbn [flat_map]. rewrite app_length, IH. cbn [length]. unfold byte_bits. rewrite map_length. cbn [length]. lia.
Qed.

Lemma bits_app a b : bits (a ++ b) = bits a ++ bits b.
Proof. apply flat_map_app. Qed.

Lemma bval_app a b : bval (a ++ b) = N.lxor (N.shiftl (bval a) (N.of_nat (length b))) (bval b).
Proof. unfold bval at 1. rewrite fold_left_app. apply bval_acc. Qed.

Lemma lxor_shift_add a b n : b < 2 ^ n -> N.lxor (N.shiftl a n) b = a * 2 ^ n + b.
Proof.
  intros Hb. rewrite N.shiftl_mul_pow2. symmetry. apply N.add_nocarry_lxor.
  apply N.bits_inj; intros k. rewrite N.land_spec, N.bits_0.
  destruct (N.lt_ge_cases k n) as [Hk|Hk].
  - rewrite N.mul_pow2_bits_low by exact Hk. reflexivity.
  - rewrite (proj1 (lt_pow2_testbit b n) Hb) by exact Hk. apply andb_false_r.
Qed.

Lemma bval_bits l : bytes_ok l -> bval (bits l) = be_value l.
Proof.
  induction l as [|x l IH] using rev_ind; intros H; [reflexivity|].
  apply bytes_ok_app in H as [Hl Hx]. inversion Hx as [|? ? Hx' _]; subst.
  rewrite bits_app, bval_app, IH by exact Hl.
  unfold bits at 2. cbn [flat_map]. rewrite app_nil_r, byte_bits_bval by exact Hx'.
  replace (N.of_nat (length (bits [x]))) with 8 by reflexivity.
  rewrite lxor_shift_add by exact Hx'. rewrite be_value_app. cbn. lia.
Qed.

(** The CRC is the remainder of the division of m(x) x^32 by the generator. *)
Lemma crc32_is_remainder m : bytes_ok m ->
  crc32 m < 2 ^ 32 /\ exists q, N.lxor (clmul crc_gen q) (crc32 m) = N.shiftl (be_value m) 32.
Proof.
  intros H. split; [apply crc32_bound, H|].
  rewrite crc32_rem by exact H. destruct (rem_quotient (bits m ++ zeros 32)) as [q Hq].
  exists q. rewrite <- Hq, bval_app, bval_bits by exact H.
  unfold zeros. rewrite repeat_length.
  replace (bval (repeat false 32)) with 0 by (vm_compute; reflexivity). rewrite N.lxor_0_r. reflexivity.
Qed.

(** A section passes the receiver's check exactly when its bits are divisible. *)
Lemma protected_rem w : bytes_ok w -> crc_protected w <-> (4 <= length w)%nat /\ rem (bits w) = 0.
Proof.
  intros Hw.
  assert (K : forall p c, bytes_ok p -> bytes_ok c -> length c = 4%nat ->
              rem (bits (p ++ c)) = N.lxor (crc32 p) (be_value c)).
  { intros p c Hp Hc Hl. rewrite bits_app, rem_app.
    assert (Hbl : length (bits c) = 32%nat) by (rewrite bits_length, Hl; reflexivity).
    rewrite Hbl. rewrite (rem_short (bits c)) by lia. rewrite bval_bits by exact Hc. f_equal.
    rewrite crc32_rem by exact Hp. unfold rem. rewrite fold_left_app. reflexivity. }
  split.
  - intros (p & c & -> & Hl & Hc). apply bytes_ok_app in Hw as [Hp Hcb]. split.
    + rewrite app_length. lia.
    + rewrite K by assumption. rewrite Hc. apply N.lxor_nilpotent.
  - intros [Hlen H].
    exists (firstn (length w - 4) w), (skipn (length w - 4) w).
    assert (Hl : length (skipn (length w - 4) w) = 4%nat) by (rewrite skipn_length; lia).
    rewrite firstn_skipn. repeat split; [exact Hl|].
    rewrite <- (firstn_skipn (length w - 4) w) in H.
    rewrite K in H; [|apply bytes_ok_firstn, Hw|apply bytes_ok_skipn, Hw|exact Hl].
    apply N.lxor_eq in H. exact H.
Qed.

Lemma xorl_length a b : length a = length b -> length (xorl a b) = length a.
Proof. intros H. unfold xorl. rewrite map_length, combine_length. lia. Qed.

Lemma xorl_nth a : forall b k, length a = length b ->
  nth k (xorl a b) false = xorb (nth k a false) (nth k b false).
Proof.
  unfold xorl. induction a as [|x a IH]; intros [|y b] k H; cbn in H; try discriminate.
  - destruct k; reflexivity.
  - destruct k as [|k]; [reflexivity|]. cbn [combine map nth]. apply IH. congruence.
Qed.

Lemma both_protected w w' : bytes_ok w -> bytes_ok w' -> length w = length w' ->
  crc_protected w -> crc_protected w' -> rem (xorl (bits w) (bits w')) = 0.
Proof.
  intros Hw Hw' Hl P P'. apply protected_rem in P as [_ P]; [|exact Hw]. apply protected_rem in P' as [_ P']; [|exact Hw'].
  rewrite rem_lin, P, P' by (rewrite !bits_length, Hl; reflexivity). reflexivity.
Qed.

Lemma nth_all_false l : (forall k, nth k l false = false) -> l = zeros (length l).
Proof.
  induction l as [|x l IH]; intros H; [reflexivity|].
  cbn [length zeros repeat]. pose proof (H 0%nat) as H0. cbn in H0. subst x. f_equal.
  apply IH. intros k. apply (H (S k)).
Qed.

Lemma byte_bits_inj x y : x < 256 -> y < 256 -> byte_bits x = byte_bits y -> x = y.
Proof. intros Hx Hy H. rewrite <- (byte_bits_bval x Hx), H. apply byte_bits_bval, Hy. Qed.

Lemma bits_inj a : forall b, bytes_ok a -> bytes_ok b -> length a = length b -> bits a = bits b -> a = b.
Proof.
  induction a as [|x a IH]; intros [|y b] Ha Hb Hl H; cbn in Hl; try discriminate; [reflexivity|].
  inversion Ha as [|? ? Hx Ha']; subst. inversion Hb as [|? ? Hy Hb']; subst.
  unfold bits in H. cbn [flat_map] in H. apply app_inv_len in H as [H1 H2]; [|reflexivity].
  f_equal; [apply byte_bits_inj; assumption|]. apply IH; try assumption. congruence.
Qed.

Lemma zeros_xorl_eq a : forall b, length a = length b -> xorl a b = zeros (length a) -> a = b.
Proof.
  unfold xorl, zeros. induction a as [|x a IH]; intros [|y b] Hl H; cbn in Hl; try discriminate; [reflexivity|].
  cbn [combine map fst snd length repeat] in H. injection H as H1 H2. f_equal.
  - destruct x, y; try reflexivity; discriminate H1.
  - apply IH; [congruence|exact H2].
Qed.

(** A non-zero error pattern confined to 32 consecutive bits is not divisible. *)
Lemma burst_not_divisible e i :
  (forall k, nth k e false = true -> (i <= k < i + 32)%nat) -> rem e = 0 -> e = zeros (length e).
Proof.
  intros H Hr.
  assert (E : e = firstn i e ++ firstn 32 (skipn i e) ++ skipn 32 (skipn i e))
    by (rewrite firstn_skipn, firstn_skipn; reflexivity).
  assert (Hz1 : firstn i e = zeros (length (firstn i e))).
  { apply nth_all_false. intros k. destruct (Nat.lt_ge_cases k i) as [Hk|Hk].
    - destruct (nth k (firstn i e) false) eqn:Ek; [|reflexivity].
      assert (nth k e false = true) as Hke.
      { rewrite <- (firstn_skipn i e). destruct (Nat.lt_ge_cases k (length (firstn i e))) as [Hl|Hl].
        - rewrite app_nth1 by exact Hl. exact Ek.
        - rewrite nth_overflow in Ek by exact Hl. discriminate. }
      specialize (H k Hke). lia.
    - apply nth_overflow. rewrite firstn_length. lia. }
  assert (Hz3 : skipn 32 (skipn i e) = zeros (length (skipn 32 (skipn i e)))).
  { apply nth_all_false. intros k.
    destruct (nth k (skipn 32 (skipn i e)) false) eqn:Ek; [|reflexivity].
    assert (nth (i + 32 + k) e false = true) as Hke.
    { rewrite <- Ek.
      assert (G : forall n (l : list bool) j, nth j (skipn n l) false = nth (n + j) l false).
      { clear. induction n as [|n IHn]; intros [|x l] j; try reflexivity; cbn [skipn];
          [destruct j; reflexivity|]. rewrite IHn. reflexivity. }
      rewrite !G. f_equal. lia. }
    specialize (H _ Hke). lia. }
  set (mid := firstn 32 (skipn i e)) in *.
  assert (Hm : rem mid = 0).
  { rewrite E, Hz1, Hz3 in Hr.
    rewrite rem_app in Hr. unfold zeros in Hr. unfold rem at 1 in Hr. rewrite !zeros_from_0, N.lxor_0_l in Hr.
    unfold rem in Hr. rewrite fold_left_app in Hr. apply zeros_0 in Hr. exact Hr. }
  rewrite rem_short in Hm by (unfold mid; rewrite firstn_length; lia).
  apply bval_0 in Hm.
  assert (Hlen : length e = (length (firstn i e) + (length mid + length (skipn 32 (skipn i e))))%nat)
    by (rewrite E at 1; rewrite !app_length; reflexivity).
  rewrite Hlen. unfold zeros in *. rewrite !repeat_app, <- Hz1, <- Hm, <- Hz3. exact E.
Qed.

Lemma crc_detects_bursts_pf w w' i :
  bytes_ok w -> bytes_ok w' -> length w = length w' -> w <> w' ->
  (forall k, nth k (bits w) false <> nth k (bits w') false -> (i <= k < i + 32)%nat) ->
  crc_protected w -> ~ crc_protected w'.
Proof.
  intros Hw Hw' Hl Hne H P P'. pose proof (both_protected w w' Hw Hw' Hl P P') as Hr.
  assert (Hbl : length (bits w) = length (bits w')) by (rewrite !bits_length, Hl; reflexivity).
  apply Hne, bits_inj; try assumption. apply zeros_xorl_eq; [exact Hbl|].
  rewrite <- (xorl_length _ _ Hbl). apply (burst_not_divisible _ i); [|exact Hr].
  intros k Hk. apply H. rewrite xorl_nth in Hk by exact Hbl. intros E. rewrite E, xorb_nilpotent in Hk. discriminate.
Qed.

(** ** Errors of low Hamming weight *)

Fixpoint weight (l : list bool) : nat :=
  match l with [] => 0%nat | b :: l' => ((if b then 1 else 0) + weight l')%nat end.

Lemma hamming_weight a : forall b, length a = length b -> hamming a b = weight (xorl a b).
Proof.
  unfold xorl. induction a as [|x a IH]; intros [|y b] H; cbn in H; try discriminate; [reflexivity|].
  cbn [hamming combine map fst snd weight]. rewrite IH by congruence. reflexivity.
Qed.

(** parity *)
Definition parity (n : N) : bool := Nat.odd (weight (map (N.testbit n) (map N.of_nat (seq 0 33)))).
Fixpoint xor_all (l : list bool) : bool := match l with [] => false | b :: l' => xorb b (xor_all l') end.
Definition par (n : N) : bool := xor_all (map (fun k => N.testbit n (N.of_nat k)) (seq 0 33)).

Lemma xor_all_map2 {A} (f g : A -> bool) l :
  xor_all (map (fun k => xorb (f k) (g k)) l) = xorb (xor_all (map f l)) (xor_all (map g l)).
Proof.
  induction l as [|x l IH]; [reflexivity|]. cbn [map xor_all]. rewrite IH.
  destruct (f x), (g x), (xor_all (map f l)), (xor_all (map g l)); reflexivity.
Qed.

Lemma par_lxor a b : par (N.lxor a b) = xorb (par a) (par b).
Proof.
  unfold par. rewrite <- xor_all_map2. f_equal. apply map_ext. intros k. apply N.lxor_spec.
Qed.

Lemma par_double c : c < 2 ^ 32 -> par (N.double c) = par c.
Proof.
  intros H. unfold par.
  assert (E : forall a b : list bool, xor_all (a ++ b) = xorb (xor_all a) (xor_all b)).
  { induction a as [|x a IH]; intros b; cbn [app xor_all]; [rewrite xorb_false_l; reflexivity|].
    rewrite IH, xorb_assoc. reflexivity. }
  transitivity (xor_all (map (fun k => N.testbit c (N.of_nat k)) (seq 0 32))).
  - change (seq 0 33) with (0%nat :: map S (seq 0 32)). generalize (seq 0 32) as l. intros l.
    cbn [map xor_all]. rewrite N.double_spec. change (N.of_nat 0) with 0. rewrite N.testbit_even_0, xorb_false_l.
    rewrite map_map. f_equal. apply map_ext. intros k.
    rewrite Nat2N.inj_succ, N.testbit_even_succ by lia. reflexivity.
  - change (seq 0 33) with (seq 0 32 ++ [32%nat]). rewrite map_app, E. cbn [map xor_all].
    rewrite (proj1 (lt_pow2_testbit c 32) H (N.of_nat 32)) by lia. rewrite !xorb_false_r. reflexivity.
Qed.

Lemma par_rstep c b : c < 2 ^ 32 -> par (rstep c b) = xorb (par c) b.
Proof.
  intros H. destruct (rstep_cases c b) as [t ->]. rewrite !par_lxor, par_double by exact H.
  replace (par (if t then crc_gen else 0)) with false by (destruct t; vm_compute; reflexivity).
  rewrite xorb_false_l. f_equal. destruct b; vm_compute; reflexivity.
Qed.

Lemma par_rem l : par (rem l) = Nat.odd (weight l).
Proof.
  assert (W : forall a b, weight (a ++ b) = (weight a + weight b)%nat).
  { induction a as [|x a IH]; intros b; [reflexivity|]. cbn [app weight]. rewrite IH. lia. }
  induction l as [|b l IH] using rev_ind; [reflexivity|].
  rewrite rem_snoc, par_rstep by apply rem_bound. rewrite IH, W, Nat.odd_add.
  f_equal. destruct b; reflexivity.
Qed.

Lemma crc_detects_odd_pf w w' :
  bytes_ok w -> bytes_ok w' -> length w = length w' -> Nat.odd (hamming (bits w) (bits w')) = true ->
  crc_protected w -> ~ crc_protected w'.
Proof.
  intros Hw Hw' Hl Ho P P'. pose proof (both_protected w w' Hw Hw' Hl P P') as Hr.
  rewrite hamming_weight in Ho by (rewrite !bits_length, Hl; reflexivity).
  rewrite <- par_rem, Hr in Ho. discriminate.
Qed.

(** x^k mod generator *)
Definition xpow (k : nat) : N := fold_left rstep (zeros k) 1.

Lemma xpow_S k : xpow (S k) = rstep (xpow k) false.
Proof.
  unfold xpow, zeros. replace (S k) with (k + 1)%nat by lia. rewrite repeat_app, fold_left_app. reflexivity.
Qed.

Lemma rem_true_zeros l k : rem (l ++ true :: zeros k) = N.lxor (fold_left rstep (zeros (S k)) (rem l)) (xpow k).
Proof.
  change (true :: zeros k) with ([true] ++ zeros k). rewrite rem_app. f_equal.
  rewrite app_length. unfold zeros. rewrite repeat_length. reflexivity.
Qed.

Lemma weight_0 l : weight l = 0%nat -> l = zeros (length l).
Proof. induction l as [|[|] l IH]; cbn; intros H; [reflexivity|discriminate|]. f_equal. apply IH, H. Qed.

Lemma weight_split n : forall l, weight l = S n ->
  exists l' k, l = l' ++ true :: zeros k /\ weight l' = n.
Proof.
  intros l. induction l as [|b l IH] using rev_ind; cbn; intros H; [discriminate|].
  assert (W : forall a b, weight (a ++ b) = (weight a + weight b)%nat).
  { clear. induction a as [|x a IH]; intros b; [reflexivity|]. cbn [app weight]. rewrite IH. lia. }
  rewrite W in H. destruct b; cbn in H.
  - exists l, 0%nat. split; [reflexivity|lia].
  - destruct IH as (l' & k & -> & Hw); [lia|]. exists l', (S k). split; [|exact Hw].
    rewrite <- app_assoc. cbn [app]. f_equal. f_equal. unfold zeros.
    change [false] with (repeat false 1). rewrite <- repeat_app. f_equal. lia.
Qed.

(** Iterating the powers of x; [false] as soon as a power equals 1. *)
Fixpoint no_return (n : nat) (c : N) : bool :=
  match n with
  | O => true
  | S m => let c' := rstep c false in if N.eqb c' 1 then false else no_return m c'
  end.

Lemma no_return_spec n : forall c, no_return n c = true ->
  forall k, (1 <= k <= n)%nat -> fold_left rstep (zeros k) c <> 1.
Proof.
  induction n as [|n IH]; intros c H k Hk; [lia|].
  cbn [no_return] in H. destruct (N.eqb_spec (rstep c false) 1) as [|Hn]; [discriminate|].
  destruct k as [|k]; [lia|]. cbn [zeros repeat fold_left]. destruct k as [|k]; [exact Hn|].
  apply (IH _ H). lia.
Qed.

Definition max_section_bits : nat := N.to_nat 32768.

Lemma order_check : no_return max_section_bits 1 = true.
Proof. vm_compute. reflexivity. Qed.

Lemma fold_zeros_lin k c d :
  fold_left rstep (zeros k) (N.lxor c d) = N.lxor (fold_left rstep (zeros k) c) (fold_left rstep (zeros k) d).
Proof.
  rewrite <- fold_lin by reflexivity. f_equal. unfold zeros, xorl. clear. induction k as [|k IH]; [reflexivity|].
  cbn [repeat combine map fst snd]. rewrite <- IH. reflexivity.
Qed.

Lemma xpow_add a b : fold_left rstep (zeros b) (xpow a) = xpow (a + b).
Proof. unfold xpow, zeros. rewrite repeat_app, fold_left_app. reflexivity. Qed.

Lemma two_bit_not_divisible e : weight e = 2%nat -> (length e <= max_section_bits)%nat -> rem e <> 0.
Proof.
  intros Hw Hlen Hr.
  destruct (weight_split 1 e Hw) as (l & k & -> & Hl).
  destruct (weight_split 0 l Hl) as (l0 & j & -> & Hl0).
  rewrite app_length in Hlen. cbn [length] in Hlen. rewrite app_length in Hlen. cbn [length] in Hlen.
  unfold zeros in Hlen. rewrite !repeat_length in Hlen.
  change ((l0 ++ true :: zeros j) ++ true :: zeros k) with ((l0 ++ true :: zeros j) ++ [true] ++ zeros k) in Hr.
  rewrite app_assoc in Hr. unfold rem in Hr. rewrite fold_left_app in Hr. apply zeros_0 in Hr.
  fold (rem ((l0 ++ true :: zeros j) ++ [true])) in Hr.
  change [true] with (true :: zeros 0) in Hr. rewrite rem_true_zeros in Hr.
  rewrite rem_true_zeros in Hr. apply weight_0 in Hl0. rewrite Hl0 in Hr.
  replace (rem (zeros (length l0))) with 0 in Hr by (symmetry; apply zeros_from_0).
  rewrite !zeros_from_0 in Hr. rewrite N.lxor_0_l in Hr.
  apply N.lxor_eq in Hr. rewrite xpow_add in Hr. unfold xpow at 2 in Hr. cbn [zeros repeat fold_left] in Hr.
  unfold xpow in Hr. revert Hr. apply (no_return_spec max_section_bits); [exact order_check|]. lia.
Qed.

Lemma crc_detects_two_pf w w' :
  bytes_ok w -> bytes_ok w' -> length w = length w' -> (N.of_nat (length w) <= 4096) ->
  hamming (bits w) (bits w') = 2%nat -> crc_protected w -> ~ crc_protected w'.
Proof.
  intros Hw Hw' Hl Hsz Ho P P'. pose proof (both_protected w w' Hw Hw' Hl P P') as Hr.
  assert (Hbl : length (bits w) = length (bits w')) by (rewrite !bits_length, Hl; reflexivity).
  rewrite hamming_weight in Ho by exact Hbl.
  revert Hr. apply two_bit_not_divisible; [exact Ho|].
  rewrite xorl_length, bits_length by exact Hbl. unfold max_section_bits. lia.
Qed.

(** ** Four-bit errors in a frame header (12 bytes, 96 bits) *)

Definition header_bits : nat := 96.
Definition powers : list N := map xpow (seq 0 header_bits).
Notation four_check := (
  forallb (fun a => forallb (fun b => forallb (fun c =>
    negb (N.eqb (N.lxor (nth a powers 0) (N.lxor (nth b powers 0) (nth c powers 0))) 1)
    ) (seq 1 (b - 1))) (seq 2 (a - 2))) (seq 3 (header_bits - 3))).

Lemma four_check_true : four_check = true.
Proof. vm_compute. reflexivity. Qed.

Lemma powers_nth k : (k < header_bits)%nat -> nth k powers 0 = xpow k.
Proof.
  intros H. unfold powers.
  rewrite (nth_indep _ 0 (xpow 0)) by (rewrite map_length, seq_length; exact H).
  rewrite map_nth, seq_nth by exact H. reflexivity.
Qed.

Lemma four_spec_aux a b c : four_check = true -> (1 <= c < b)%nat -> (b < a < header_bits)%nat ->
  N.lxor (xpow a) (N.lxor (xpow b) (xpow c)) <> 1.
Proof.
  intros H Hc Hb E.
  rewrite forallb_forall in H. specialize (H a). rewrite in_seq in H.
  assert (Ha : (3 <= a < 3 + (header_bits - 3))%nat) by (unfold header_bits in *; lia). specialize (H Ha).
  rewrite forallb_forall in H. specialize (H b). rewrite in_seq in H.
  specialize (H ltac:(lia)). rewrite forallb_forall in H. specialize (H c). rewrite in_seq in H.
  specialize (H ltac:(lia)). rewrite !powers_nth in H by lia. rewrite E in H. discriminate.
Qed.

Lemma four_spec a b c : (1 <= c < b)%nat -> (b < a < header_bits)%nat ->
  N.lxor (xpow a) (N.lxor (xpow b) (xpow c)) <> 1.
Proof. exact (four_spec_aux a b c four_check_true). Qed.

Lemma weight_4_rem e : weight e = 4%nat -> (length e <= header_bits)%nat -> rem e <> 0.
Proof.
  intros Hw Hlen Hr.
  destruct (weight_split 3 e Hw) as (l3 & k3 & -> & Hl3).
  destruct (weight_split 2 l3 Hl3) as (l2 & k2 & -> & Hl2).
  destruct (weight_split 1 l2 Hl2) as (l1 & k1 & -> & Hl1).
  destruct (weight_split 0 l1 Hl1) as (l0 & k0 & -> & Hl0).
  repeat (rewrite app_length in Hlen; cbn [length] in Hlen).
  unfold zeros in Hlen. rewrite !repeat_length in Hlen. fold (zeros k0) in *.
  set (w := ((l0 ++ true :: zeros k0) ++ true :: zeros k1) ++ true :: zeros k2) in *.
  change (w ++ true :: zeros k3) with (w ++ [true] ++ zeros k3) in Hr.
  rewrite app_assoc in Hr. unfold rem in Hr. rewrite fold_left_app in Hr. apply zeros_0 in Hr.
  fold (rem (w ++ [true])) in Hr. change [true] with (true :: zeros 0) in Hr. rewrite rem_true_zeros in Hr.
  unfold w in Hr. rewrite !rem_true_zeros in Hr.
  apply weight_0 in Hl0. rewrite Hl0 in Hr.
  replace (rem (zeros (length l0))) with 0 in Hr by (symmetry; apply zeros_from_0).
  rewrite zeros_from_0, N.lxor_0_l in Hr.
  rewrite !fold_zeros_lin, !xpow_add in Hr.
  apply N.lxor_eq in Hr. change (xpow 0) with 1 in Hr. rewrite N.lxor_assoc in Hr.
  revert Hr. apply four_spec; lia.
Qed.

Lemma crc_detects_header_five_pf w w' :
  bytes_ok w -> bytes_ok w' -> length w = 12%nat -> length w' = 12%nat ->
  (1 <= hamming (bits w) (bits w') <= 5)%nat -> crc_protected w -> ~ crc_protected w'.
Proof.
  intros Hw Hw' Hl Hl' Ho P P'. pose proof (both_protected w w' Hw Hw' ltac:(congruence) P P') as Hr.
  assert (Hbl : length (bits w) = length (bits w')) by (rewrite !bits_length, Hl, Hl'; reflexivity).
  rewrite hamming_weight in Ho by exact Hbl.
  assert (Hel : length (xorl (bits w) (bits w')) = 96%nat) by (rewrite xorl_length, bits_length, Hl by exact Hbl; reflexivity).
  pose proof (par_rem (xorl (bits w) (bits w'))) as Hp. rewrite Hr in Hp. change (par 0) with false in Hp.
  assert (Hc : weight (xorl (bits w) (bits w')) = 2%nat \/ weight (xorl (bits w) (bits w')) = 4%nat).
  { destruct (weight (xorl (bits w) (bits w'))) as [|[|[|[|[|[|n]]]]]]; cbn in Hp; try discriminate; try lia. }
  destruct Hc as [Hc|Hc].
  - revert Hr. apply two_bit_not_divisible; [exact Hc|]. rewrite Hel. unfold max_section_bits. lia.
  - revert Hr. apply weight_4_rem; [exact Hc|]. rewrite Hel. unfold header_bits. lia.
Qed.
