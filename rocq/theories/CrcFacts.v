(** * CrcFacts: the table-driven CRC is polynomial division *)
From Verif Require Import Base BaseFacts Crc CrcSpec.

Local Open Scope N_scope.

Definition b2n (b : bool) : N := if b then 1 else 0.

(** One step of long division. *)
Definition rstep (c : N) (b : bool) : N :=
  let c' := N.lxor (N.double c) (b2n b) in
  if N.testbit c' 32 then N.lxor c' crc_gen else c'.
Definition rem (l : list bool) : N := fold_left rstep l 0.

Definition xorl (a b : list bool) : list bool := map (fun p => xorb (fst p) (snd p)) (combine a b).
Notation zeros n := (repeat false n).

Lemma double_lxor a b : N.double (N.lxor a b) = N.lxor (N.double a) (N.double b).
Proof. destruct a, b; cbn; reflexivity. Qed.

Lemma b2n_xorb a b : b2n (xorb a b) = N.lxor (b2n a) (b2n b).
Proof. destruct a, b; reflexivity. Qed.

Lemma lxor4 a b c d : N.lxor (N.lxor a b) (N.lxor c d) = N.lxor (N.lxor a c) (N.lxor b d).
Proof.
  apply N.bits_inj; intros k. rewrite !N.lxor_spec.
  destruct (N.testbit a k), (N.testbit b k), (N.testbit c k), (N.testbit d k); reflexivity.
Qed.

Lemma rstep_lin c d a b : rstep (N.lxor c d) (xorb a b) = N.lxor (rstep c a) (rstep d b).
Proof.
  unfold rstep. cbv zeta. rewrite double_lxor, b2n_xorb, lxor4, N.lxor_spec.
  set (x := N.lxor (N.double c) (b2n a)). set (y := N.lxor (N.double d) (b2n b)).
  destruct (N.testbit x 32), (N.testbit y 32); cbn [xorb].
  - rewrite lxor4, N.lxor_nilpotent, N.lxor_0_r. reflexivity.
  - rewrite !N.lxor_assoc. f_equal. apply N.lxor_comm.
  - apply N.lxor_assoc.
  - reflexivity.
Qed.

Lemma fold_lin a : forall b c d, length a = length b ->
  fold_left rstep (xorl a b) (N.lxor c d) = N.lxor (fold_left rstep a c) (fold_left rstep b d).
Proof.
  unfold xorl.
  induction a as [|x a IH]; intros [|y b] c d H; cbn in H; try discriminate; [reflexivity|].
  cbn [combine map fst snd fold_left]. rewrite rstep_lin. apply IH. congruence.
Qed.

Lemma rem_lin a b : length a = length b -> rem (xorl a b) = N.lxor (rem a) (rem b).
Proof. intros H. unfold rem. rewrite <- fold_lin by exact H. reflexivity. Qed.

Lemma rem_app a b : rem (a ++ b) = N.lxor (fold_left rstep (zeros (length b)) (rem a)) (rem b).
Proof.
  unfold rem at 1. rewrite fold_left_app. fold (rem a).
  assert (H : b = xorl (zeros (length b)) b).
  { clear. unfold xorl. induction b as [|x b IH]; [reflexivity|].
    cbn [length repeat combine map fst snd]. rewrite <- IH. destruct x; reflexivity. }
  rewrite H at 1. rewrite <- (N.lxor_0_r (rem a)) at 1.
  rewrite fold_lin by (rewrite repeat_length; reflexivity). reflexivity.
Qed.

Lemma lt_pow2_testbit a n : a < 2 ^ n <-> (forall k, n <= k -> N.testbit a k = false).
Proof.
  split.
  - intros H k Hk. destruct (N.eq_dec a 0) as [->|Hz]; [apply N.bits_0|].
    apply N.bits_above_log2. assert (N.log2 a < n) by (apply N.log2_lt_pow2; lia). lia.
  - intros H. destruct (N.eq_dec a 0) as [->|Hz]; [pose proof (N.pow_nonzero 2 n); lia|].
    apply N.log2_lt_pow2; [lia|]. destruct (N.lt_ge_cases (N.log2 a) n) as [|Hge]; [assumption|].
    specialize (H _ Hge). rewrite N.bit_log2 in H by exact Hz. discriminate.
Qed.

Lemma lxor_lt a b n : a < 2 ^ n -> b < 2 ^ n -> N.lxor a b < 2 ^ n.
Proof.
  rewrite !lt_pow2_testbit. intros Ha Hb k Hk. rewrite N.lxor_spec, Ha, Hb by exact Hk. reflexivity.
Qed.

Lemma double_b2n_lt c b n : c < 2 ^ n -> N.lxor (N.double c) (b2n b) < 2 ^ (N.succ n).
Proof.
  intros H. pose proof (N.pow_nonzero 2 n) as Hp.
  apply lxor_lt; rewrite N.pow_succ_r'; rewrite ?N.double_spec; generalize dependent (2 ^ n); intros k H Hp;
    [|destruct b; cbn [b2n]]; lia.
Qed.

Lemma rstep_bound c b : c < 2 ^ 32 -> rstep c b < 2 ^ 32.
Proof.
  intros Hc. unfold rstep. cbv zeta.
  pose proof (double_b2n_lt c b 32 Hc) as H. change (N.succ 32) with 33 in H.
  set (x := N.lxor (N.double c) (b2n b)) in *.
  destruct (N.testbit x 32) eqn:E; apply lt_pow2_testbit; intros k Hk.
  - rewrite N.lxor_spec. destruct (N.eq_dec k 32) as [->|Hn]; [rewrite E; reflexivity|].
    rewrite (proj1 (lt_pow2_testbit x 33) H) by lia.
    rewrite (proj1 (lt_pow2_testbit crc_gen 33)); [reflexivity|reflexivity|lia].
  - destruct (N.eq_dec k 32) as [->|Hn]; [exact E|].
    apply (proj1 (lt_pow2_testbit x 33) H). lia.
Qed.

Lemma fold_rstep_bound l : forall c, c < 2 ^ 32 -> fold_left rstep l c < 2 ^ 32.
Proof. induction l as [|b l IH]; intros c Hc; cbn [fold_left]; [exact Hc|]. apply IH, rstep_bound, Hc. Qed.

Lemma rem_bound l : rem l < 2 ^ 32.
Proof. apply fold_rstep_bound. reflexivity. Qed.

(** A zero bit is injective at 0: the generator has constant term 1. *)
Lemma rstep_false_0 c : rstep c false = 0 -> c = 0.
Proof.
  unfold rstep. cbv zeta. cbn [b2n]. rewrite N.lxor_0_r.
  destruct (N.testbit (N.double c) 32).
  - intros H. assert (Hb : N.testbit (N.lxor (N.double c) crc_gen) 0 = false) by (rewrite H; reflexivity).
    rewrite N.lxor_spec, N.double_spec, N.testbit_even_0 in Hb. discriminate Hb.
  - rewrite N.double_spec. lia.
Qed.

Lemma zeros_0 n : forall c, fold_left rstep (zeros n) c = 0 -> c = 0.
Proof.
  induction n as [|n IH]; intros c H; cbn [repeat fold_left] in H; [exact H|].
  apply rstep_false_0, IH, H.
Qed.

Lemma zeros_from_0 n : fold_left rstep (zeros n) 0 = 0.
Proof. induction n as [|n IH]; [reflexivity|exact IH]. Qed.

(** Values of bit strings. *)
Definition bval (l : list bool) : N := fold_left (fun a b => N.lxor (N.double a) (b2n b)) l 0.

Lemma bval_snoc l b : bval (l ++ [b]) = N.lxor (N.double (bval l)) (b2n b).
Proof. unfold bval. rewrite fold_left_app. reflexivity. Qed.

Lemma bval_bound l : bval l < 2 ^ N.of_nat (length l).
Proof.
  induction l as [|b l IH] using rev_ind; [reflexivity|].
  rewrite bval_snoc, app_length. cbn [length]. rewrite Nat.add_1_r, Nat2N.inj_succ.
  apply double_b2n_lt, IH.
Qed.

(** Up to 32 bits there is no reduction. *)
Lemma rem_short l : (length l <= 32)%nat -> rem l = bval l.
Proof.
  induction l as [|b l IH] using rev_ind; intros H; [reflexivity|].
  rewrite app_length in H; cbn [length] in H.
  rewrite bval_snoc. unfold rem in *. rewrite fold_left_app. cbn [fold_left].
  rewrite IH by lia. unfold rstep. cbv zeta.
  assert (Hb : N.lxor (N.double (bval l)) (b2n b) < 2 ^ 32).
  { pose proof (double_b2n_lt (bval l) b _ (bval_bound l)) as Hd.
    eapply N.lt_le_trans; [exact Hd|]. apply N.pow_le_mono_r; lia. }
  rewrite (proj1 (lt_pow2_testbit _ 32) Hb) by lia. reflexivity.
Qed.

Lemma bval_0 l : bval l = 0 -> l = zeros (length l).
Proof.
  induction l as [|b l IH] using rev_ind; intros H; [reflexivity|].
  rewrite bval_snoc in H. apply N.lxor_eq in H.
  assert (b = false) as ->.
  { destruct b; [|reflexivity]. cbn [b2n] in H. rewrite N.double_spec in H. lia. }
  assert (bval l = 0) as E by (rewrite N.double_spec in H; cbn [b2n] in H; lia).
  rewrite app_length. cbn [length]. rewrite repeat_app. cbn [repeat]. rewrite <- IH by exact E. reflexivity.
Qed.

(** Quotient. *)
Lemma clmul_double a b : clmul a (N.double b) = N.double (clmul a b).
Proof. destruct b; reflexivity. Qed.
Lemma clmul_succ_double a b : clmul a (N.succ_double b) = N.lxor a (N.double (clmul a b)).
Proof. destruct b; cbn; [rewrite N.lxor_0_r|]; reflexivity. Qed.

Lemma rem_snoc l b : rem (l ++ [b]) = rstep (rem l) b.
Proof. unfold rem. rewrite fold_left_app. reflexivity. Qed.

Lemma rstep_cases c b : exists t : bool,
  rstep c b = N.lxor (if t then crc_gen else 0) (N.lxor (N.double c) (b2n b)).
Proof.
  unfold rstep. cbv zeta. destruct (N.testbit _ 32); [exists true; apply N.lxor_comm|exists false; reflexivity].
Qed.

Lemma rem_quotient l : exists q, bval l = N.lxor (clmul crc_gen q) (rem l).
Proof.
  induction l as [|b l [q IH]] using rev_ind; [exists 0; reflexivity|].
  rewrite bval_snoc, rem_snoc, IH. destruct (rstep_cases (rem l) b) as [t ->].
  rewrite double_lxor.
  exists (if t then N.succ_double q else N.double q).
  replace (clmul crc_gen (if t then N.succ_double q else N.double q))
    with (N.lxor (if t then crc_gen else 0) (N.double (clmul crc_gen q)))
    by (destruct t; [rewrite clmul_succ_double|rewrite clmul_double]; reflexivity).
  generalize (N.double (clmul crc_gen q)) as a, (if t then crc_gen else 0) as g, (N.double (rem l)) as r, (b2n b) as x.
  intros a g r x. apply N.bits_inj; intros k. rewrite !N.lxor_spec.
  destruct (N.testbit a k), (N.testbit g k), (N.testbit r k), (N.testbit x k); reflexivity.
Qed.

(** Degree of a product with the generator. *)
Lemma clmul_pos_log2 p : N.log2 (clmul_pos crc_gen p) = 32 + N.log2 (Npos p) /\ clmul_pos crc_gen p <> 0.
Proof.
  induction p as [p [IH Hn]|p [IH Hn]|]; cbn [clmul_pos].
  - assert (Hd : N.log2 (N.double (clmul_pos crc_gen p)) = N.succ (32 + N.log2 (Npos p))).
    { rewrite N.double_spec, N.log2_double by lia. rewrite IH. reflexivity. }
    assert (Hlt : N.log2 crc_gen < N.log2 (N.double (clmul_pos crc_gen p))).
    { rewrite Hd. change (N.log2 crc_gen) with 32. lia. }
    assert (Hx : N.log2 (N.lxor crc_gen (N.double (clmul_pos crc_gen p))) = N.succ (32 + N.log2 (Npos p))).
    { rewrite <- Hd. set (d := N.double (clmul_pos crc_gen p)) in *.
      assert (Hdn : d <> 0) by (intros E; rewrite E in Hlt; cbn in Hlt; lia).
      apply N.log2_bits_unique.
      - rewrite N.lxor_spec, N.bit_log2 by exact Hdn. rewrite N.bits_above_log2 by exact Hlt. reflexivity.
      - intros m Hm. rewrite N.lxor_spec, !N.bits_above_log2 by lia. reflexivity. }
    split.
    + rewrite Hx. change (Npos p~1) with (2 * Npos p + 1). rewrite N.log2_succ_double by lia. lia.
    + intros E. rewrite E in Hx. cbn in Hx. lia.
  - split; [|rewrite N.double_spec; lia].
    rewrite N.double_spec, N.log2_double by lia. rewrite IH.
    change (Npos p~0) with (2 * Npos p). rewrite N.log2_double by lia. lia.
  - split; [reflexivity|discriminate].
Qed.

Lemma clmul_ge q : q <> 0 -> 2 ^ 32 <= clmul crc_gen q.
Proof.
  destruct q as [|p]; [congruence|]. intros _. cbn [clmul].
  destruct (clmul_pos_log2 p) as [H Hn].
  eapply N.le_trans; [|apply N.log2_spec; lia]. rewrite H. apply N.pow_le_mono_r; lia.
Qed.

Ltac xor_solve := apply N.bits_inj; let k := fresh "k" in intros k; rewrite !N.lxor_spec, ?N.bits_0;
  repeat match goal with |- context [N.testbit ?a k] => destruct (N.testbit a k) end; reflexivity.

Lemma lxor_sd_sd x y : N.lxor (N.succ_double x) (N.succ_double y) = N.double (N.lxor x y).
Proof. destruct x as [|x], y as [|y]; cbn; reflexivity. Qed.
Lemma lxor_sd_d x y : N.lxor (N.succ_double x) (N.double y) = N.succ_double (N.lxor x y).
Proof. destruct x as [|x], y as [|y]; cbn; reflexivity. Qed.
Lemma lxor_d_sd x y : N.lxor (N.double x) (N.succ_double y) = N.succ_double (N.lxor x y).
Proof. destruct x as [|x], y as [|y]; cbn; reflexivity. Qed.

Lemma clmul_add a p : forall q, clmul a (N.lxor p q) = N.lxor (clmul a p) (clmul a q).
Proof.
  induction p as [|p IH|p IH] using N.binary_ind; intros q.
  - reflexivity.
  - destruct q as [|q _|q _] using N.binary_ind.
    + rewrite !N.lxor_0_r. reflexivity.
    + rewrite <- double_lxor, !clmul_double, IH. apply double_lxor.
    + rewrite lxor_d_sd, !clmul_succ_double, !clmul_double, IH, double_lxor. xor_solve.
  - destruct q as [|q _|q _] using N.binary_ind.
    + rewrite !N.lxor_0_r. reflexivity.
    + rewrite lxor_sd_d, !clmul_succ_double, !clmul_double, IH, double_lxor. xor_solve.
    + rewrite lxor_sd_sd, !clmul_succ_double, !clmul_double, IH, double_lxor. xor_solve.
Qed.

(** Remainders are unique. *)
Lemma remainder_unique q q' r r' :
  r < 2 ^ 32 -> r' < 2 ^ 32 ->
  N.lxor (clmul crc_gen q) r = N.lxor (clmul crc_gen q') r' -> q = q' /\ r = r'.
Proof.
  intros Hr Hr' H.
  assert (E : clmul crc_gen (N.lxor q q') = N.lxor r r').
  { rewrite clmul_add.
    revert H. clear. generalize (clmul crc_gen q), (clmul crc_gen q'). intros a b H.
    assert (N.lxor (N.lxor a r) (N.lxor b r') = 0) by (rewrite H; apply N.lxor_nilpotent).
    apply N.bits_inj; intros k.
    assert (Hk : N.testbit (N.lxor (N.lxor a r) (N.lxor b r')) k = N.testbit 0 k) by congruence.
    rewrite !N.lxor_spec in *. rewrite N.bits_0 in *.
    destruct (N.testbit a k), (N.testbit b k), (N.testbit r k), (N.testbit r' k); cbn in *; congruence. }
  assert (Hq : N.lxor q q' = 0).
  { destruct (N.eq_dec (N.lxor q q') 0) as [|Hn]; [assumption|exfalso].
    pose proof (clmul_ge _ Hn) as G. rewrite E in G.
    pose proof (lxor_lt r r' 32 Hr Hr'). lia. }
  apply N.lxor_eq in Hq. split; [exact Hq|]. subst q'.
  rewrite N.lxor_nilpotent in E. cbn in E. symmetry in E. apply N.lxor_eq in E. exact E.
Qed.
