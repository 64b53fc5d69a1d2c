(** * Facts about Base.v *)
From Verif Require Import Base.

Ltac Zify.zify_post_hook ::= Z.div_mod_to_equations.

Lemma be_bytes_length n v : length (be_bytes n v) = n.
Proof. induction n as [|n IH]; cbn [be_bytes length]; congruence. Qed.

Lemma be_bytes_ok n v : bytes_ok (be_bytes n v).
Proof.
  induction n as [|n IH]; cbn [be_bytes]; constructor; [|exact IH].
  unfold byte_ok. apply N.mod_upper_bound. lia.
Qed.

Lemma be_value_acc l : forall a,
  fold_left (fun a b => (a * 256 + b)%N) l a = (a * 256 ^ N.of_nat (length l) + be_value l)%N.
Proof.
  unfold be_value.
  induction l as [|x l IH]; intros a; cbn [fold_left length].
  - cbn. lia.
  - rewrite IH. rewrite (IH (0 * 256 + x)%N).
    rewrite Nat2N.inj_succ, N.pow_succ_r by lia. lia.
Qed.

Lemma be_value_cons x l : be_value (x :: l) = (x * 256 ^ N.of_nat (length l) + be_value l)%N.
Proof. unfold be_value at 1. cbn [fold_left]. rewrite be_value_acc. lia. Qed.

Lemma be_value_app a b : be_value (a ++ b) = (be_value a * 256 ^ N.of_nat (length b) + be_value b)%N.
Proof.
  unfold be_value at 1. rewrite fold_left_app. rewrite be_value_acc. reflexivity.
Qed.

Lemma pow256_pos n : (0 < 256 ^ N.of_nat n)%N.
Proof. pose proof (N.pow_nonzero 256 (N.of_nat n)). lia. Qed.

Lemma be_value_bound l : bytes_ok l -> (be_value l < 256 ^ N.of_nat (length l))%N.
Proof.
  induction l as [|x l IH]; intros H; [cbn; lia|].
  inversion H as [|? ? Hx Hl]; subst. rewrite be_value_cons. specialize (IH Hl).
  cbn [length]. rewrite Nat2N.inj_succ, N.pow_succ_r by lia.
  unfold byte_ok in Hx. nia.
Qed.

Lemma be_value_be_bytes n v : be_value (be_bytes n v) = (v mod 256 ^ N.of_nat n)%N.
Proof.
  induction n as [|n IH].
  - cbn. rewrite N.mod_1_r. reflexivity.
  - cbn [be_bytes]. rewrite be_value_cons, be_bytes_length, IH.
    rewrite Nat2N.inj_succ, N.pow_succ_r by lia.
    pose proof (pow256_pos n) as Hp.
    rewrite (N.mul_comm 256 (256 ^ N.of_nat n)).
    rewrite (N.mod_mul_r v (256 ^ N.of_nat n) 256) by lia.
    lia.
Qed.

Lemma be_value_be_bytes_small n v : (v < 256 ^ N.of_nat n)%N -> be_value (be_bytes n v) = v.
Proof. intros H. rewrite be_value_be_bytes. apply N.mod_small; exact H. Qed.

Lemma be_bytes_mod n : forall v m, n <= m -> be_bytes n (v mod 256 ^ N.of_nat m) = be_bytes n v.
Proof.
  induction n as [|n IH]; intros v m Hm; cbn [be_bytes]; [reflexivity|].
  f_equal; [|apply IH; lia].
  pose proof (pow256_pos n) as Hp.
  replace (256 ^ N.of_nat m)%N with (256 ^ N.of_nat n * (256 * 256 ^ N.of_nat (m - S n)))%N.
  2:{ replace (N.of_nat m) with (N.of_nat n + (1 + N.of_nat (m - S n)))%N by lia.
      rewrite !N.pow_add_r. lia. }
  pose proof (pow256_pos (m - S n)) as Hp2.
  set (K := (256 ^ N.of_nat n)%N) in *. set (L := (256 ^ N.of_nat (m - S n))%N) in *.
  rewrite N.mod_mul_r by lia.
  rewrite (N.mul_comm K ((v / K) mod (256 * L))).
  rewrite N.div_add by lia.
  rewrite (N.div_small (v mod K) K) by (apply N.mod_upper_bound; lia).
  rewrite N.add_0_l. rewrite N.mod_mul_r by lia.
  rewrite (N.mul_comm 256 (((v / K) / 256) mod L)), N.mod_add by lia.
  apply N.mod_mod. lia.
Qed.

Lemma be_bytes_be_value l : bytes_ok l -> be_bytes (length l) (be_value l) = l.
Proof.
  induction l as [|x l IH]; intros H; [reflexivity|].
  inversion H as [|? ? Hx Hl]; subst. cbn [length be_bytes]. rewrite be_value_cons.
  pose proof (be_value_bound l Hl) as Hb. pose proof (pow256_pos (length l)) as Hp.
  f_equal.
  - rewrite N.div_add_l by lia. rewrite (N.div_small (be_value l)) by exact Hb.
    rewrite N.add_0_r. apply N.mod_small; exact Hx.
  - rewrite <- (be_bytes_mod (length l) _ (length l)) by lia.
    rewrite N.add_comm, N.mod_add by lia. rewrite N.mod_small by exact Hb. apply IH; exact Hl.
Qed.

Lemma be_bytes_inj n v w : (v < 256 ^ N.of_nat n)%N -> (w < 256 ^ N.of_nat n)%N ->
  be_bytes n v = be_bytes n w -> v = w.
Proof.
  intros Hv Hw H. rewrite <- (be_value_be_bytes_small n v Hv), H. apply be_value_be_bytes_small; exact Hw.
Qed.

Lemma bytes_ok_app a b : bytes_ok (a ++ b) <-> bytes_ok a /\ bytes_ok b.
Proof. unfold bytes_ok. apply Forall_app. Qed.

Lemma bytes_ok_firstn n l : bytes_ok l -> bytes_ok (firstn n l).
Proof. intros H. rewrite <- (firstn_skipn n l) in H. apply bytes_ok_app in H; tauto. Qed.

Lemma bytes_ok_skipn n l : bytes_ok l -> bytes_ok (skipn n l).
Proof. intros H. rewrite <- (firstn_skipn n l) in H. apply bytes_ok_app in H; tauto. Qed.

Lemma bytes_eqb_spec a : forall b, bytes_eqb a b = true <-> a = b.
Proof.
  induction a as [|x a IH]; intros [|y b]; cbn [bytes_eqb]; try (split; [discriminate|discriminate]).
  - tauto.
  - rewrite andb_true_iff, N.eqb_eq, IH. split; [intros [-> ->]; reflexivity|intros [= -> ->]; auto].
Qed.

Lemma bytes_eqb_refl a : bytes_eqb a a = true.
Proof. apply bytes_eqb_spec; reflexivity. Qed.

Lemma buf_write_length buf off data buf' :
  buf_write buf off data = Some buf' -> length buf' = length buf.
Proof.
  unfold buf_write. destruct (Nat.leb_spec (off + length data) (length buf)) as [H|H]; [|discriminate].
  intros [= <-]. rewrite !app_length, firstn_length, skipn_length. lia.
Qed.

Lemma app_inv_len {A} (a b c d : list A) : length a = length c -> a ++ b = c ++ d -> a = c /\ b = d.
Proof.
  revert c. induction a as [|x a IH]; intros [|y c] Hl H; cbn in *; try discriminate; [auto|].
  injection H as -> H. injection Hl as Hl. destruct (IH c Hl H) as [-> ->]. auto.
Qed.

Lemma firstn_app_exact {A} (a b : list A) : firstn (length a) (a ++ b) = a.
Proof. rewrite firstn_app, Nat.sub_diag, firstn_all. cbn. apply app_nil_r. Qed.

Lemma skipn_app_exact {A} (a b : list A) : skipn (length a) (a ++ b) = b.
Proof. rewrite skipn_app, Nat.sub_diag, skipn_all. reflexivity. Qed.

Lemma firstn_app_len {A} n (a b : list A) : length a = n -> firstn n (a ++ b) = a.
Proof. intros <-. apply firstn_app_exact. Qed.

Lemma skipn_app_len {A} n (a b : list A) : length a = n -> skipn n (a ++ b) = b.
Proof. intros <-. apply skipn_app_exact. Qed.
