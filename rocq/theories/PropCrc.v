(** * C06: the link CRC *)
From Verif Require Import Base Crc CrcSpec CrcFacts CrcMain.
Local Open Scope N_scope.

(** The table-driven loop computes the remainder of m(x)*x^32 divided by the generator:
    it is a remainder of degree < 32, and such a remainder is unique. *)
Theorem C06_crc_is_polynomial_remainder : forall m, bytes_ok m ->
  crc32 m < 2 ^ 32 /\
  exists q, N.lxor (clmul crc_gen q) (crc32 m) = N.shiftl (be_value m) 32.
Proof. exact crc32_is_remainder. Qed.
Print Assumptions C06_crc_is_polynomial_remainder.

Theorem C06_remainder_unique : forall q q' r r',
  r < 2 ^ 32 -> r' < 2 ^ 32 ->
  N.lxor (clmul crc_gen q) r = N.lxor (clmul crc_gen q') r' -> q = q' /\ r = r'.
Proof. exact remainder_unique. Qed.
Print Assumptions C06_remainder_unique.

(** Two different sections of the same length that differ only inside a window of 32
    consecutive bits (in particular: in a single bit) are never both accepted. *)
Theorem C06_crc_detects_bursts : forall w w' i,
  bytes_ok w -> bytes_ok w' -> length w = length w' -> w <> w' ->
  (forall k, nth k (bits w) false <> nth k (bits w') false -> (i <= k < i + 32)%nat) ->
  crc_protected w -> ~ crc_protected w'.
Proof. exact crc_detects_bursts_pf. Qed.
Print Assumptions C06_crc_detects_bursts.

(** Any odd number of bit errors is detected, at any length. *)
Theorem C06_crc_detects_odd_errors : forall w w',
  bytes_ok w -> bytes_ok w' -> length w = length w' -> Nat.odd (hamming (bits w) (bits w')) = true ->
  crc_protected w -> ~ crc_protected w'.
Proof. exact crc_detects_odd_pf. Qed.
Print Assumptions C06_crc_detects_odd_errors.

(** Any two bit errors are detected in a section of up to 4096 bytes (the largest body, 4092+4). *)
Theorem C06_crc_detects_double_errors : forall w w',
  bytes_ok w -> bytes_ok w' -> length w = length w' -> N.of_nat (length w) <= 4096 ->
  hamming (bits w) (bits w') = 2%nat -> crc_protected w -> ~ crc_protected w'.
Proof. exact crc_detects_two_pf. Qed.
Print Assumptions C06_crc_detects_double_errors.

(** Any one to five bit errors are detected in a 12-byte frame header. *)
Theorem C06_crc_detects_header_errors : forall w w',
  bytes_ok w -> bytes_ok w' -> length w = 12%nat -> length w' = 12%nat ->
  (1 <= hamming (bits w) (bits w') <= 5)%nat -> crc_protected w -> ~ crc_protected w'.
Proof. exact crc_detects_header_five_pf. Qed.
Print Assumptions C06_crc_detects_header_errors.

(** Non-vacuity: a protected header and a corrupted one differing by a burst. *)
Definition hdr : list N := [0x07; 0xAA; 0; 1; 0; 10; 0; 3].
Definition good : list N := hdr ++ be_bytes 4 (crc32 hdr).
Definition bad : list N := [0x07; 0xAA; 0; 1; 0; 11; 0x80; 3] ++ be_bytes 4 (crc32 hdr).
Example C06_hypotheses_met :
  bytes_ok good /\ bytes_ok bad /\ length good = length bad /\ good <> bad /\
  (forall k, nth k (bits good) false <> nth k (bits bad) false -> (40 <= k < 40 + 32)%nat) /\
  crc_protected good /\ hamming (bits good) (bits bad) = 2%nat /\ crc32 hdr <> 0.
Proof.
  assert (Fix : forall l, forallb (fun b => b <? 256) l = true -> bytes_ok l).
  { intros l H. apply Forall_forall. intros x Hx. rewrite forallb_forall in H. apply N.ltb_lt, H, Hx. }
  repeat split.
  - apply Fix. vm_compute. reflexivity.
  - apply Fix. vm_compute. reflexivity.
  - vm_compute. discriminate.
  - destruct (Nat.le_gt_cases 40 k) as [Hk|Hk]; [exact Hk|exfalso]. apply H.
    do 40 (destruct k as [|k]; [reflexivity|]). lia.
  - destruct (Nat.le_gt_cases 72 k) as [Hk|Hk]; [exfalso|lia]. apply H.
    assert (E : skipn 72 (bits good) = skipn 72 (bits bad)) by (vm_compute; reflexivity).
    rewrite <- (firstn_skipn 72 (bits good)), <- (firstn_skipn 72 (bits bad)), E.
    assert (L1 : length (firstn 72 (bits good)) = 72%nat) by (vm_compute; reflexivity).
    assert (L2 : length (firstn 72 (bits bad)) = 72%nat) by (vm_compute; reflexivity).
    rewrite !app_nth2 by lia. rewrite L1, L2. reflexivity.
  - exists hdr, (be_bytes 4 (crc32 hdr)). vm_compute. repeat split; reflexivity.
  - vm_compute. discriminate.
Qed.
