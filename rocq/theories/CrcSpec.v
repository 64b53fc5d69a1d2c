(** * CrcSpec: what a CRC is, independently of the implementation

    Polynomials over GF(2) are represented by natural numbers: bit i is the
    coefficient of x^i; addition is [N.lxor]. *)
From Verif Require Import Base Crc.

(** Carry-less product: multiplication of GF(2) polynomials. *)
Fixpoint clmul_pos (a : N) (b : positive) : N :=
  match b with
  | xH => a
  | xO b' => N.double (clmul_pos a b')
  | xI b' => N.lxor a (N.double (clmul_pos a b'))
  end.
Definition clmul (a b : N) : N :=
  match b with N0 => 0%N | Npos p => clmul_pos a p end.

(** The generator polynomial x^32 + ... of SSP21: 0xF4ACFB13 with the implicit top bit. *)
Definition crc_gen : N := 0x1F4ACFB13%N.

(** The bits of a byte sequence in transmission order, most significant bit first. *)
Definition byte_bits (b : N) : list bool :=
  map (N.testbit b) [7; 6; 5; 4; 3; 2; 1; 0]%N.
Definition bits (l : list N) : list bool := flat_map byte_bits l.

(** A protected section: data followed by its four CRC bytes, as on the wire. *)
Definition crc_protected (w : list N) : Prop :=
  exists p c, w = p ++ c /\ length c = 4 /\ crc32 p = be_value c.

(** Number of positions in which two bit strings differ. *)
Fixpoint hamming (a b : list bool) : nat :=
  match a, b with
  | x :: a', y :: b' => (if xorb x y then 1 else 0) + hamming a' b'
  | _, _ => 0
  end.
