(** * Base: bytes, sequences and big-endian integers

    Model of the parts of the ser4cpp library that ssp21-cpp uses.  The ser4cpp
    sources are NOT in /repo (cpp/deps/ser4cpp is an empty directory), so this file
    is part of the trusted base: it states the behaviour of
    RSeq/WSeq (take, skip, advance clamp to the length; put/copy_from/move_from
    refuse when the destination is too small) and of UInt8/16/32/64 and
    BigEndian::read/write (network byte order, refuse when too short). *)

From Coq Require Export List Arith NArith ZArith Lia Bool.
From Coq Require Export ZifyBool ZifyNat ZifyN.
Export ListNotations.
#[global] Open Scope nat_scope.

(** A byte is an [N] below 256 ([uint8_t]). *)
Definition byte_ok (b : N) : Prop := (b < 256)%N.
Definition bytes_ok (l : list N) : Prop := Forall byte_ok l.

(** Truncation of an unsigned integer to [k] bits: conversion to uintK_t in C++. *)
Definition trunc (k : N) (v : N) : N := (v mod 2 ^ k)%N.
Definition u8 (v : N) : N := trunc 8 v.
Definition u16 (v : N) : N := trunc 16 v.
Definition u32 (v : N) : N := trunc 32 v.
Definition u64 (v : N) : N := trunc 64 v.

(** Big-endian encoding on [n] bytes: ser4cpp UInt8/16/32/64::write_to. *)
Fixpoint be_bytes (n : nat) (v : N) : list N :=
  match n with
  | O => []
  | S m => ((v / 256 ^ N.of_nat m) mod 256)%N :: be_bytes m v
  end.

(** Big-endian decoding: ser4cpp UInt8/16/32/64::read_from. *)
Definition be_value (l : list N) : N := fold_left (fun a b => (a * 256 + b)%N) l 0%N.

(** Contents of a buffer after writing [data] at offset [off]
    (WSeq::skip then copy_from/move_from/operator[]).  [None] when the write does
    not fit: for operator[] that is undefined behaviour. *)
Definition buf_write (buf : list N) (off : nat) (data : list N) : option (list N) :=
  if off + length data <=? length buf
  then Some (firstn off buf ++ data ++ skipn (off + length data) buf)
  else None.

(** RSeq::take / RSeq::skip clamp to the length: [firstn] and [skipn]. *)
Definition slice (buf : list N) (off len : nat) : list N := firstn len (skipn off buf).

(** Byte-wise equality test on sequences. *)
Fixpoint bytes_eqb (a b : list N) : bool :=
  match a, b with
  | [], [] => true
  | x :: a', y :: b' => N.eqb x y && bytes_eqb a' b'
  | _, _ => false
  end.
