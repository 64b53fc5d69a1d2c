(** * EmulatorSpec: what the properties of the QIX emulator mean *)
From Coq Require Import ZArith.
From Verif Require Import Base Crc Codec Link Qix QixSpec Emulator.
Local Open Scope nat_scope.

(** What a port got, what was printed, how long the program paused *)
Definition port_bytes (p : nat) (log : list event) : list N :=
  flat_map (fun e => match e with Wrote q b => if q =? p then b else [] | _ => [] end) log.
Definition printed (log : list event) : list qframe := flat_map (fun e => match e with Printed f => [f] | _ => [] end) log.
Definition pauses (log : list event) : list Z := flat_map (fun e => match e with Slept z => [z] | _ => [] end) log.
Definition alarms (log : list event) : list Z := flat_map (fun e => match e with SleptUntil z => [z] | _ => [] end) log.
Definition wires (fs : list qframe) : list N := flat_map wire_of fs.

Definition frame (id : N) (key : list N) : qframe := {| q_id := id; q_key := key; q_status := q_ok |}.
(** The keys numbered from zero *)
Definition numbered (keys : list (list N)) : list qframe := map (fun i => frame (N.of_nat i) (nth i keys [])) (seq 0 (length keys)).
Definition is_key (k : list N) : Prop := length k = 32 /\ bytes_ok k.

(** The frames [fs] are to be written to the devices; this is what happened.  Either all ports got all of them, or the device
    [j] failed in frame number [m]: the ports before it got that frame, it got a part of it, the ports after it did not get it. *)
Definition ports_got (devs : list device) (fs : list qframe) (log : list event) : Prop :=
  forall p, p < length devs -> port_bytes p log = wires fs.
Definition ports_failed (devs : list device) (fs : list qframe) (m j : nat) (log : list event) : Prop :=
  m < length fs /\
  exists d k f, nth_error devs j = Some d /\ d_takes d m = Some k /\ nth_error fs m = Some f /\
    forall p, p < length devs -> port_bytes p log = if p <? j then wires (firstn (S m) fs) else if p =? j then wires (firstn m fs) ++ firstn k (wire_of f) else wires (firstn m fs).
Definition reliable (d : device) : Prop := d_opens d = true /\ forall n, d_takes d n = None.

(** A line of 256 characters '0' and '1' spells a key: bit by bit, the most significant bit of each byte first *)
Definition spells (line key : list N) : Prop :=
  length line = 256 /\ is_key key /\
  forall i, i < 256 -> nth i line 0%N = if N.testbit (nth (i / 8) key 0%N) (N.of_nat (7 - i mod 8)) then 49%N else 48%N.

(** Milliseconds since the epoch; the first multiple of [m] after that *)
Definition ms (t : Z) : N := Z.to_N (t / 1000000).
Definition is_next (m : N) (t : Z) (id : N) : Prop := (exists q, id = q * m)%N /\ (ms t < id <= ms t + m)%N.
Definition time_frame (hash : list N -> list N) (m : N) (t : Z) (f : qframe) : Prop := exists id, is_next m t id /\ f = frame id (hash (be_bytes 8 id)).
(** A clock between 1970 and (nearly) 2262 *)
Definition clock_ok (m : N) (t : Z) : Prop := (0 <= t /\ t + Z.of_N m * 1000000 < 2 ^ 63)%Z.
Definition hash_ok (hash : list N -> list N) : Prop := forall x, is_key (hash x).

(** The clock is never set back behind the event the program was waiting for *)
Fixpoint clock_forward (m : N) (clock : list Z) : Prop :=
  match clock with
  | t :: ((t' :: _) as rest) => (forall id, is_next m t id -> (id <= ms t')%N) /\ clock_forward m rest
  | _ => True
  end.
Fixpoint increasing (l : list N) : Prop :=
  match l with x :: ((y :: _) as rest) => (x < y)%N /\ increasing rest | _ => True end.

(** Every frame a proxy received came from a time-based emulator with this modulo *)
Definition fed_by (hash : list N -> list N) (m : N) (os : list sop) : Prop :=
  Forall (fun o => match o with Frame f => exists t, clock_ok m t /\ time_frame hash m t f | _ => True end) os.

(** The number of frames asked for (by default 2^64 - 1), and the rate (by default one per second) *)
Definition requested (o : options) : N := match o_count o with Some c => c mod 2 ^ 64 | None => 18446744073709551615 end.
Definition asked_rate (o : options) : N := match o_rate o with Some r => r mod 2 ^ 16 | None => 1 end.

(** The frames the emulator is to write, by its mode: every key of the standard input up to the first line that
    spells none, every key drawn, one key per reading of the clock *)
Inductive intends (hash : list N -> list N) (o : options) (x : inputs) : list qframe -> Prop :=
| intends_stdin lines keys rest : o_stdin o = true -> in_lines x = lines ++ rest -> Forall2 spells lines keys ->
    match rest with [] => True | l :: _ => forall k, ~ spells l k end -> (N.of_nat (length keys) < 2 ^ 64)%N ->
    intends hash o x (numbered keys)
| intends_random : o_stdin o = false -> o_write o = true -> Forall is_key (map dr_key (in_draws x)) ->
    intends hash o x (numbered (map dr_key (firstn (N.to_nat (requested o)) (in_draws x))))
| intends_time m fs : o_stdin o = false -> o_write o = false -> o_twrite o = Some m -> hash_ok hash -> Forall (clock_ok (u32 m)) (in_clock x) ->
    Forall2 (time_frame hash (u32 m)) (firstn (N.to_nat (requested o)) (in_clock x)) fs ->
    intends hash o x fs.
(** The arguments the emulator accepts in its writing modes *)
Definition acceptable (o : options) (devs : list device) : Prop :=
  o_stdin o = true \/
  (devs <> [] /\ ((o_write o = true /\ asked_rate o <> 0%N) \/ (o_write o = false /\ exists m, o_twrite o = Some m /\ (100 <= u32 m)%N))).
Definition writing_mode (o : options) : Prop := o_help o = false /\ o_read o = false.
Definition reading_mode (o : options) : Prop := o_help o = false /\ o_read o = true.
(** How a run ends when no device fails: with 0 after all lines or after the requested number of frames, with -1 at a
    line that spells no key; it goes on while fewer frames than requested have been written *)
Definition ends (o : options) (x : inputs) (fs : list qframe) : status :=
  if o_stdin o then (if length fs =? length (in_lines x) then Exit 0 else Exit (-1))
  else if (N.of_nat (length fs) <? requested o)%N then Running else Exit 0.

(** Whatever is written or printed belongs to the millisecond for which the program waited last ([z]) *)
Fixpoint timely (z : option Z) (log : list event) : Prop :=
  match log with
  | [] => True
  | SleptUntil t :: log' => timely (Some t) log'
  | Wrote _ b :: log' => (exists t after more, z = Some t /\ b ++ more = [0x5A; 0xA5]%N ++ be_bytes 8 (ms t) ++ after) /\ timely z log'
  | Printed f :: log' => (exists t, z = Some t /\ q_id f = ms t) /\ timely z log'
  | Slept _ :: log' => timely z log'
  end.
