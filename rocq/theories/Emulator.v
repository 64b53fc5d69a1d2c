(** * Emulator: model of the QIX key generator emulator

    cpp/exe/qix-emulator/main.cpp, on top of the frame writer and reader of [Qix].

    Parameters: the SHA-256 function, the random keys that are drawn, the readings of the clocks, the
    lines of the standard input, and what the serial devices do.  Not modelled: the argument parser
    (argagg: its results are the [options]), the text of the messages, the speed of the port. *)
From Coq Require Import ZArith.
From Verif Require Import Base Crc Codec Link Qix.

(** A serial device: can it be opened (QIXFrameWriter.cpp:11-25, throws otherwise), and what
    asio::write does with the n-th frame: takes all of it ([None]), or throws after [Some k] bytes. *)
Record device := { d_opens : bool; d_takes : nat -> option nat }.

(** What the program does: bytes on a port, a line on the standard output (main.cpp:162 and 270; 38-43
    in reading mode), a pause (nanoseconds, main.cpp:167), a pause until a time (nanoseconds since the epoch, 252) *)
Inductive event :=
| Wrote (port : nat) (bytes : list N)
| Printed (f : qframe)
| Slept (ns : Z)
| SleptUntil (ns : Z).

(** Running: the list of inputs is used up and the program asks for more; [Exit]: the result of
    main; [Undefined]: signed overflow *)
Inductive status := Running | Exit (code : Z) | Undefined.

(** ** Writing *)

(** main.cpp:158-160, 218-220, 266-268: the frame is written to every port in turn; an exception of a writer leaves the loop.
    [n]: the number of frames written to each port before. *)
Fixpoint write_ports (n : nat) (idx : nat) (devs : list device) (f : qframe) : list event * bool :=
  match devs with
  | [] => ([], true)
  | d :: devs' =>
      match qix_write f with
      | None => ([], false)
      | Some b =>
          match d_takes d n with
          | Some k => ([Wrote idx (firstn k b)], false)
          | None => let (l, ok) := write_ports n (S idx) devs' f in (Wrote idx b :: l, ok)
          end
      end
  end.

(** main.cpp:143-145, 178-180, 238-240: all ports are opened before anything is written *)
Definition open_all (devs : list device) : bool := forallb d_opens devs.

(** ** Random keys: main.cpp:129-172 *)

(** One iteration: the key drawn by Crypto::gen_random, the steady clock (ns) at its start and after the writing *)
Record draw := { dr_key : list N; dr_start : Z; dr_end : Z }.

(** main.cpp:139: std::chrono::milliseconds(1000 / frames_per_sec), in ns *)
Definition frame_delay (rate : N) : Z := (Z.of_N (1000 / rate) * 1000000)%Z.

(** main.cpp:149-169.  [n]: the same number as [i], counts the frames of this run. *)
Fixpoint random_loop (devs : list device) (count : N) (delay : Z) (n : nat) (i : N) (ds : list draw) : list event * status :=
  if (i <? count)%N then
    match ds with
    | [] => ([], Running)
    | d :: ds' =>
        let f := {| q_id := i; q_key := dr_key d; q_status := q_ok |} in
        let (w, ok) := write_ports n 0 devs f in
        if ok then
          let elapsed := (dr_start d - dr_end d)%Z in
          let pause := if (elapsed <? delay)%Z then [Slept (delay - elapsed)] else [] in
          let (l, st) := random_loop devs count delay (S n) (u64 (i + 1)) ds' in
          (w ++ Printed f :: pause ++ l, st)
        else (w, Exit (-1))
    end
  else ([], Exit 0).
Definition write_random_frames (devs : list device) (count rate : N) (ds : list draw) : list event * status :=
  match devs with
  | [] => ([], Exit (-1))
  | _ => if (rate =? 0)%N then ([], Exit (-1))
         else if negb (open_all devs) then ([], Exit (-1))
         else random_loop devs count (frame_delay rate) 0 0 ds
  end.

(** ** Keys from the standard input: main.cpp:174-224 *)

(** main.cpp:196-207: one bit of a byte; [None]: a character that is neither '0' nor '1' *)
Definition add_bit (line : list N) (byte : nat) (sum : option N) (bit : nat) : option N :=
  match sum with
  | None => None
  | Some s =>
      let c := nth (byte * 8 + bit) line 0%N in
      if (c =? 49)%N then Some (u8 (N.lor s (N.shiftl 1 (N.of_nat (7 - bit)))))
      else if (c =? 48)%N then Some s
      else None
  end.
(** main.cpp:194-209 *)
Definition line_byte (line : list N) (byte : nat) : option N := fold_left (add_bit line byte) (seq 0 8) (Some 0%N).
Fixpoint all_some {A} (l : list (option A)) : option (list A) :=
  match l with
  | [] => Some []
  | None :: _ => None
  | Some x :: l' => match all_some l' with Some r => Some (x :: r) | None => None end
  end.
(** main.cpp:187-210: the key of a line *)
Definition line_key (line : list N) : option (list N) :=
  if length line =? 256 then all_some (map (line_byte line) (seq 0 32)) else None.

(** main.cpp:186-221 *)
Fixpoint stdin_loop (devs : list device) (n : nat) (key_id : N) (lines : list (list N)) : list event * status :=
  match lines with
  | [] => ([], Exit 0)
  | line :: lines' =>
      match line_key line with
      | None => ([], Exit (-1))
      | Some k =>
          let (w, ok) := write_ports n 0 devs {| q_id := key_id; q_key := k; q_status := q_ok |} in
          if ok then let (l, st) := stdin_loop devs (S n) (u64 (key_id + 1)) lines' in (w ++ l, st)
          else (w, Exit (-1))
      end
  end.
Definition write_frames_from_std_in (devs : list device) (lines : list (list N)) : list event * status :=
  if negb (open_all devs) then ([], Exit (-1)) else stdin_loop devs 0 0 lines.

(** ** Time-based keys: main.cpp:226-274 *)

(** main.cpp:309-312 to_ms_since_epoch: duration_cast truncates towards zero, then converts to uint64_t *)
Definition to_ms (ns : Z) : N := Z.to_N (Z.modulo (Z.quot ns 1000000) (2 ^ 64)).
(** main.cpp:251: the time of the next event, in ns *)
Definition next_event (modulo : N) (now : Z) : Z := (now + Z.of_N (modulo - to_ms now mod modulo) * 1000000)%Z.
Definition in_int64 (z : Z) : bool := ((- 2 ^ 63 <=? z) && (z <? 2 ^ 63))%Z.

(** main.cpp:245-271; [now]: the readings of the system clock (247) *)
Fixpoint time_loop (hash : list N -> list N) (devs : list device) (count modulo : N) (n : nat) (i : N) (now : list Z) : list event * status :=
  if (i <? count)%N then
    match now with
    | [] => ([], Running)
    | t :: now' =>
        let next := next_event modulo t in
        if negb (in_int64 next) then ([], Undefined)
        else
          let key_id := to_ms next in
          let f := {| q_id := key_id; q_key := hash (be_bytes 8 key_id); q_status := q_ok |} in
          let (w, ok) := write_ports n 0 devs f in
          if ok then
            let (l, st) := time_loop hash devs count modulo (S n) (u64 (i + 1)) now' in
            (SleptUntil next :: w ++ Printed f :: l, st)
          else (SleptUntil next :: w, Exit (-1))
    end
  else ([], Exit 0).
Definition write_time_based_frames (hash : list N -> list N) (devs : list device) (count modulo : N) (now : list Z) : list event * status :=
  match devs with
  | [] => ([], Exit (-1))
  | _ => if (modulo <? 100)%N then ([], Exit (-1))
         else if negb (open_all devs) then ([], Exit (-1))
         else time_loop hash devs count modulo 0 0 now
  end.

(** ** Reading: main.cpp:106-127 and 36-43.  [buf]: the initial contents of the parser's buffer *)
Definition read_frames (strict : bool) (devs : list device) (buf : list N) (es : list port) : outcome (list event * status) :=
  match devs with
  | [_] => let* (fs, _) := read_all strict (new_reader buf) es in Ok (map Printed fs, Exit 0)
  | _ => Ok ([], Exit (-1))
  end.

(** ** main: main.cpp:61-104 *)

(** main.cpp:63-72; the ports are the devices; [o_rate] and [o_count] as get_key_rate and get_frame_count read them (276-307) *)
Record options := { o_help : bool; o_read : bool; o_stdin : bool; o_write : bool; o_twrite : option N;
                    o_rate : option N; o_count : option N }.
(** main.cpp:291-298 *)
Definition get_key_rate (o : options) : N := match o_rate o with Some r => u16 r | None => 1 end.
(** main.cpp:300-307 *)
Definition get_frame_count (o : options) : N := match o_count o with Some c => u64 c | None => 2 ^ 64 - 1 end.
Record inputs := { in_draws : list draw; in_lines : list (list N); in_clock : list Z; in_port : list port; in_buffer : list N }.

Definition emulator_main (hash : list N -> list N) (strict : bool) (o : options) (devs : list device) (x : inputs) : outcome (list event * status) :=
  if o_help o then Ok ([], Exit 0)
  else if o_read o then read_frames strict devs (in_buffer x) (in_port x)
  else if o_stdin o then Ok (write_frames_from_std_in devs (in_lines x))
  else if o_write o then Ok (write_random_frames devs (get_frame_count o) (get_key_rate o) (in_draws x))
  else match o_twrite o with
       | Some m => Ok (write_time_based_frames hash devs (get_frame_count o) (u32 m) (in_clock x))
       | None => Ok ([], Exit (-1))
       end.
