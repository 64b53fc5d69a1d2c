(** * Link: model of the SSP21 link frame parser and frame writer *)
From Verif Require Import Base Crc Codec.

(** ** Constants: cpp/libs/ssp21/include/ssp21/link/LinkConstants.h:20-48 *)
Definition sync1 : N := 0x07.
Definition sync2 : N := 0xAA.
Definition header_fields_size : nat := 8.
Definition header_total_size : nat := 12.
Definition min_frame_size : nat := 16.
Definition max_config_payload_size : N := 4092.

(** ** LinkParser *)

(** src/link/LinkParser.h:52-98 LinkParser::State.  The constructors fix num_buffered to 0
    and 1 in the first two states (LinkParser.h:65-72), so only the others carry it. *)
Inductive pstate :=
| wait_sync1 | wait_sync2
| wait_header (num_buffered : nat) | wait_body (num_buffered : nat) | wait_read (num_buffered : nat).

Definition is_wait_read (s : pstate) : bool :=
  match s with wait_read _ => true | _ => false end.

(** The calls made on LinkParser::IReporter (LinkParser.h:18-23). *)
Inductive report :=
| on_bad_header_crc (expected actual : N)
| on_bad_body_crc (expected actual : N)
| on_bad_body_length (max_allowed actual : N).

(** LinkParser.h:99-108 LinkParser::Context.  [result.payload] is a seq32_t pointing into
    [buffer]: it is modelled as an offset and a length.  [reports] accumulates the calls made on
    [reporter], oldest first. *)
Record context := {
  max_payload_length : N;
  buffer : list N;
  res_destination : N;
  res_source : N;
  res_payload : nat * nat;
  payload_length : N;
  reports : list report
}.

(** LinkParser.cpp:13-21.  The limit is clamped to 4092, the buffer is allocated with the
    unclamped argument; fresh ser4cpp::Buffer contents are zero (irrelevant to the proofs). *)
Definition new_context (max_arg : N) : context :=
  {| max_payload_length := N.min max_arg max_config_payload_size;
     buffer := repeat 0%N (min_frame_size + N.to_nat max_arg);
     res_destination := 0; res_source := 0; res_payload := (0, 0); payload_length := 0;
     reports := [] |}.

(** A seq32_t& argument: either memory outside the parser, or (LinkParser.cpp:120-126) a
    slice of the parser's own buffer given by offset and length, whose bytes change when the
    parser writes to its buffer. *)
Inductive input := Ext (bytes : list N) | Alias (off len : nat).

Definition input_length (i : input) : nat := match i with Ext l => length l | Alias _ n => n end.
Definition is_not_empty (i : input) : bool := negb (input_length i =? 0).
(** The bytes an input denotes at this moment: [input.take(n)] read through the pointer. *)
Definition input_take (c : context) (i : input) (n : nat) : list N :=
  match i with Ext l => firstn n l | Alias off len => slice (buffer c) off (Nat.min n len) end.
Definition input_advance (i : input) (n : nat) : input :=
  match i with
  | Ext l => Ext (skipn n l)
  | Alias off len => let k := Nat.min n len in Alias (off + k) (len - k)
  end.

(** Outcome of a computation: a value, undefined behaviour (an access outside a buffer), or
    the fuel of the recursion ran out (excluded by theorem [C04_parse_terminates_safely]). *)
Inductive outcome (A : Type) := Ok (a : A) | UB | NoFuel.
Arguments Ok {A}. Arguments UB {A}. Arguments NoFuel {A}.
Definition obind {A B} (o : outcome A) (f : A -> outcome B) : outcome B :=
  match o with Ok a => f a | UB => UB | NoFuel => NoFuel end.
Notation "'let*' x := p 'in' q" := (obind p (fun x => q)) (at level 200, x pattern, q at level 200).

(** [input[0]]: undefined behaviour on an empty input or outside the buffer. *)
Definition input_first (c : context) (i : input) : outcome N :=
  match i with
  | Ext (b :: _) => Ok b
  | Ext [] => UB
  | Alias off (S _) => match nth_error (buffer c) off with Some b => Ok b | None => UB end
  | Alias _ O => UB
  end.

Definition set_buffer (c : context) (b : list N) : context :=
  {| max_payload_length := max_payload_length c; buffer := b;
     res_destination := res_destination c; res_source := res_source c;
     res_payload := res_payload c; payload_length := payload_length c; reports := reports c |}.
Definition set_result_header (c : context) (dst src len : N) : context :=
  {| max_payload_length := max_payload_length c; buffer := buffer c;
     res_destination := dst; res_source := src;
     res_payload := res_payload c; payload_length := len; reports := reports c |}.
Definition set_result_payload (c : context) (p : nat * nat) : context :=
  {| max_payload_length := max_payload_length c; buffer := buffer c;
     res_destination := res_destination c; res_source := res_source c;
     res_payload := p; payload_length := payload_length c; reports := reports c |}.
Definition add_report (c : context) (r : report) : context :=
  {| max_payload_length := max_payload_length c; buffer := buffer c;
     res_destination := res_destination c; res_source := res_source c;
     res_payload := res_payload c; payload_length := payload_length c; reports := reports c ++ [r] |}.

(** [buffer.as_wslice()[off] = value]: undefined behaviour outside the buffer. *)
Definition buffer_put (c : context) (off : nat) (b : N) : outcome context :=
  match buf_write (buffer c) off [b] with Some buf => Ok (set_buffer c buf) | None => UB end.

(** LinkParser.cpp:67-81 parse_sync1: scan for the first synchronization byte.  The loop over
    the input is the recursion on [n], its length. *)
Fixpoint parse_sync1 (n : nat) (c : context) (i : input) : outcome (pstate * context * input) :=
  match n with
  | O => Ok (wait_sync1, c, i)
  | S n' =>
      let* value := input_first c i in
      let i' := input_advance i 1 in
      if (value =? sync1)%N
      then let* c' := buffer_put c 0 value in Ok (wait_sync2, c', i')
      else parse_sync1 n' c i'
  end.

(** LinkParser.cpp:83-93 parse_sync2 *)
Definition parse_sync2 (c : context) (i : input) : outcome (pstate * context * input) :=
  let* value := input_first c i in
  let i' := input_advance i 1 in
  if (value =? sync2)%N
  then let* c' := buffer_put c 1 value in Ok (wait_header 2, c', i')
  else Ok (wait_sync1, c, i').

(** LinkParser.cpp:162-172 transfer_data.  [remaining] is an unsigned subtraction: a
    num_buffered above the limit would wrap; the model makes that case undefined behaviour
    (and theorem C04 shows it does not occur).  WSeq::move_from (memmove) reads the source before
    writing and silently copies nothing when the destination is too small; the model makes that
    case undefined behaviour as well, since the parser would then go on with stale bytes. *)
Definition transfer_data (num_buffered : nat) (c : context) (i : input) (max_bytes : nat)
  : outcome (nat * context * input) :=
  if max_bytes <? num_buffered then UB else
  let remaining := max_bytes - num_buffered in
  let num_to_copy := Nat.min remaining (input_length i) in
  let data := input_take c i num_to_copy in
  if length data <? num_to_copy then UB else
  match buf_write (buffer c) num_buffered data with
  | None => UB
  | Some buf => Ok (num_to_copy + num_buffered, set_buffer c buf, input_advance i num_to_copy)
  end.

(** LinkParser.cpp:137-160 parse_body *)
Definition parse_body (num_buffered : nat) (c : context) (i : input)
  : outcome (pstate * context * input) :=
  let plen := N.to_nat (payload_length c) in
  let total := header_total_size + plen + 4 in
  let* (n, c1, i1) := transfer_data num_buffered c i total in
  if negb (n =? total) then Ok (wait_body n, c1, i1) else
  let c2 := set_result_payload c1 (header_total_size, plen) in
  let expected := crc32 (slice (buffer c2) header_total_size plen) in
  let actual := be_value (slice (buffer c2) (header_total_size + plen) 4) in
  if negb (expected =? actual)%N
  then Ok (wait_sync1, add_report c2 (on_bad_body_crc expected actual), i1)
  else Ok (wait_read n, c2, i1).

(** LinkParser.cpp:95-135 parse_header; [parse_many] is the recursive call at line 126 on the
    header bytes inside the parser's own buffer. *)
Definition parse_header (parse_many : pstate -> context -> input -> outcome (pstate * context * input))
  (num_buffered : nat) (c : context) (i : input) : outcome (pstate * context * input) :=
  let* (n, c1, i1) := transfer_data num_buffered c i header_total_size in
  if negb (n =? header_total_size) then Ok (wait_header n, c1, i1) else
  let dst := be_value (slice (buffer c1) 2 2) in
  let src := be_value (slice (buffer c1) 4 2) in
  let len := be_value (slice (buffer c1) 6 2) in
  let actual := be_value (slice (buffer c1) 8 4) in
  let c2 := set_result_header c1 dst src len in
  let expected := crc32 (firstn header_fields_size (buffer c2)) in
  if negb (expected =? actual)%N
  then
    let c3 := add_report c2 (on_bad_header_crc expected actual) in
    let* (s, c4, _) := parse_many wait_sync1 c3 (Alias 2 10) in Ok (s, c4, i1)
  else if (max_payload_length c2 <? len)%N
  then Ok (wait_sync1, add_report c2 (on_bad_body_length (max_payload_length c2) len), i1)
  else Ok (wait_body n, c2, i1).

(** LinkParser.cpp:40-65 parse_many and parse_one: the while loop and the recursion from
    parse_header both consume fuel. *)
Fixpoint parse_many (fuel : nat) (s : pstate) (c : context) (i : input)
  : outcome (pstate * context * input) :=
  if is_not_empty i && negb (is_wait_read s) then
    match fuel with
    | O => NoFuel
    | S f =>
        let* (s', c', i') :=
          match s with
          | wait_sync1 => parse_sync1 (input_length i) c i
          | wait_sync2 => parse_sync2 c i
          | wait_header n => parse_header (parse_many f) n c i
          | wait_body n => parse_body n c i
          | wait_read n => Ok (wait_read n, c, i)
          end in
        parse_many f s' c' i'
    end
  else Ok (s, c, i).

(** A LinkParser object. *)
Record link_parser := { lp_state : pstate; lp_context : context }.

(** LinkParser.cpp:23-26 *)
Definition new_link_parser (max_arg : N) : link_parser :=
  {| lp_state := wait_sync1; lp_context := new_context max_arg |}.

(** LinkParser.cpp:28-31 reset *)
Definition link_reset (p : link_parser) : link_parser :=
  {| lp_state := wait_sync1; lp_context := lp_context p |}.

(** LinkParser.cpp:33-38 parse, on bytes that do not alias the parser's buffer: the returned
    flag, the parser and the unconsumed input.  The fuel covers the outer loop (at most one
    iteration per byte) and the inner one (10 bytes). *)
Definition link_parse (p : link_parser) (bytes : list N) : outcome (bool * link_parser * list N) :=
  let* (s, c, i) := parse_many (length bytes + 11) (lp_state p) (lp_context p) (Ext bytes) in
  Ok (is_wait_read s, {| lp_state := s; lp_context := c |}, input_take c i (input_length i)).

(** LinkParser.h:38-46 has_result *)
Definition has_result (p : link_parser) : bool := is_wait_read (lp_state p).

(** A frame as delivered by LinkParser::read: LinkParser.h:25-27 Result. *)
Record frame := { f_destination : N; f_source : N; f_payload : list N }.

(** LinkParser.h:34-42 read: the payload is the slice of the buffer at the time of the call. *)
Definition link_read (p : link_parser) : option frame :=
  if has_result p then
    let c := lp_context p in
    Some {| f_destination := res_destination c; f_source := res_source c;
            f_payload := slice (buffer c) (fst (res_payload c)) (snd (res_payload c)) |}
  else None.

(** ** LinkFrameWriter *)

(** src/link/LinkFrameWriter.cpp:17-68 write_impl and write_body_and_crc, for a payload writer
    [w] (IWritable::write applied to the space left after the header).  [buf_size] is
    min_frame_size + max_payload_size (LinkFrameWriter.h:28-31).  Result: the frame bytes and the
    payload bytes.  The 12 header bytes are reserved by [dest.advance] (buf_size >= 16), so the two
    header writes cannot fail. *)
Definition link_frame_write (destination source max_payload_size : N) (w : writer) : option (list N * list N) :=
  let space := min_frame_size + N.to_nat max_payload_size - header_total_size in
  match w space with
  | WErr => None
  | WOk body =>
      if space - length body <? 4 then None else
      let crcb := be_bytes 4 (crc32 body) in
      if (65535 <? N.of_nat (length body))%N then None else
      let fields := sync1 :: sync2 :: be_bytes 2 destination ++ be_bytes 2 source
                      ++ be_bytes 2 (u16 (N.of_nat (length body))) in
      let hdr := fields ++ be_bytes 4 (crc32 fields) in
      Some (firstn (length body + min_frame_size) (hdr ++ body ++ crcb), body)
  end.

(** src/RawFrameWriter.cpp: the frame is the payload itself. *)
Definition raw_frame_write (max_payload_size : N) (w : writer) : option (list N * list N) :=
  match w (N.to_nat max_payload_size) with WErr => None | WOk body => Some (body, body) end.
