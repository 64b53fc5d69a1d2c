(** * LinkSpec: the link frame format and the intended use of the parser *)
From Verif Require Import Base Crc Codec Link.

(** The wire format of a frame (SSP21 specification, section "link layer"): two sync bytes,
    destination, source and payload length as 16-bit big-endian integers, the CRC of these eight
    bytes, the payload, the CRC of the payload. *)
Definition frame_header_fields (f : frame) : list N :=
  [0x07; 0xAA]%N ++ be_bytes 2 (f_destination f) ++ be_bytes 2 (f_source f)
    ++ be_bytes 2 (N.of_nat (length (f_payload f))).
Definition frame_header (f : frame) : list N :=
  frame_header_fields f ++ be_bytes 4 (crc32 (frame_header_fields f)).
Definition frame_bytes (f : frame) : list N :=
  frame_header f ++ f_payload f ++ be_bytes 4 (crc32 (f_payload f)).

(** A frame that a parser configured with a maximum payload of [max] must accept. *)
Definition frame_ok (max : N) (f : frame) : Prop :=
  (f_destination f < 65536)%N /\ (f_source f < 65536)%N /\
  bytes_ok (f_payload f) /\ (N.of_nat (length (f_payload f)) <= max)%N.

(** How the parser is used: the transport hands over chunks of bytes; whenever [parse] reports a
    frame it is read and the parser is reset, and parsing goes on with the unconsumed bytes.
    Result: the frames read, in order, and the parser. *)
Fixpoint feed_fuel (fuel : nat) (p : link_parser) (bytes : list N) : outcome (list frame * link_parser) :=
  match bytes with
  | [] => Ok ([], p)
  | _ :: _ =>
      match fuel with
      | O => NoFuel
      | S k =>
          let* (found, p1, rest) := link_parse p bytes in
          if found then
            match link_read p1 with
            | Some f => let* (fs, p2) := feed_fuel k (link_reset p1) rest in Ok (f :: fs, p2)
            | None => UB
            end
          else feed_fuel k p1 rest
      end
  end.
Definition feed (p : link_parser) (bytes : list N) := feed_fuel (length bytes) p bytes.
Fixpoint feed_chunks (p : link_parser) (chunks : list (list N)) : outcome (list frame * link_parser) :=
  match chunks with
  | [] => Ok ([], p)
  | ch :: rest =>
      let* (fs, p1) := feed p ch in
      let* (fs', p2) := feed_chunks p1 rest in
      Ok (fs ++ fs', p2)
  end.

(** Any use of the parser whatsoever: parse and reset calls in any order. *)
Inductive link_reachable (max_arg : N) : link_parser -> Prop :=
| reach_new : link_reachable max_arg (new_link_parser max_arg)
| reach_parse p bytes found p' rest : link_reachable max_arg p -> bytes_ok bytes ->
    link_parse p bytes = Ok (found, p', rest) -> link_reachable max_arg p'
| reach_reset p : link_reachable max_arg p -> link_reachable max_arg (link_reset p).

(** Frames found one after the other in a stream, with arbitrary bytes between them. *)
Inductive frames_in (max : N) : list frame -> list N -> Prop :=
| frames_nil w : frames_in max [] w
| frames_cons f fs gap w : frame_ok max f -> frames_in max fs w ->
    frames_in max (f :: fs) (gap ++ frame_bytes f ++ w).
