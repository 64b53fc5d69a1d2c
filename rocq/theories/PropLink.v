(** * C01-C05: the link frame format, parser and writer *)
From Verif Require Import Base Crc CrcSpec Codec Link LinkSpec LinkFacts LinkMain.

(** ** C01 *)

(** Whatever the payload writer produces, the frame writer emits exactly the wire format, within
    its buffer of 16 + max bytes. *)
Theorem C01_writer_emits_wire_format : forall destination source max_payload w bytes payload,
  link_frame_write destination source max_payload w = Some (bytes, payload) ->
  bytes = frame_bytes {| f_destination := destination; f_source := source; f_payload := payload |} /\
  length bytes = 16 + length payload /\ (N.of_nat (length payload) <= max_payload)%N.
Proof. exact link_write_bytes. Qed.
Print Assumptions C01_writer_emits_wire_format.

(** Every payload up to the writer's configured maximum is accepted. *)
Theorem C01_writer_succeeds : forall destination source max_payload payload,
  (max_payload < 65536)%N -> (N.of_nat (length payload) <= max_payload)%N ->
  exists bytes, link_frame_write destination source max_payload
    (fun space => if space <? length payload then WErr else WOk payload) = Some (bytes, payload).
Proof. exact link_write_total. Qed.
Print Assumptions C01_writer_succeeds.

(** One call of [parse] on the frame followed by anything: the frame is reported, with its exact
    content, and exactly the bytes of the frame are consumed. *)
Theorem C01_parse_consumes_exactly_the_frame : forall max_arg p f rest,
  link_reachable max_arg p -> lp_state p = wait_sync1 -> frame_ok (N.min max_arg 4092) f ->
  exists p', link_parse p (frame_bytes f ++ rest) = Ok (true, p', rest) /\ link_read p' = Some f.
Proof. exact parse_frame. Qed.
Print Assumptions C01_parse_consumes_exactly_the_frame.

(** Any sequence of frames, cut into chunks in any way, is delivered exactly, and leaves the
    parser idle. *)
Theorem C01_frames_round_trip : forall max_arg p fs chunks,
  link_reachable max_arg p -> lp_state p = wait_sync1 ->
  Forall (frame_ok (N.min max_arg 4092)) fs -> concat chunks = flat_map frame_bytes fs ->
  exists p', feed_chunks p chunks = Ok (fs, p') /\ lp_state p' = wait_sync1.
Proof. exact feed_frames. Qed.
Print Assumptions C01_frames_round_trip.

(** ** C02 *)
Theorem C02_chunk_independence : forall max_arg p chunks,
  link_reachable max_arg p -> has_result p = false ->
  exists r, feed_chunks p chunks = Ok r /\ feed p (concat chunks) = Ok r.
Proof. exact chunk_independence. Qed.
Print Assumptions C02_chunk_independence.

(** ** C03 *)
Theorem C03_frames_come_from_the_stream : forall max_arg chunks fs p,
  Forall bytes_ok chunks -> feed_chunks (new_link_parser max_arg) chunks = Ok (fs, p) ->
  frames_in (N.min max_arg 4092) fs (concat chunks).
Proof. exact frames_sound. Qed.
Print Assumptions C03_frames_come_from_the_stream.

(** ** C04: no undefined behaviour, no divergence ([Ok] excludes both), progress *)
Theorem C04_parse_terminates_safely : forall max_arg p bytes,
  link_reachable max_arg p ->
  exists found p' rest, link_parse p bytes = Ok (found, p', rest) /\ found = has_result p' /\
    (exists used, bytes = used ++ rest) /\ (found = false -> rest = []) /\
    (has_result p = false -> bytes <> [] -> length rest < length bytes) /\
    (has_result p = true -> p' = p /\ rest = bytes).
Proof. exact parse_safe. Qed.
Print Assumptions C04_parse_terminates_safely.

(** ** C05 *)

(** Noise without a sync pair and not ending in the first sync byte is harmless. *)
Theorem C05_resync_after_noise_partial : forall max_arg p noise f,
  link_reachable max_arg p -> lp_state p = wait_sync1 ->
  (forall a b, noise <> a ++ [0x07; 0xAA]%N ++ b) -> (forall a, noise <> a ++ [0x07]%N) ->
  frame_ok (N.min max_arg 4092) f ->
  exists p', feed_chunks p [noise; frame_bytes f] = Ok ([f], p') /\ lp_state p' = wait_sync1.
Proof. intros m p noise f Hr Hs H1 H2 Hf. exact (resync_noise m p noise f Hr Hs (sync_free_spec noise H1 H2) Hf). Qed.
Print Assumptions C05_resync_after_noise_partial.

(** Whatever came before, in whatever state the parser is: after max + 15 bytes different from
    the first sync byte the parser is idle and the next frame is delivered. *)
Theorem C05_resync_after_quiet_gap_partial : forall max_arg p before gap f,
  link_reachable max_arg p -> has_result p = false -> bytes_ok before -> bytes_ok gap ->
  ~ In 0x07%N gap -> 15 + N.to_nat (N.min max_arg 4092) <= length gap ->
  frame_ok (N.min max_arg 4092) f ->
  exists fs p1 p', feed_chunks p [before; gap] = Ok (fs, p1) /\ lp_state p1 = wait_sync1 /\
    feed_chunks p [before; gap; frame_bytes f] = Ok (fs ++ [f], p') /\ lp_state p' = wait_sync1.
Proof. exact resync_gap. Qed.
Print Assumptions C05_resync_after_quiet_gap_partial.

(** A frame whose body was corrupted (its CRC no longer matches) is dropped, and the frame right
    after it is delivered. *)
Theorem C05_resync_after_corrupted_body_partial : forall max_arg p g w crcb f,
  link_reachable max_arg p -> lp_state p = wait_sync1 ->
  frame_ok (N.min max_arg 4092) g -> length w = length (f_payload g) ->
  length crcb = 4 -> be_value crcb <> crc32 w ->
  frame_ok (N.min max_arg 4092) f ->
  exists p', feed_chunks p [frame_header g ++ w ++ crcb; frame_bytes f] = Ok ([f], p') /\ lp_state p' = wait_sync1.
Proof.
  intros m p g w crcb f Hr Hs (Hd & Hsr & Hp & Hm) Hw L4 Hne Hf.
  rewrite frame_header_hdr, <- Hw. rewrite <- Hw in Hm.
  exact (resync_bad_body m p (f_destination g) (f_source g) w crcb f Hr Hs Hd Hsr Hm L4 Hne Hf).
Qed.
Print Assumptions C05_resync_after_corrupted_body_partial.

(** Consequence of the CRC properties: a frame whose body suffered a burst of at most 32 bits
    (in particular any single bit error) is never delivered, and the next frame is. *)
Theorem C06_burst_in_body_is_dropped : forall max_arg p g sect i f,
  link_reachable max_arg p -> lp_state p = wait_sync1 ->
  frame_ok (N.min max_arg 4092) g -> frame_ok (N.min max_arg 4092) f ->
  let good := f_payload g ++ be_bytes 4 (crc32 (f_payload g)) in
  bytes_ok sect -> length sect = length good -> sect <> good ->
  (forall k, nth k (bits good) false <> nth k (bits sect) false -> i <= k < i + 32) ->
  exists p', feed_chunks p [frame_header g ++ sect; frame_bytes f] = Ok ([f], p').
Proof. exact burst_dropped. Qed.
Print Assumptions C06_burst_in_body_is_dropped.

(** The property as stated is false of the code: the single noise byte 07, which starts no
    plausible frame (it is not followed by AA), makes the parser miss the intact frame that
    follows (LinkParser.cpp:83-93 drops the second 07 instead of treating it as a first sync
    byte). *)
Definition demo_frame : frame := {| f_destination := 1; f_source := 10; f_payload := [1; 2; 3]%N |}.
Theorem C05_resync_refuted : exists noise f p',
  frame_ok 4092 f /\ noise = [0x07]%N /\
  feed_chunks (new_link_parser 4092) [noise; frame_bytes f] = Ok ([], p') /\
  (exists p'', feed_chunks (new_link_parser 4092) [frame_bytes f] = Ok ([f], p'')).
Proof.
  exists [0x07%N], demo_frame.
  assert (Hok : frame_ok 4092 demo_frame).
  { unfold demo_frame. repeat split; cbn; try lia. repeat constructor. }
  assert (X : exists p', feed_chunks (new_link_parser 4092) [[0x07%N]; frame_bytes demo_frame] = Ok ([], p')).
  { rewrite feed_chunks_spec; [|apply new_pinv|reflexivity]. eexists. apply f_equal. apply f_equal2; [|reflexivity].
    vm_compute. reflexivity. }
  destruct X as [p' X]. exists p'. split; [exact Hok|]. split; [reflexivity|]. split; [exact X|].
  destruct (feed_frames 4092 (new_link_parser 4092) [demo_frame] [frame_bytes demo_frame]) as (p'' & E & _).
  - constructor.
  - reflexivity.
  - constructor; [exact Hok|constructor].
  - cbn [concat flat_map]. reflexivity.
  - exists p''. exact E.
Qed.
Print Assumptions C05_resync_refuted.

(** ** Non-vacuity *)
Example C01_C05_hypotheses_met :
  frame_ok 4092 demo_frame /\ link_reachable 4092 (new_link_parser 4092) /\
  link_frame_write 1 10 4092 (fun space => WOk [1; 2; 3]%N) = Some (frame_bytes demo_frame, [1; 2; 3]%N) /\
  length (frame_bytes demo_frame) = 19 /\
  frames_in 4092 [demo_frame] ([0x55]%N ++ frame_bytes demo_frame ++ [0x07]%N).
Proof.
  assert (Hok : frame_ok 4092 demo_frame).
  { unfold demo_frame. repeat split; cbn; try lia. repeat constructor. }
  split; [exact Hok|]. split; [constructor|]. split; [vm_compute; reflexivity|]. split; [vm_compute; reflexivity|].
  constructor; [exact Hok|constructor].
Qed.
