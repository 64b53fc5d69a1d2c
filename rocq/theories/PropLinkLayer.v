(** * C07-C09: the link layer *)
From Verif Require Import Base Crc CrcSpec Codec Link LinkSpec LinkFacts LinkMain LinkLayer LinkLayerSpec LinkLayerFacts PropLink.

(** ** C07 *)

(** For every history of the transport and of the layer above: no undefined behaviour, and the
    payloads delivered are those of frames found one after the other, disjointly and in this
    order, in the bytes received, each addressed to this station. *)
Theorem C07_address_filtering : forall local remote ops, Forall op_ok ops ->
  exists l out gs, ll_run (new_link_layer local remote) ops = Ok (l, out) /\
    deliveries out = map f_payload gs /\
    Forall (fun f => f_destination f = local /\ f_payload f <> []) gs /\
    frames_in 4092 gs (arrivals ops).
Proof. exact ll_deliveries. Qed.
Print Assumptions C07_address_filtering.

(** What a stack configured with addresses [a] writes carries these addresses. *)
Theorem C07_transmit_addresses : forall a w bytes payload,
  stack_write a w = Some (bytes, payload) ->
  bytes = frame_bytes {| f_destination := a_destination a; f_source := a_source a; f_payload := payload |}.
Proof. intros a w bytes payload H. apply (link_write_bytes _ _ _ _ _ _ H). Qed.
Print Assumptions C07_transmit_addresses.

(** ** C08 *)

(** Progress under the guard that every frame is for this station and carries data: for every
    schedule without a close, every way of cutting the stream, reading often enough delivers
    every payload, exactly once and in order. *)
Theorem C08_progress_partial : forall local remote fs ops n,
  Forall (fun f => frame_ok 4092 f /\ f_destination f = local /\ f_payload f <> []) fs ->
  Forall (fun o => match o with LArrive ch => ch <> [] | _ => True end) ops ->
  ~ In LClose ops -> arrivals ops = flat_map frame_bytes fs -> length fs <= n ->
  exists l out, ll_run (new_link_layer local remote) (ops ++ repeat LStartRx n) = Ok (l, out) /\
    deliveries out = map f_payload fs.
Proof. exact ll_progress_any. Qed.
Print Assumptions C08_progress_partial.

(** End to end: what one stack writes, a stack with mirrored addresses delivers. *)
Theorem C08_end_to_end_partial : forall a b ws frames ops n,
  (a_destination a < 65536)%N -> (a_source a < 65536)%N -> a_source b = a_destination a ->
  Forall2 (fun w bp => stack_write a w = Some bp /\ bytes_ok (snd bp) /\ snd bp <> []) ws frames ->
  Forall (fun o => match o with LArrive ch => ch <> [] | _ => True end) ops ->
  ~ In LClose ops -> arrivals ops = flat_map fst frames -> length frames <= n ->
  exists l out, ll_run (stack_link b) (ops ++ repeat LStartRx n) = Ok (l, out) /\
    deliveries out = map snd frames.
Proof.
  intros a b ws frames ops n Hd Hs Hm HF Hc Hn Ha Hl.
  set (mk := fun bp : list N * list N => {| f_destination := a_destination a; f_source := a_source a; f_payload := snd bp |}).
  assert (X : Forall (mine (a_source b)) (map mk frames) /\ flat_map fst frames = flat_map frame_bytes (map mk frames)).
  { clear Ha Hl. induction HF as [|w [bytes payload] ws frames (H1 & H2 & H3) HF [IH1 IH2]]; [split; [constructor|reflexivity]|].
    destruct (write_mine a b w bytes payload Hd Hs H1 H2 H3 Hm) as [E M].
    split; [constructor; [exact M|exact IH1]|]. cbn [map flat_map fst]. rewrite IH2, E. reflexivity. }
  destruct X as [X1 X2].
  destruct (ll_progress_any (a_source b) (a_destination b) (map mk frames) ops n X1 Hc Hn) as (l & out & E & D).
  - rewrite Ha. exact X2.
  - rewrite map_length. exact Hl.
  - exists l, out. split; [exact E|]. rewrite D, map_map. reflexivity.
Qed.
Print Assumptions C08_end_to_end_partial.

(** The unguarded property is false of the code: after one valid frame for another station, or
    one valid frame without payload, nothing is ever delivered again, whatever arrives and however
    often the layer above reads, until the connection is closed (LinkLayer.cpp:39-50: the frame
    stays in the parser because the processing flag that would discard it is only set for
    non-empty data, ILowerLayer.h:49-63). *)
Theorem C08_progress_refuted : forall local remote f ops,
  frame_ok 4092 f -> (f_destination f <> local \/ f_payload f = []) -> ~ In LClose ops ->
  exists l out,
    ll_run (new_link_layer local remote) (LOpen :: LArrive (frame_bytes f) :: LStartRx :: ops) = Ok (l, out) /\
    deliveries out = [].
Proof. exact ll_wedge. Qed.
Print Assumptions C08_progress_refuted.

(** ** C09 *)

(** If the layer above drained the link layer before the close (a read returns nothing, then
    nothing is announced), then after the close the link layer behaves in every later history
    exactly like a newly constructed one, although its buffers still hold old bytes. *)
Theorem C09_isolation_when_drained_partial : forall local remote before l0 out0 l1,
  Forall op_ok before -> Forall (fun o => match o with LArrive ch => ch <> [] | _ => True end) before ->
  ll_run (new_link_layer local remote) before = Ok (l0, out0) -> ll_open l0 = true ->
  ll_run l0 [LStartRx; LRxReady] = Ok (l1, []) ->
  exists l2, ll_run l1 [LClose] = Ok (l2, [UpClose]) /\
    forall after, exists k k' out,
      ll_run l2 after = Ok (k, out) /\ ll_run (new_link_layer local remote) after = Ok (k', out).
Proof. exact isolation_drained. Qed.
Print Assumptions C09_isolation_when_drained_partial.

Definition demo_frame2 : frame := {| f_destination := 1; f_source := 10; f_payload := [7; 8]%N |}.

(** The unguarded property is false, in both directions. (a) A frame received before the close is
    delivered after the reopening, when nothing has arrived since. *)
Theorem C09_isolation_refuted_stale_delivery : exists l1 l2,
  ll_run (new_link_layer 1 10)
    [LOpen; LArrive (frame_bytes demo_frame ++ frame_bytes demo_frame2); LStartRx; LClose]
    = Ok (l1, [UpOpen; Data (f_payload demo_frame); UpClose]) /\
  ll_rx_queue l1 = [] /\
  ll_run l1 [LOpen; LStartRx] = Ok (l2, [UpOpen; Data (f_payload demo_frame2)]).
Proof.
  set (ops := [LOpen; LArrive (frame_bytes demo_frame ++ frame_bytes demo_frame2); LStartRx; LClose]).
  set (st := match ll_run (new_link_layer 1 10) ops with Ok (l, _) => l | _ => new_link_layer 1 10 end).
  set (st2 := match ll_run st [LOpen; LStartRx] with Ok (l, _) => l | _ => st end).
  exists st, st2. (split; [vm_compute; reflexivity|]); (split; [vm_compute; reflexivity|]); vm_compute; reflexivity.
Qed.
Print Assumptions C09_isolation_refuted_stale_delivery.

(** (b) A frame received after the reopening, announced to the layer above, is thrown away by the
    read because of the processing flag left over from before the close; a new link layer
    delivers it. *)
Theorem C09_isolation_refuted_lost_frame : exists l1 l2 k2,
  ll_run (new_link_layer 1 10) [LOpen; LArrive (frame_bytes demo_frame); LStartRx; LClose]
    = Ok (l1, [UpOpen; Data (f_payload demo_frame); UpClose]) /\
  ll_run l1 [LOpen; LArrive (frame_bytes demo_frame2); LRxReady; LStartRx]
    = Ok (l2, [UpOpen; UpRxReady]) /\
  ll_run (new_link_layer 1 10) [LOpen; LArrive (frame_bytes demo_frame2); LRxReady; LStartRx]
    = Ok (k2, [UpOpen; UpRxReady; Data (f_payload demo_frame2)]).
Proof.
  set (st := match ll_run (new_link_layer 1 10) [LOpen; LArrive (frame_bytes demo_frame); LStartRx; LClose] with Ok (l, _) => l | _ => new_link_layer 1 10 end).
  set (ops := [LOpen; LArrive (frame_bytes demo_frame2); LRxReady; LStartRx]).
  set (st2 := match ll_run st ops with Ok (l, _) => l | _ => st end).
  set (st3 := match ll_run (new_link_layer 1 10) ops with Ok (l, _) => l | _ => st end).
  exists st, st2, st3. (split; [vm_compute; reflexivity|]); (split; [vm_compute; reflexivity|]); vm_compute; reflexivity.
Qed.
Print Assumptions C09_isolation_refuted_lost_frame.

(** ** Non-vacuity *)
Example C07_C08_hypotheses_met :
  let ops := [LOpen; LArrive (firstn 7 (frame_bytes demo_frame)); LStartRx;
              LArrive (skipn 7 (frame_bytes demo_frame) ++ frame_bytes demo_frame2)] in
  Forall op_ok ops /\ Forall (fun o => match o with LArrive ch => ch <> [] | _ => True end) ops /\
  ~ In LClose ops /\ arrivals ops = flat_map frame_bytes [demo_frame; demo_frame2] /\
  Forall (fun f => frame_ok 4092 f /\ f_destination f = 1%N /\ f_payload f <> []) [demo_frame; demo_frame2] /\
  (exists k, stack_write {| a_destination := 1; a_source := 10 |} (fun _ => WOk [7; 8]%N) = Some (frame_bytes demo_frame2, k)).
Proof.
  split.
  { repeat constructor; unfold byte_ok; vm_compute; repeat constructor. }
  split; [repeat constructor; discriminate|]. split; [intros H; cbn in H; intuition discriminate|].
  split; [vm_compute; reflexivity|].
  split; [|eexists; vm_compute; reflexivity].
  repeat constructor; cbn; try discriminate; try lia; unfold byte_ok; try lia.
Qed.
Example C09_hypotheses_met : exists l0 l1 out0,
  ll_run (new_link_layer 1 10) [LOpen; LArrive (frame_bytes demo_frame); LStartRx] = Ok (l0, out0) /\
  deliveries out0 = [f_payload demo_frame] /\
  ll_open l0 = true /\ ll_run l0 [LStartRx; LRxReady] = Ok (l1, []).
Proof.
  set (st := match ll_run (new_link_layer 1 10) [LOpen; LArrive (frame_bytes demo_frame); LStartRx] with Ok (l, _) => l | _ => new_link_layer 1 10 end).
  set (st2 := match ll_run st [LStartRx; LRxReady] with Ok (l, _) => l | _ => st end).
  exists st, st2, [UpOpen; Data (f_payload demo_frame)]. (split; [vm_compute; reflexivity|]); (split; [vm_compute; reflexivity|]); (split; [vm_compute; reflexivity|]); vm_compute; reflexivity.
Qed.
