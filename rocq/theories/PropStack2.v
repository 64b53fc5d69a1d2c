(** * C46: what arrived completely is taken *)
From Verif Require Import Base BaseFacts Codec CodecSpec CodecFacts Link LinkSpec LinkFacts LinkMain LinkLayer LinkLayerSpec LinkLayerFacts LinkLayerBus
  Primitives Session SessionSpec Handshake Endpoint EndpointSpec EndpointFacts EndpointMain EndpointRx EndpointTx
  EndpointRuns PairSpec SessionFacts SessionMain HandshakeFacts EndpointNonce EndpointClose EndpointPair PropCodec PropEndpoint PropEndpoint2 PropPair Stack StackSpec StackFacts StackRuns StackDrain PropStack.
Local Open Scope nat_scope.

(** A line with frames for this station.  The stack is notified of data while it is open and nothing
    is in progress; later nothing arrives.  When everything has come to rest, with the transport
    idle and nothing left for the application to read, every frame that arrived completely was
    taken. *)
Theorem C46_taken : forall C a ls1 ls2 k1 t1 k t fs future, Forall arrival_ok (ls1 ++ ls2) -> Forall (fun l => l <> SArrive []) (ls1 ++ ls2) ->
  salong (fun k l => transport_ok k l /\ from_outside k l) C (new_stack C a, []) (ls1 ++ SLab (Ext (Enter LowerRxReady)) :: ls2) ->
  stack_run C (new_stack C a, []) ls1 = Ok (k1, t1) -> st_open (fst k1) = true -> snd k1 = [] -> wire_in ls2 = [] ->
  stack_run C (new_stack C a, []) (ls1 ++ SLab (Ext (Enter LowerRxReady)) :: ls2) = Ok (k, t) -> ~ In EvClosed t ->
  snd k = [] -> ep_busy (st_crypto (fst k)) = false -> ep_payload (st_crypto (fst k)) = None ->
  Forall (fun f => frame_ok 4092 f /\ f_destination f = a_source a /\ f_payload f <> []) fs -> wire_in ls1 ++ future = flat_map frame_bytes fs ->
  exists n, messages t = map f_payload (firstn n fs) /\ forall before after, fs = before ++ after -> length (flat_map frame_bytes before) <= length (wire_in ls1) -> length before <= n.
Proof. exact taken. Qed.
Print Assumptions C46_taken.

(** Two stacks: if everything the first one gave to its transport has arrived at the second one, then
    the second one took all of its messages. *)
Theorem C46_all_taken : forall CA a lsA kA tA CB b ls1 ls2 k1 t1 kB tB, stack_of CA a -> (a_destination a < 65536)%N -> (a_source a < 65536)%N -> a_source b = a_destination a ->
  stack_run CA (new_stack CA a, []) lsA = Ok (kA, tA) -> bytes_ok (wire_out tA) ->
  Forall arrival_ok (ls1 ++ ls2) -> Forall (fun l => l <> SArrive []) (ls1 ++ ls2) ->
  salong (fun k l => transport_ok k l /\ from_outside k l) CB (new_stack CB b, []) (ls1 ++ SLab (Ext (Enter LowerRxReady)) :: ls2) ->
  stack_run CB (new_stack CB b, []) ls1 = Ok (k1, t1) -> st_open (fst k1) = true -> snd k1 = [] -> wire_in ls2 = [] ->
  stack_run CB (new_stack CB b, []) (ls1 ++ SLab (Ext (Enter LowerRxReady)) :: ls2) = Ok (kB, tB) -> ~ In EvClosed tB ->
  snd kB = [] -> ep_busy (st_crypto (fst kB)) = false -> ep_payload (st_crypto (fst kB)) = None ->
  wire_in ls1 = wire_out tA ->
  exists fs, frames_out tA = map frame_bytes fs /\ messages tB = map f_payload fs.
Proof.
  intros CA a lsA kA tA CB b ls1 ls2 k1 t1 kB tB SA AD AS M HA OB AB NB QB H1 O1 Q1 W2 HB NC QK BK PK W. destruct (C46_frames CA a lsA kA tA SA HA) as (fs & F1 & F2 & F3).
  assert (FO : Forall (frame_ok 4092) fs).
  { rewrite F2 in OB. clear - F3 OB AD AS. induction fs as [|f fs IH]; constructor; inversion F3 as [|x y (X1 & X2 & X3 & X4) X5]; subst; cbn [flat_map] in OB; apply bytes_ok_app in OB; destruct OB as [O1 O2]; auto.
    unfold frame_bytes in O1. apply bytes_ok_app in O1. destruct O1 as [_ O1]. apply bytes_ok_app in O1. destruct O1 as [O1 _].
    unfold frame_ok. repeat split; [rewrite X1; exact AD|rewrite X2; exact AS|exact O1|lia]. }
  destruct (C46_taken CB b ls1 ls2 k1 t1 kB tB fs [] AB NB QB H1 O1 Q1 W2 HB NC QK BK PK) as (n & E & X).
  - rewrite Forall_forall in *. intros f Hf. destruct (F3 f Hf) as (X1 & X2 & X3 & X4). split; [exact (FO f Hf)|]. split; [congruence|exact X3].
  - rewrite app_nil_r, W. exact F2.
  - exists fs. split; [exact F1|]. rewrite E. specialize (X fs [] ltac:(now rewrite app_nil_r)). rewrite firstn_all2; [reflexivity|]. apply X. rewrite W, F2. apply Nat.le_refl.
Qed.
Print Assumptions C46_all_taken.

(** The hypotheses of both theorems, for a pair of stacks: four messages, all taken. *)
Definition tk1 : list slabel := slabels_of (sdrive ds_r (sfresh ds_r ds_b) ds_b2) ++ [SArrive ds_data0; SArrive (firstn 7 ds_data1); SArrive (skipn 7 ds_data1)].
Definition tk2 : list slabel :=
  match stack_run ds_r (sfresh ds_r ds_b) tk1 with Ok (k1, _) => tl (slabels_of (sdrive ds_r k1 [shappen (Enter LowerRxReady) 6; shappen (Enter StartRx) 7; shappen (Enter StartRx) 8; shappen (Enter StartRx) 9; shappen (Enter StartRx) 10])) | _ => [] end.
Example C46_taken_instance : exists kA tA k1 t1 kB tB, stack_run ds_i (new_stack ds_i ds_a, []) st_a = Ok (kA, tA) /\ bytes_ok (wire_out tA) /\
  Forall arrival_ok (tk1 ++ tk2) /\ Forall (fun l => l <> SArrive []) (tk1 ++ tk2) /\
  salong (fun k l => transport_ok k l /\ from_outside k l) ds_r (new_stack ds_r ds_b, []) (tk1 ++ SLab (Ext (Enter LowerRxReady)) :: tk2) /\
  stack_run ds_r (new_stack ds_r ds_b, []) tk1 = Ok (k1, t1) /\ st_open (fst k1) = true /\ snd k1 = [] /\ wire_in tk2 = [] /\
  stack_run ds_r (new_stack ds_r ds_b, []) (tk1 ++ SLab (Ext (Enter LowerRxReady)) :: tk2) = Ok (kB, tB) /\ ~ In EvClosed tB /\
  snd kB = [] /\ ep_busy (st_crypto (fst kB)) = false /\ ep_payload (st_crypto (fst kB)) = None /\ wire_in tk1 = wire_out tA /\
  length (messages t1) = 2 /\ length (messages tB) = 4 /\ read_data tB = [[1; 2; 3]; [4; 5]]%N.
Proof.
  assert (X : match stack_run ds_i (new_stack ds_i ds_a, []) st_a, stack_run ds_r (new_stack ds_r ds_b, []) tk1, stack_run ds_r (new_stack ds_r ds_b, []) (tk1 ++ SLab (Ext (Enter LowerRxReady)) :: tk2) with
    | Ok (ka, ta), Ok (k1, t1), Ok (kb, tb) => salongb notifyb ds_r (new_stack ds_r ds_b, []) (tk1 ++ SLab (Ext (Enter LowerRxReady)) :: tk2) && arrivalsb (tk1 ++ tk2) && small (wire_out ta) &&
        st_open (fst k1) && (length (snd k1) =? 0) && is_nil (wire_in tk2) && negb (existsb is_closed tb) && (length (snd kb) =? 0) && negb (ep_busy (st_crypto (fst kb))) &&
        match ep_payload (st_crypto (fst kb)) with None => true | _ => false end && bytes_eqb (wire_in tk1) (wire_out ta) && (length (messages t1) =? 2) && (length (messages tb) =? 4) && lists_eqb (read_data tb) [[1; 2; 3]; [4; 5]]%N
    | _, _, _ => false end = true) by (vm_compute; reflexivity).
  set (la := st_a) in *. set (l1 := tk1) in *. set (l2 := tk2) in *. clearbody la l1 l2.
  destruct (stack_run ds_i _ la) as [[kA tA]| |] eqn:HA; try discriminate X. destruct (stack_run ds_r _ l1) as [[k1 t1]| |] eqn:H1; try discriminate X. destruct (stack_run ds_r _ (l1 ++ _)) as [[kB tB]| |] eqn:HB; try discriminate X.
  do 13 (apply Bool.andb_true_iff in X; let X' := fresh "X" in destruct X as [X X']). destruct (arrivalsb_ok _ X12) as [A1 A2].
  exists kA, tA, k1, t1, kB, tB. split; [reflexivity|]. split; [apply small_ok; exact X11|]. split; [exact A1|]. split; [exact A2|]. split; [exact (salongb_ok _ _ _ notifyb_ok _ _ X)|].
  split; [reflexivity|]. split; [exact X10|]. split; [destruct (snd k1); [reflexivity|discriminate]|]. split; [destruct (wire_in l2); [reflexivity|discriminate]|]. split; [reflexivity|].
  split; [apply (absent is_closed); [apply Bool.negb_true_iff; exact X7|reflexivity]|]. split; [destruct (snd kB); [reflexivity|discriminate]|]. split; [apply Bool.negb_true_iff; exact X5|].
  split; [destruct (ep_payload _); [discriminate|reflexivity]|]. split; [apply bytes_eqb_iff; exact X3|]. split; [apply Nat.eqb_eq; exact X2|]. split; [apply Nat.eqb_eq; exact X1|apply lists_eqb_ok; exact X0].
Qed.
