(** * C31, C32, C42: the quantum key interface *)
From Verif Require Import Base BaseFacts Crc Link Qix QixSpec QixFacts QixStore.
Local Open Scope nat_scope.

(** ** C31: the frame stream *)

(** What is written is read: whatever the port makes of the bytes of any number of written frames, the handler gets
    those frames in order, and no copy overlaps. *)
Theorem C31_round_trip : forall fs written buf es,
  Forall well_formed fs -> Forall2 (fun f b => qix_write f = Some b) fs written -> length buf = 47 ->
  within (new_reader buf) es -> no_error es -> stream es = concat written ->
  exists r, read_all true (new_reader buf) es = Ok (fs, r).
Proof.
  intros fs written buf es Hf Hw Hb Hes _ Hs.
  assert (concat written = wires fs) as E.
  { clear - Hf Hw. induction Hw as [|f b fs bs W Hw IH]; [reflexivity|]. inversion Hf as [|? ? W1 W2]; subst. cbn [concat wires flat_map]. rewrite IH by assumption.
    unfold wires. f_equal. unfold qix_write in W. destruct W1 as [_ [W1 _]]. rewrite W1 in W. cbn [Nat.eqb] in W. inversion W. unfold wire_of, wire. rewrite <- !app_assoc. reflexivity. }
  rewrite E in Hs. destruct (read_all_defined _ _ (rinv_new _ Hb) Hes) as [[ds r] D].
  exists r. rewrite (strict_clean es (new_reader buf) fs (length (wires fs))); auto using rinv_new.
  2:{ cbn [pending new_reader qr_dest firstn app]. now rewrite firstn_all, Hs. }
  rewrite D. f_equal. f_equal. destruct (reader_reads _ _ _ _ Hb D) as [all [rest [R ->]]]. rewrite Hs in R.
  pose proof (wires_reads fs Hf [] [] [] ltac:(constructor; cbn; lia)) as R2. rewrite !app_nil_r in R2.
  destruct (reads_det _ _ _ R _ _ R2) as [-> _]. clear - Hf. induction Hf as [|f fs [_ [_ [_ W]]] Hf IH]; [reflexivity|].
  cbn. rewrite IH. unfold usable. now rewrite W.
Qed.
Print Assumptions C31_round_trip.

(** How the stream is split does not matter. *)
Theorem C31_chunking : forall s1 s2 buf1 buf2 es1 es2 fs1 fs2 r1 r2,
  length buf1 = 47 -> length buf2 = 47 -> stream es1 = stream es2 ->
  read_all s1 (new_reader buf1) es1 = Ok (fs1, r1) -> read_all s2 (new_reader buf2) es2 = Ok (fs2, r2) -> fs1 = fs2.
Proof.
  intros s1 s2 buf1 buf2 es1 es2 fs1 fs2 r1 r2 H1 H2 Hs E1 E2.
  assert (forall s r es x, read_all s r es = Ok x -> read_all false r es = Ok x) as G by (intros [] r es x; auto using read_all_strict).
  destruct (reader_reads _ _ _ _ H1 (G _ _ _ _ E1)) as [a1 [t1 [R1 ->]]]. destruct (reader_reads _ _ _ _ H2 (G _ _ _ _ E2)) as [a2 [t2 [R2 ->]]].
  rewrite Hs in R1. destruct (reads_det _ _ _ R1 _ _ R2) as [-> _]. reflexivity.
Qed.
Print Assumptions C31_chunking.

(** Every delivered frame stands in the stream, with its start bytes and a correct CRC; frames do not overlap and keep their order. *)
Theorem C31_delivered_frames_occur : forall strict buf es fs r,
  length buf = 47 -> bytes_ok (stream es) -> read_all strict (new_reader buf) es = Ok (fs, r) -> contains (stream es) fs.
Proof.
  intros strict buf es fs r H B E.
  assert (read_all false (new_reader buf) es = Ok (fs, r)) as E1 by (destruct strict; auto using read_all_strict).
  destruct (reader_reads _ _ _ _ H E1) as [all [rest [R ->]]]. eapply reads_contains; eauto.
Qed.
Print Assumptions C31_delivered_frames_occur.

(** No frame is lost if what stands before, between and after the frames does not contain the first start byte. *)
Theorem C31_complete : forall strict buf es fs r fs',
  length buf = 47 -> spaced (stream es) fs -> read_all strict (new_reader buf) es = Ok (fs', r) -> fs' = fs.
Proof.
  intros strict buf es fs r fs' H S E.
  assert (read_all false (new_reader buf) es = Ok (fs', r)) as E1 by (destruct strict; auto using read_all_strict).
  destruct (reader_reads _ _ _ _ H E1) as [all [rest [R ->]]]. destruct (spaced_reads _ _ S) as [rest' R'].
  destruct (reads_det _ _ _ R _ _ R') as [-> _]. eapply spaced_usable; eauto.
Qed.
Print Assumptions C31_complete.

(** After any bytes whatever, at most one of the frames that follow is lost, provided the start bytes
    occur in these frames at their start only.  Missing: without that condition any number of frames can be lost
    ([C31_never_synchronizes_refuted]). *)
Theorem C31_resynchronizes_partial : forall strict buf es fs r fs' before after,
  length buf = 47 -> Forall well_formed fs -> Forall quiet fs -> stream es = before ++ flat_map wire_of fs ++ after ->
  read_all strict (new_reader buf) es = Ok (fs', r) -> exists pre post, fs' = pre ++ tl fs ++ post.
Proof.
  intros strict buf es fs r fs' g e H Wf Q S E.
  assert (read_all false (new_reader buf) es = Ok (fs', r)) as E1 by (destruct strict; auto using read_all_strict).
  destruct (reader_reads _ _ _ _ H E1) as [all [rest [R ->]]]. rewrite S in R.
  destruct (resync_reads _ g fs e (le_n _) Wf Q) as [pre [post [rest' R']]]. destruct (reads_det _ _ _ R _ _ R') as [-> _].
  exists (filter usable pre), (filter usable post). rewrite !filter_app. f_equal. f_equal.
  assert (Forall well_formed (tl fs)) as W2 by (clear - Wf; destruct Wf; cbn; auto). clear - W2. induction W2 as [|f l [_ [_ [_ W]]] Hf IH]; [reflexivity|].
  cbn. rewrite IH. unfold usable. now rewrite W.
Qed.
Print Assumptions C31_resynchronizes_partial.

(** If moves are made instead of the overlapping copies, every stream is read without undefined behaviour. *)
Theorem C31_defined_partial : forall buf es, length buf = 47 -> within (new_reader buf) es -> exists fs r, read_all false (new_reader buf) es = Ok (fs, r).
Proof. intros buf es H W. destruct (read_all_defined es _ (rinv_new _ H) W) as [[fs r] E]. eauto. Qed.
Print Assumptions C31_defined_partial.

(** After an error of the port nothing is ever delivered again. *)
Theorem C31_stops_after_error : forall strict r es fs r1, read_all strict r (Failed :: es) = Ok (fs, r1) -> fs = [].
Proof.
  intros strict r es fs r1 E. cbn [read_all] in E. unfold read_some in E. destruct (qr_running r) eqn:Q; cbn [negb obind] in E.
  - rewrite read_all_stopped in E by reflexivity. cbn in E. congruence.
  - rewrite read_all_stopped in E by exact Q. cbn in E. congruence.
Qed.
Print Assumptions C31_stops_after_error.

(** Concrete cases *)
Definition f1 : qframe := {| q_id := 258; q_key := repeat 7%N 32; q_status := q_ok |}.
Definition f2 : qframe := {| q_id := 259; q_key := repeat 9%N 32; q_status := q_ok |}.
Definition zeros : list N := repeat 0%N 47.

Example C31_instance_wf : well_formed f1 /\ well_formed f2 /\ quiet f1 /\ quiet f2.
Proof.
  assert (forall f, well_formed f -> forallb (fun i => negb ((nth i (wire_of f) 0 =? 0x5A) && (nth (S i) (wire_of f) 0 =? 0xA5))%N) (seq 1 46) = true -> quiet f) as G.
  { intros f W H i Hi E1 E2. rewrite forallb_forall in H. destruct (le_lt_dec i 46) as [L|L].
    - assert (In i (seq 1 46)) as I by (apply in_seq; lia). specialize (H i I). rewrite E1, E2 in H. discriminate H.
    - rewrite nth_overflow in E1 by (rewrite (wire_of_length _ W); lia). discriminate. }
  assert (well_formed f1) as W1. { split; [reflexivity|]. split; [reflexivity|]. split; [repeat constructor|reflexivity]. }
  assert (well_formed f2) as W2. { split; [reflexivity|]. split; [reflexivity|]. split; [repeat constructor|reflexivity]. }
  split; [exact W1|]. split; [exact W2|]. split; apply G; auto.
Qed.
(** A gap, a frame, a longer gap, a frame; in pieces of 30, 20, 40 bytes *)
Definition gappy : list N := repeat 1%N 30 ++ wire_of f1 ++ repeat 2%N 3 ++ wire_of f2 ++ [3%N].
Definition pieces : list port := [Data (firstn 30 gappy); Data (firstn 17 (skipn 30 gappy)); Data (firstn 30 (skipn 47 gappy)); Data (firstn 40 (skipn 77 gappy)); Data (firstn 7 (skipn 117 gappy)); Data (firstn 3 (skipn 124 gappy)); Data (skipn 127 gappy)].
Example C31_instance_spaced : spaced gappy [f1; f2] /\ stream pieces = gappy /\
  match read_all false (new_reader zeros) pieces with Ok (fs, _) => fs = [f1; f2] | _ => False end.
Proof.
  destruct C31_instance_wf as [W1 [W2 _]]. split; [|split; [reflexivity|vm_compute; reflexivity]].
  unfold gappy. apply spaced_cons; auto; [cbn; intuition discriminate|]. apply (spaced_cons (repeat 2%N 3)); auto; [cbn; intuition discriminate|].
  constructor. cbn. intuition discriminate.
Qed.

(** The statement without its restriction is false: with memcpy the reader copies a region onto an overlapping one as soon as one
    byte precedes a frame. *)
Theorem C31_overlap_refuted : exists es, spaced (stream es) [f1] /\ no_error es /\ within (new_reader zeros) es /\ read_all true (new_reader zeros) es = UB.
Proof.
  exists [Data (firstn 47 (1%N :: wire_of f1)); Data (skipn 47 (1%N :: wire_of f1))].
  split; [|split; [repeat constructor; discriminate|split; [|vm_compute; reflexivity]]].
  - cbn [stream]. rewrite app_nil_r, firstn_skipn. destruct C31_instance_wf as [W1 _].
    rewrite <- (app_nil_r (wire_of f1)). apply (spaced_cons [1%N]); auto; [|constructor]; cbn; intuition discriminate.
  - cbn [within]. split; [vm_compute; lia|]. intros f r1 E. cbn [within].
    assert (qr_dest r1 = 46 /\ length (qp_buffer (qr_parser r1)) = 47) as [-> ->].
    { assert (match read_some false (new_reader zeros) (Data (firstn 47 (1%N :: wire_of f1))) with Ok (_, r) => qr_dest r = 46 /\ length (qp_buffer (qr_parser r)) = 47 | _ => False end) as X by (vm_compute; auto).
      rewrite E in X. exact X. }
    split; [vm_compute; lia|]. intros; exact I.
Qed.
Print Assumptions C31_overlap_refuted.

(** Two bytes of noise that look like a start make the reader lose a correct frame. *)
Theorem C31_lost_frame_refuted : exists es, stream es = [0x5A; 0xA5]%N ++ wire_of f1 /\
  match read_all true (new_reader zeros) es with Ok (fs, _) => fs = [] | _ => False end.
Proof.
  set (s := [0x5A; 0xA5]%N ++ wire_of f1). exists [Data (firstn 47 s); Data (skipn 47 s)].
  split; [cbn [stream]; rewrite app_nil_r; apply firstn_skipn|]. vm_compute. reflexivity.
Qed.
Print Assumptions C31_lost_frame_refuted.

(** A reader that enters a stream of correct frames at the wrong place never finds them if a key contains the start bytes. *)
Definition f3 : qframe := {| q_id := 260; q_key := [0x5A; 0xA5]%N ++ repeat 0%N 30; q_status := q_ok |}.
Lemma f3_wf : well_formed f3.
Proof. split; [reflexivity|]. split; [reflexivity|]. split; [repeat constructor|reflexivity]. Qed.
Lemma never n : exists rest, reads (skipn 10 (wire_of f3) ++ wires (repeat f3 n)) [] rest.
Proof.
  induction n as [|n [rest IH]].
  - eexists. constructor. vm_compute. lia.
  - exists rest. cbn [repeat wires flat_map]. fold (wires (repeat f3 n)). rewrite <- (firstn_skipn 10 (wire_of f3)) at 2.
    rewrite <- app_assoc. rewrite app_assoc. apply reads_bad; [reflexivity|cbn; auto| |exact IH].
    unfold frame_ok. vm_compute. discriminate.
Qed.
Theorem C31_never_synchronizes_refuted : forall n strict buf es fs r, length buf = 47 ->
  stream es = skipn 10 (flat_map wire_of (repeat f3 (S n))) -> read_all strict (new_reader buf) es = Ok (fs, r) -> fs = [].
Proof.
  intros n strict buf es fs r H S E.
  assert (read_all false (new_reader buf) es = Ok (fs, r)) as E1 by (destruct strict; auto using read_all_strict).
  destruct (reader_reads _ _ _ _ H E1) as [all [rest [R ->]]]. destruct (never n) as [rest' R'].
  assert (skipn 10 (flat_map wire_of (repeat f3 (Datatypes.S n))) = skipn 10 (wire_of f3) ++ wires (repeat f3 n)) as Q.
  { cbn [repeat flat_map]. fold (wires (repeat f3 n)). rewrite skipn_app, (wire_of_length _ f3_wf). reflexivity. }
  rewrite S, Q in R. destruct (reads_det _ _ _ R _ _ R') as [-> _]. reflexivity.
Qed.
Print Assumptions C31_never_synchronizes_refuted.
Example C31_never_instance : exists es, stream es = skipn 10 (flat_map wire_of (repeat f3 2)) /\
  match read_all true (new_reader zeros) es with Ok (fs, _) => True | _ => False end.
Proof.
  set (s := skipn 10 (flat_map wire_of (repeat f3 2))). exists [Data (firstn 47 s); Data (skipn 47 s)].
  split; [cbn [stream]; rewrite app_nil_r; apply firstn_skipn|]. vm_compute. exact I.
Qed.

(** The writer announces every key as good: a compromised key arrives as usable. *)
Theorem C31_status_refuted : forall f, well_formed {| q_id := q_id f; q_key := q_key f; q_status := q_ok |} -> q_status f = q_compromised ->
  exists b, qix_write f = Some b /\ forall buf, length buf = 47 ->
  exists r, read_all true (new_reader buf) [Data b] = Ok ([{| q_id := q_id f; q_key := q_key f; q_status := q_ok |}], r).
Proof.
  intros f W _. set (g := {| q_id := q_id f; q_key := q_key f; q_status := q_ok |}) in *.
  assert (qix_write f = qix_write g) as E by reflexivity. rewrite E.
  assert (exists b, qix_write g = Some b) as [b Hb]. { unfold qix_write. destruct W as [_ [-> _]]. cbn. eauto. }
  exists b. split; [exact Hb|]. intros buf L. apply (C31_round_trip [g] [b]); auto.
  - cbn [within]. split; [|intros; exact I]. cbn [new_reader qr_parser qp_buffer qr_dest]. rewrite L.
    assert (b = wire_of g) as ->. { unfold qix_write in Hb. destruct W as [_ [W _]]. rewrite W in Hb. inversion Hb. unfold wire_of, wire. rewrite <- !app_assoc. reflexivity. }
    rewrite (wire_of_length g W). lia.
  - repeat constructor. discriminate.
Qed.
Print Assumptions C31_status_refuted.

(** ** C32: the key store *)

(** Never more keys than configured *)
Theorem C32_bounded : forall max os, length (fst (do_ops max [] os)) <= max.
Proof. intros max os. apply (store_inv max os). Qed.
Print Assumptions C32_bounded.

(** A key handed out twice under the same identifier was received again in between. *)
Theorem C32_single_use : forall max os h1 x h2 y h3 id k k',
  snd (do_ops max [] os) = h1 ++ x :: h2 ++ y :: h3 -> handed x = Some (id, k) -> handed y = Some (id, k') ->
  Exists (fun z => adds id (fst z) = true) h2.
Proof. exact single_use. Qed.
Print Assumptions C32_single_use.

(** What is handed out under an identifier is the key last received under it. *)
Theorem C32_right_key : forall max os h1 x h2 id k,
  snd (do_ops max [] os) = h1 ++ x :: h2 -> handed x = Some (id, k) -> last_added (map fst h1) id None = Some k /\ length k = 32.
Proof. exact handed_last. Qed.
Print Assumptions C32_right_key.

(** Asked for any key, the store gives the one with the highest identifier, and only that one is gone. *)
Theorem C32_highest : forall max os, adds32 os -> let m := fst (do_ops max [] os) in
  match do_op max m Consume with
  | (m', Record_ id (Some k)) => would_find m id = Some k /\ (forall id', (id < id')%N -> would_find m id' = None) /\
                                 (forall id', would_find m' id' = if (id' =? id)%N then None else would_find m id')
  | (m', Null) => m' = m /\ forall id, would_find m id = None
  | _ => False
  end.
Proof. exact consume_highest. Qed.
Print Assumptions C32_highest.

(** Asked for an identifier, it gives that key, and only that one is gone. *)
Theorem C32_find : forall max m id, let (m', a) := do_op max m (Find id) in
  a = match would_find m id with Some k => Key k | None => Null end /\
  forall id', would_find m' id' = if (id' =? id)%N then None else would_find m id'.
Proof. exact find_exact. Qed.
Print Assumptions C32_find.

(** A key received with an identifier below one that is held makes the store forget all others.  Missing: the
    highest identifier received, instead of held ([C32_backward_refuted]). *)
Theorem C32_backward_partial : forall max os f hi k, 0 < max -> length (q_key f) = 32 -> let m := fst (do_ops max [] os) in
  would_find m hi = Some k -> (q_id f < hi)%N ->
  forall id, would_find (fst (do_op max m (Add f))) id = if (id =? q_id f)%N then Some (q_key f) else None.
Proof. intros max os f hi k Hm H32 m Hh L. apply (add_backward max m f hi k); auto. apply (store_inv max os). Qed.
Print Assumptions C32_backward_partial.

(** Otherwise it keeps what it held, except that a full store drops the lowest identifier. *)
Theorem C32_forward : forall max os f, 0 < max -> adds32 os -> length (q_key f) = 32 -> let m := fst (do_ops max [] os) in
  (forall id k, would_find m id = Some k -> (id <= q_id f)%N) ->
  exists dropped : N -> bool,
  (forall id, would_find (fst (do_op max m (Add f))) id = if (id =? q_id f)%N then Some (q_key f) else if dropped id then None else would_find m id) /\
  ((forall id, dropped id = false) \/
   (length m = max /\ exists low, would_find m low <> None /\ (forall id k, would_find m id = Some k -> (low <= id)%N) /\ dropped = N.eqb low)).
Proof.
  intros max os f Hm H H32 m Hle. destruct (store_inv max os) as [I1 [I2 _]]. fold m in I1, I2.
  assert (forall id k, map_find m id = Some k -> exists w, would_find m id = Some w) as G.
  { intros id k E. rewrite would_find_map, E. destruct k as [w|]; [eauto|]. destruct (held32 max os id H E). }
  destruct (add_forward max m f I1 Hm I2 H32) as [dropped [D1 D2]].
  { intros id k E. destruct (G _ _ E) as [w W]. exact (Hle _ _ W). }
  exists dropped. split; [exact D1|]. destruct D2 as [D2|[D2 [low [D3 [D4 D5]]]]]; [left; exact D2|right]. split; [exact D2|].
  exists low. split; [|split; [|exact D5]].
  - destruct (map_find m low) as [k|] eqn:E; [|contradiction]. destruct (G _ _ E) as [w ->]. discriminate.
  - intros id k E. rewrite would_find_map in E. destruct (map_find m id) as [k0|] eqn:E1; [|discriminate]. exact (D4 _ _ E1).
Qed.
Print Assumptions C32_forward.

Definition qf (id : N) : qframe := {| q_id := id; q_key := repeat id 32; q_status := q_ok |}.
(** Three keys, of which the lowest is dropped; the highest, one by its identifier, then the same again *)
Example C32_instance : let os := [Add (qf 1); Add (qf 2); Add (qf 3); Consume; Find 2; Find 2; Consume; Add (qf 2); Add (qf 3); Find 2; Add (qf 1); Find 3] in
  adds32 os /\ map snd (snd (do_ops 2 [] os)) =
  [Done; Done; Done; Record_ 3 (Some (repeat 3%N 32)); Key (repeat 2%N 32); Null; Null; Done; Done; Key (repeat 2%N 32); Done; Null].
Proof. split; [repeat constructor|reflexivity]. Qed.

(** The identifier goes from 5 back to 4, and key 3 is still handed out. *)
Theorem C32_backward_refuted : let os := [Add (qf 3); Add (qf 5); Consume; Add (qf 4)] in
  would_find (fst (do_ops 10 [] os)) 3 = Some (q_key (qf 3)).
Proof. reflexivity. Qed.
Print Assumptions C32_backward_refuted.

(** ** C42: keys and subscribers *)

(** Whatever is bound, received and taken: a key is handed to the subscriber [id mod n] only, is the one of the
    last frame with this identifier, and is not handed out again, to anyone, unless such a frame arrives again. *)
Theorem C42_one_subscriber : forall n os s h h1 x h2 sub id k, (n < 2 ^ 16)%N -> takes_only os ->
  do_sops (new_source n) os = Ok (s, h) -> h = h1 ++ x :: h2 -> shanded x = Some (sub, id, k) ->
  sub = (id mod n)%N /\ last_carried (map fst h1) id None = Some k /\ length k = 32.
Proof.
  intros n os s h h1 x h2 sub id k Hn Ht E H Hx. destruct (source_handed n os s h h1 x h2 sub id k Hn Ht E H Hx) as [A [_ B]]. tauto.
Qed.
Print Assumptions C42_one_subscriber.

Theorem C42_single_use : forall n os s h h1 x h2 y h3 sub sub' id k k', (n < 2 ^ 16)%N -> takes_only os ->
  do_sops (new_source n) os = Ok (s, h) -> h = h1 ++ x :: h2 ++ y :: h3 ->
  shanded x = Some (sub, id, k) -> shanded y = Some (sub', id, k') -> Exists (fun z => carries id (fst z) = true) h2.
Proof.
  intros n os s h h1 x h2 y h3 sub sub' id k k' Hn Ht E H Hx Hy. rewrite app_comm_cons, app_assoc in H.
  destruct (source_handed n os s h _ y h3 sub' id k' Hn Ht E H Hy) as [_ [A _]]. exact (A _ _ _ _ _ eq_refl Hx).
Qed.
Print Assumptions C42_single_use.

(** Two proxies: if the frames that carried an identifier so far ended with the same one at both, both hand out the same key for it. *)
Theorem C42_same_key : forall n n' os os' s s' h h' h1 x h2 h1' x' h2' sub sub' id k k', (n < 2 ^ 16)%N -> (n' < 2 ^ 16)%N -> takes_only os -> takes_only os' ->
  do_sops (new_source n) os = Ok (s, h) -> do_sops (new_source n') os' = Ok (s', h') ->
  h = h1 ++ x :: h2 -> h' = h1' ++ x' :: h2' -> shanded x = Some (sub, id, k) -> shanded x' = Some (sub', id, k') ->
  last_carried (map fst h1) id None = last_carried (map fst h1') id None -> k = k'.
Proof.
  intros n n' os os' s s' h h' h1 x h2 h1' x' h2' sub sub' id k k' Hn Hn' Ht Ht' E E' H H' Hx Hx' L.
  destruct (source_handed n os s h _ _ _ _ _ _ Hn Ht E H Hx) as [_ [_ [A _]]]. destruct (source_handed n' os' s' h' _ _ _ _ _ _ Hn' Ht' E' H' Hx') as [_ [_ [B _]]].
  congruence.
Qed.
Print Assumptions C42_same_key.

(** A configuration with at least one subscriber never divides by zero; *)
Theorem C42_defined_partial : forall n os, n <> 0%N -> exists r, do_sops (new_source n) os = Ok r.
Proof. exact source_defined. Qed.
Print Assumptions C42_defined_partial.
(** one with none does so at the first key. *)
Theorem C42_defined_refuted : forall f, well_formed f -> do_sops (new_source 0) [Frame f] = UB.
Proof. intros f [_ [H [_ S]]]. cbn [do_sops do_sop]. unfold handle. rewrite S, H. reflexivity. Qed.
Print Assumptions C42_defined_refuted.

(** A store is bound for a subscriber number that no key maps to, and nobody is told: it never gives a key. *)
Theorem C42_starved_refuted : forall n mx os s h sub, (n < 2 ^ 16)%N -> n <> 0%N -> takes_only os -> (n <= sub)%N ->
  do_sops (new_source n) (Bind sub mx :: os) = Ok (s, h) ->
  (exists h', h = (Bind sub mx, Bound) :: h') /\ forall x id k, In x h -> shanded x <> Some (sub, id, k).
Proof.
  intros n mx os s h sub Hn Hz Ht L E. split.
  - cbn [do_sops do_sop] in E. unfold bind_key_store in E. cbn [new_source src_stores existsb obind] in E.
    destruct (do_sops _ os) as [[s2 h2]| |]; try discriminate. inversion E; subst. eauto.
  - intros x id k I Hx. apply in_split in I. destruct I as [h1 [h2 I]].
    assert (takes_only (Bind sub mx :: os)) as T by (constructor; auto).
    destruct (C42_one_subscriber n _ s h h1 x h2 sub id k Hn T E I Hx) as [A _]. pose proof (N.mod_upper_bound id n Hz). lia.
Qed.
Print Assumptions C42_starved_refuted.

(** The initiator's store takes the newest key, the responder looks the identifier up; when the initiator takes key 5 before 4
    arrives and the responder has not looked it up yet, the initiator still offers key 3, which the responder has forgotten. *)
Theorem C42_stores_diverge_refuted : let frames := [Add (qf 3); Add (qf 5)] in
  let initiator := fst (do_ops 10 [] (frames ++ [Consume; Add (qf 4); Consume])) in
  let responder := fst (do_ops 10 [] (frames ++ [Add (qf 4)])) in
  snd (do_op 10 initiator Consume) = Record_ 3 (Some (q_key (qf 3))) /\ snd (do_op 10 responder (Find 3)) = Null.
Proof. split; reflexivity. Qed.
Print Assumptions C42_stores_diverge_refuted.

Example C42_instance : let os := [Bind 0 4; Bind 1 4; Bind 0 9; Frame (qf 6); Frame (qf 7); Take 0 Consume; Take 1 (Find 7); Take 1 (Find 6); Take 2 Consume] in
  takes_only os /\ match do_sops (new_source 2) os with
  | Ok (_, h) => map snd h = [Bound; Bound; Refused; Handled; Handled; Took (Record_ 6 (Some (repeat 6%N 32))); Took (Key (repeat 7%N 32)); Took Null; NoStore]
  | _ => False
  end.
Proof. split; [repeat constructor|reflexivity]. Qed.
