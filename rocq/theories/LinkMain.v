(** * LinkMain: the invariant of the link parser and its consequences *)
From Verif Require Import Base BaseFacts Crc CrcSpec CrcFacts CrcMain Codec Link LinkSpec LinkFacts.
Ltac Zify.zify_post_hook ::= Z.div_mod_to_equations.
Opaque crc32.

Definition rd (c : context) : frame :=
  {| f_destination := res_destination c; f_source := res_source c;
     f_payload := slice (buffer c) (fst (res_payload c)) (snd (res_payload c)) |}.

Definition pend (s : pstate) (c : context) : list N := firstn (num_buffered s) (buffer c).

(** The 12 bytes of a header whose fields are given. *)
Definition hdr_of (dst src len : N) : list N :=
  let fields := [0x07; 0xAA]%N ++ be_bytes 2 dst ++ be_bytes 2 src ++ be_bytes 2 len in
  fields ++ be_bytes 4 (crc32 fields).

Definition pinv (s : pstate) (c : context) : Prop :=
  cinv s c /\ bytes_ok (pend s c) /\
  match s with
  | wait_sync1 => True
  | wait_sync2 => pend s c = [0x07%N]
  | wait_header n => 2 <= n /\ exists t, pend s c = 0x07%N :: 0xAA%N :: t
  | wait_body n =>
      firstn 12 (buffer c) = hdr_of (res_destination c) (res_source c) (payload_length c) /\
      (res_destination c < 65536)%N /\ (res_source c < 65536)%N /\ (payload_length c < 65536)%N
  | wait_read n =>
      n = 16 + N.to_nat (payload_length c) /\ pend s c = frame_bytes (rd c) /\
      frame_ok (max_payload_length c) (rd c)
  end.

Lemma pend_put s c n data s' : num_buffered s = n -> num_buffered s' = n + length data ->
  n + length data <= length (buffer c) -> pend s' (cput c n data) = pend s c ++ data.
Proof.
  intros E1 E2 H. unfold pend. rewrite E1, E2. unfold cput; cbn [set_buffer buffer].
  apply firstn_bw. lia.
Qed.

Definition suffix_retry (r : context -> pstate * context) : Prop :=
  forall c, cinv wait_sync1 c -> bytes_ok (slice (buffer c) 2 10) ->
  let s' := fst (r c) in let c' := snd (r c) in
  pinv s' c' /\ is_wait_read s' = false /\ max_payload_length c' = max_payload_length c /\
  length (buffer c') = length (buffer c) /\
  exists g, slice (buffer c) 2 10 = g ++ pend s' c'.

Lemma slice_firstn (l : list N) n o k : o + k <= n -> slice l o k = slice (firstn n l) o k.
Proof.
  intros H. unfold slice. rewrite skipn_firstn_comm, firstn_firstn. f_equal. lia.
Qed.
Lemma firstn_slice (l : list N) a b : firstn (a + b) l = firstn a l ++ slice l a b.
Proof.
  unfold slice. revert l. induction a as [|a IH]; intros l; [reflexivity|].
  destruct l as [|x l]; cbn [firstn skipn Nat.add app]; [now rewrite firstn_nil|]. now rewrite IH.
Qed.
Lemma slice_length l a b : a + b <= length l -> length (slice l a b) = b.
Proof. intros. unfold slice. rewrite firstn_length, skipn_length. lia. Qed.
Lemma slice_ok l a b : bytes_ok (firstn (a + b) l) -> bytes_ok (slice l a b).
Proof. rewrite firstn_slice. rewrite bytes_ok_app. tauto. Qed.
Lemma be_slice l a b : a + b <= length l -> bytes_ok (firstn (a + b) l) ->
  be_bytes b (be_value (slice l a b)) = slice l a b.
Proof.
  intros H Hb. rewrite <- (slice_length l a b H) at 1. apply be_bytes_be_value, slice_ok, Hb.
Qed.
Lemma be_slice_bound l a b : a + b <= length l -> bytes_ok (firstn (a + b) l) ->
  (be_value (slice l a b) < 256 ^ N.of_nat b)%N.
Proof.
  intros H Hb. rewrite <- (slice_length l a b H) at 2. apply be_value_bound, slice_ok, Hb.
Qed.
Lemma bytes_ok_firstn_le l n m : n <= m -> bytes_ok (firstn m l) -> bytes_ok (firstn n l).
Proof. intros H Hb. replace n with (Nat.min n m) by lia. rewrite <- firstn_firstn. now apply bytes_ok_firstn. Qed.

Lemma header_done_pinv r c : suffix_retry r -> good_retry r -> cinv wait_sync1 c ->
  bytes_ok (firstn 12 (buffer c)) ->
  (exists t, firstn 12 (buffer c) = 0x07%N :: 0xAA%N :: t) ->
  let s' := fst (header_done r c) in let c' := snd (header_done r c) in
  pinv s' c' /\ is_wait_read s' = false /\ max_payload_length c' = max_payload_length c /\
  length (buffer c') = length (buffer c) /\
  exists g, firstn 12 (buffer c) = g ++ pend s' c'.
Proof.
  intros Hr Hg [Hb _] Hok [t Ht]. unfold header_done.
  set (dst := be_value (slice (buffer c) 2 2)). set (src := be_value (slice (buffer c) 4 2)).
  set (len := be_value (slice (buffer c) 6 2)). set (actual := be_value (slice (buffer c) 8 4)).
  set (c2 := set_result_header c dst src len).
  assert (H12 : 12 <= length (buffer c)) by lia.
  assert (Hf8 : firstn 8 (buffer c) = [0x07; 0xAA]%N ++ be_bytes 2 dst ++ be_bytes 2 src ++ be_bytes 2 len).
  { change 8 with (2 + 2 + 2 + 2). rewrite !(firstn_slice (buffer c)). unfold dst, src, len.
    rewrite !be_slice by first [lia | refine (bytes_ok_firstn_le _ _ 12 _ Hok); lia].
    cbn [Nat.add]. rewrite <- !app_assoc. f_equal.
    replace (firstn 2 (buffer c)) with (firstn 2 (firstn 12 (buffer c))) by (rewrite firstn_firstn; reflexivity).
    rewrite Ht. reflexivity. }
  change (buffer c2) with (buffer c).
  destruct (N.eqb_spec (crc32 (firstn 8 (buffer c))) actual) as [E|E]; cbn [negb].
  - destruct (N.ltb_spec (max_payload_length c2) len) as [L|L]; cbn [fst snd].
    + split; [|split; [reflexivity|split; [reflexivity|split; [reflexivity|]]]].
      * split; [split; [exact Hb|exact I]|split; [|exact I]]. constructor.
      * exists (firstn 12 (buffer c)). cbn [pend num_buffered firstn]. now rewrite app_nil_r.
    + split; [|split; [reflexivity|split; [reflexivity|split; [reflexivity|]]]].
      * split; [split; [exact Hb|cbn [payload_length c2 set_result_header] in *; split; [lia|exact L]]|].
        split; [exact Hok|].
        split; [|repeat split; [change 65536%N with (256 ^ N.of_nat 2)%N ..]].
        -- cbn [c2 set_result_header buffer res_destination res_source payload_length].
           unfold hdr_of. rewrite <- Hf8. change 12 with (8 + 4). rewrite (firstn_slice (buffer c)).
           f_equal. rewrite E. unfold actual. symmetry. apply be_slice; [lia|exact Hok].
        -- apply be_slice_bound; [lia|]. eapply bytes_ok_firstn_le; [|exact Hok]; lia.
        -- apply be_slice_bound; [lia|]. eapply bytes_ok_firstn_le; [|exact Hok]; lia.
        -- apply be_slice_bound; [lia|]. eapply bytes_ok_firstn_le; [|exact Hok]; lia.
      * exists []. reflexivity.
  - set (c3 := add_report c2 _).
    destruct (Hr c3) as (P1 & P2 & P3 & P4 & g & P5); [split; [exact Hb|exact I]|apply (slice_ok _ 2 10); exact Hok|].
    split; [exact P1|]. split; [exact P2|]. split; [exact P3|]. split; [exact P4|].
    exists (firstn 2 (buffer c) ++ g). rewrite <- app_assoc. rewrite <- P5.
    apply (firstn_slice (buffer c) 2 10).
Qed.

Lemma body_done_pinv c : cinv wait_sync1 c -> (payload_length c <= max_payload_length c)%N ->
  bytes_ok (firstn (16 + N.to_nat (payload_length c)) (buffer c)) ->
  firstn 12 (buffer c) = hdr_of (res_destination c) (res_source c) (payload_length c) ->
  (res_destination c < 65536)%N -> (res_source c < 65536)%N -> (payload_length c < 65536)%N ->
  let s' := fst (body_done c) in let c' := snd (body_done c) in
  pinv s' c' /\ max_payload_length c' = max_payload_length c /\
  length (buffer c') = length (buffer c) /\
  exists g, firstn (16 + N.to_nat (payload_length c)) (buffer c) = g ++ pend s' c'.
Proof.
  intros [Hb _] Hp Hok Hh Hd Hs Hl. unfold body_done.
  set (plen := N.to_nat (payload_length c)) in *.
  set (c2 := set_result_payload c (12, plen)). change (buffer c2) with (buffer c).
  assert (HL : 16 + plen <= length (buffer c)) by lia.
  destruct (N.eqb_spec (crc32 (slice (buffer c) 12 plen)) (be_value (slice (buffer c) (12 + plen) 4))) as [E|E]; cbn [negb fst snd].
  - split; [|split; [reflexivity|split; [reflexivity|]]].
    + split; [split; [exact Hb|exact I]|]. split; [unfold pend; cbn [num_buffered]; replace (12 + plen + 4) with (16 + plen) by lia; exact Hok|].
      split; [unfold plen; cbn; lia|].
      assert (HP : length (slice (buffer c) 12 plen) = plen) by (apply slice_length; lia).
      split.
      * unfold pend; cbn [num_buffered]. change (buffer c2) with (buffer c).
        unfold frame_bytes, frame_header, frame_header_fields. cbn [f_destination f_source f_payload rd].
        cbn [c2 set_result_payload res_destination res_source res_payload buffer fst snd].
        rewrite HP. replace (N.of_nat plen) with (payload_length c) by (unfold plen; lia).
        rewrite (firstn_slice (buffer c)), (firstn_slice (buffer c)). rewrite Hh. rewrite <- app_assoc.
        unfold hdr_of. rewrite E.
        rewrite be_slice; [reflexivity|lia|]. replace (12 + plen + 4) with (16 + plen) by lia. exact Hok.
      * split; [exact Hd|]. split; [exact Hs|]. cbn [f_payload rd]. cbn [c2 set_result_payload res_payload fst snd buffer max_payload_length].
        split; [|rewrite HP; unfold plen; rewrite N2Nat.id; exact Hp].
        apply slice_ok. eapply bytes_ok_firstn_le; [|exact Hok]. lia.
    + exists []. unfold pend; cbn [num_buffered app]. f_equal. lia.
  - split; [|split; [reflexivity|split; [reflexivity|]]].
    + split; [split; [exact Hb|exact I]|split; [|exact I]]. constructor.
    + eexists. unfold pend; cbn [num_buffered firstn]. now rewrite app_nil_r.
Qed.

Lemma cstep_pinv r s c b : suffix_retry r -> good_retry r -> pinv s c -> is_wait_read s = false -> byte_ok b ->
  let s' := fst (cstep_with r (s, c) b) in let c' := snd (cstep_with r (s, c) b) in
  pinv s' c' /\ max_payload_length c' = max_payload_length c /\ length (buffer c') = length (buffer c) /\
  exists g, pend s c ++ [b] = g ++ pend s' c'.
Proof.
  intros Hr Hg (Hi & Hok & Hm) Hs Hbok. pose proof (cinv_sync1 _ _ Hi) as H0. pose proof (proj1 H0) as Hb.
  assert (Hb1 : bytes_ok [b]) by (constructor; [exact Hbok|constructor]).
  assert (Drop : pinv wait_sync1 c /\ max_payload_length c = max_payload_length c /\ length (buffer c) = length (buffer c) /\
     exists g, pend s c ++ [b] = g ++ pend wait_sync1 c).
  { split; [split; [exact H0|split; [constructor|exact I]]|]. split; [reflexivity|]. split; [reflexivity|].
    exists (pend s c ++ [b]). cbn [pend num_buffered firstn]. now rewrite app_nil_r. }
  destruct s as [| |n|n|n]; [| | | |discriminate]; cbn [cstep_with].
  - destruct (N.eqb_spec b sync1) as [->|E]; cbn [fst snd]; [|exact Drop].
    assert (HL : 0 + length [sync1] <= length (buffer c)) by (cbn [length]; lia).
    assert (P : pend wait_sync2 (cput c 0 [sync1]) = pend wait_sync1 c ++ [sync1]) by (apply pend_put; [reflexivity|reflexivity|exact HL]).
    split; [|split; [reflexivity|split; [apply cput_buffer_length; exact HL|exists []; rewrite P; reflexivity]]].
    split; [apply (cinv_put wait_sync2); [exact HL|split; [exact Hb|exact I]]|]. rewrite P.
    split; [exact Hb1|reflexivity].
  - destruct (N.eqb_spec b sync2) as [->|E]; cbn [fst snd]; [|exact Drop].
    assert (HL : 1 + length [sync2] <= length (buffer c)) by (cbn [length]; lia).
    assert (P : pend (wait_header 2) (cput c 1 [sync2]) = pend wait_sync2 c ++ [sync2]) by (apply pend_put; [reflexivity|reflexivity|exact HL]).
    split; [|split; [reflexivity|split; [apply cput_buffer_length; exact HL|exists []; rewrite P; reflexivity]]].
    split; [apply (cinv_put (wait_header 2)); [exact HL|split; [exact Hb|lia]]|]. rewrite P.
    split; [apply bytes_ok_app; split; [exact Hok|exact Hb1]|]. split; [lia|]. rewrite Hm. exists []. reflexivity.
  - destruct Hm as [Hn [t Ht]]. destruct Hi as [_ Hn2].
    assert (HL : n + length [b] <= length (buffer c)) by (cbn [length]; lia).
    assert (P : pend (wait_header (S n)) (cput c n [b]) = pend (wait_header n) c ++ [b]) by (apply pend_put; [reflexivity|cbn; lia|exact HL]).
    assert (Hok2 : bytes_ok (pend (wait_header n) c ++ [b])) by (apply bytes_ok_app; split; assumption).
    destruct (Nat.eqb_spec (S n) 12) as [E|E].
    + unfold pend at 1 in P. cbn [num_buffered] in P. rewrite E in P.
      destruct (header_done_pinv r (cput c n [b]) Hr Hg) as (Q1 & Q2 & Q3 & Q4 & g & Q5).
      * apply (cinv_put wait_sync1); [exact HL|exact H0].
      * rewrite P. exact Hok2.
      * rewrite P, Ht. eexists. reflexivity.
      * split; [exact Q1|]. split; [exact Q3|]. split; [rewrite Q4; apply cput_buffer_length; exact HL|].
        exists g. rewrite <- P. exact Q5.
    + cbn [fst snd]. split; [|split; [reflexivity|split; [apply cput_buffer_length; exact HL|exists []; rewrite P; reflexivity]]].
      split; [apply (cinv_put (wait_header (S n))); [exact HL|split; [exact Hb|lia]]|]. rewrite P.
      split; [exact Hok2|]. split; [lia|]. rewrite Ht. eexists. reflexivity.
  - destruct Hm as (Hh & Hd & Hsr & Hl). destruct Hi as [_ [Hn2 Hp]].
    assert (HL : n + length [b] <= length (buffer c)) by (cbn [length]; lia).
    assert (P : pend (wait_body (S n)) (cput c n [b]) = pend (wait_body n) c ++ [b]) by (apply pend_put; [reflexivity|cbn; lia|exact HL]).
    assert (Hok2 : bytes_ok (pend (wait_body n) c ++ [b])) by (apply bytes_ok_app; split; assumption).
    assert (Hh2 : firstn 12 (buffer (cput c n [b])) = firstn 12 (buffer c)).
    { unfold cput; cbn [set_buffer buffer]. unfold bw. rewrite firstn_app, firstn_firstn, Nat.min_l by lia.
      rewrite firstn_length. replace (12 - Nat.min n (length (buffer c))) with 0 by lia. cbn [firstn]. apply app_nil_r. }
    destruct (Nat.eqb_spec (S n) (12 + N.to_nat (payload_length c) + 4)) as [E|E].
    + unfold pend at 1 in P. cbn [num_buffered] in P.
      destruct (body_done_pinv (cput c n [b])) as (Q1 & Q3 & Q4 & g & Q5).
      * apply (cinv_put wait_sync1); [exact HL|exact H0].
      * exact Hp.
      * change (payload_length (cput c n [b])) with (payload_length c).
        replace (16 + N.to_nat (payload_length c)) with (S n) by lia. rewrite P. exact Hok2.
      * rewrite Hh2. exact Hh.
      * exact Hd.
      * exact Hsr.
      * exact Hl.
      * split; [exact Q1|]. split; [exact Q3|]. split; [rewrite Q4; apply cput_buffer_length; exact HL|].
        exists g. rewrite <- P. rewrite <- Q5. f_equal. change (payload_length (cput c n [b])) with (payload_length c). lia.
    + cbn [fst snd]. split; [|split; [reflexivity|split; [apply cput_buffer_length; exact HL|exists []; rewrite P; reflexivity]]].
      split; [apply (cinv_put (wait_body (S n))); [exact HL|split; [exact Hb|split; [lia|exact Hp]]]|]. rewrite P.
      split; [exact Hok2|]. split; [rewrite Hh2; exact Hh|]. auto.
Qed.

Lemma crun_pinv r : suffix_retry r -> good_retry r -> forall l s c, pinv s c -> bytes_ok l ->
  let s' := fst (fst (crun r (s, c) l)) in let c' := snd (fst (crun r (s, c) l)) in
  let rest := snd (crun r (s, c) l) in
  pinv s' c' /\ max_payload_length c' = max_payload_length c /\ length (buffer c') = length (buffer c) /\
  exists used, l = used ++ rest /\ exists g, pend s c ++ used = g ++ pend s' c'.
Proof.
  intros Hr Hg. induction l as [|b l IH]; intros s c Hp Hl.
  - rewrite crun_nil. cbn [fst snd]. split; [exact Hp|]. split; [reflexivity|]. split; [reflexivity|].
    exists []. split; [reflexivity|]. exists []. now rewrite app_nil_r.
  - destruct (is_wait_read s) eqn:Es.
    + rewrite crun_read by exact Es. cbn [fst snd]. split; [exact Hp|]. split; [reflexivity|]. split; [reflexivity|].
      exists []. split; [reflexivity|]. exists []. now rewrite app_nil_r.
    + cbn [crun fst]. rewrite Es. inversion Hl as [|x y Hb Hl']; subst.
      destruct (cstep_pinv r s c b Hr Hg Hp Es Hb) as (Q1 & Q2 & Q3 & g & Q4).
      destruct (cstep_with r (s, c) b) as [s1 c1]. cbn [fst snd] in Q1, Q2, Q3, Q4.
      destruct (IH s1 c1 Q1 Hl') as (R1 & R2 & R3 & used & R4 & g2 & R5).
      split; [exact R1|]. split; [congruence|]. split; [congruence|].
      exists (b :: used). split; [cbn [app]; congruence|].
      exists (g ++ g2). rewrite <- app_assoc, <- R5.
      change (b :: used) with ([b] ++ used). rewrite app_assoc, Q4. now rewrite app_assoc.
Qed.

Lemma suffix_retry0 : suffix_retry retry0.
Proof.
  intros c Hc Hok. cbn. split; [split; [exact Hc|split; [constructor|exact I]]|].
  split; [reflexivity|]. split; [reflexivity|]. split; [reflexivity|].
  eexists. cbn. symmetry. apply app_nil_r.
Qed.
Lemma suffix_retry1 : suffix_retry retry1.
Proof.
  intros c Hc Hok. unfold retry1.
  assert (Hp : pinv wait_sync1 c) by (split; [exact Hc|split; [constructor|exact I]]).
  destruct (crun_pinv retry0 suffix_retry0 good_retry0 (slice (buffer c) 2 10) wait_sync1 c Hp Hok) as (P1 & P2 & P3 & used & P4 & g & P5).
  split; [exact P1|].
  assert (HS : contents c (Ext (slice (buffer c) 2 10)) (slice (buffer c) 2 10)) by reflexivity.
  assert (HL : length (slice (buffer c) 2 10) = 10) by (apply slice_length; destruct Hc; lia).
  destruct (parse_many_nested 10 _ wait_sync1 c _ retry0 good_retry0 HS Hc I I) as (_ & _ & X & _); [cbn [num_buffered]; lia|lia|].
  destruct (fst (fst (crun retry0 (wait_sync1, c) (slice (buffer c) 2 10)))) eqn:Es; try tauto.
  - split; [reflexivity|]. split; [exact P2|]. split; [exact P3|].
    exists (slice (buffer c) 2 10). cbn. now rewrite app_nil_r.
  - split; [reflexivity|]. split; [exact P2|]. split; [exact P3|].
    assert (Hrest : snd (crun retry0 (wait_sync1, c) (slice (buffer c) 2 10)) = []).
    { assert (G : forall l sc, is_wait_read (fst (fst (crun retry0 sc l))) = false -> snd (crun retry0 sc l) = []).
      { induction l as [|b l IH]; intros sc; [now rewrite crun_nil|]. cbn [crun].
        destruct (is_wait_read (fst sc)) eqn:E; [cbn; congruence|apply IH]. }
      apply G. rewrite Es. reflexivity. }
    rewrite Hrest, app_nil_r in P4. rewrite <- P4 in P5. exists g. exact P5.
  - split; [reflexivity|]. split; [exact P2|]. split; [exact P3|].
    assert (Hrest : snd (crun retry0 (wait_sync1, c) (slice (buffer c) 2 10)) = []).
    { assert (G : forall l sc, is_wait_read (fst (fst (crun retry0 sc l))) = false -> snd (crun retry0 sc l) = []).
      { induction l as [|b l IH]; intros sc; [now rewrite crun_nil|]. cbn [crun].
        destruct (is_wait_read (fst sc)) eqn:E; [cbn; congruence|apply IH]. }
      apply G. rewrite Es. reflexivity. }
    rewrite Hrest, app_nil_r in P4. rewrite <- P4 in P5. exists g. exact P5.
Qed.

(** ** Recognising a frame *)
Lemma two_bytes v : exists a b, be_bytes 2 v = [a; b].
Proof. unfold be_bytes. eauto. Qed.

Lemma header_ok r c d s len : firstn 12 (buffer c) = hdr_of d s len -> cinv wait_sync1 c ->
  (d < 65536)%N -> (s < 65536)%N -> (len < 65536)%N -> (len <= max_payload_length c)%N ->
  header_done r c = (wait_body 12, set_result_header c d s len).
Proof.
  intros Hf [Hc _] Hd Hs Hl Hm. unfold header_done. cbn [set_result_header buffer max_payload_length].
  rewrite (slice_firstn _ 12 2 2), (slice_firstn _ 12 4 2), (slice_firstn _ 12 6 2), (slice_firstn _ 12 8 4) by lia.
  replace (firstn 8 (buffer c)) with (firstn 8 (firstn 12 (buffer c))) by (rewrite firstn_firstn; reflexivity).
  rewrite Hf. unfold hdr_of.
  assert (HB : bytes_ok ([0x07; 0xAA]%N ++ be_bytes 2 d ++ be_bytes 2 s ++ be_bytes 2 len)).
  { rewrite !bytes_ok_app. repeat split; try apply be_bytes_ok. repeat constructor. }
  assert (E1 : be_value (be_bytes 2 d) = d) by (apply be_value_be_bytes_small; exact Hd).
  assert (E2 : be_value (be_bytes 2 s) = s) by (apply be_value_be_bytes_small; exact Hs).
  assert (E3 : be_value (be_bytes 2 len) = len) by (apply be_value_be_bytes_small; exact Hl).
  destruct (two_bytes d) as (d1 & d2 & Ed), (two_bytes s) as (s1 & s2 & Es), (two_bytes len) as (l1 & l2 & El).
  rewrite Ed, Es, El in *. cbn [app].
  set (h := [7; 170; d1; d2; s1; s2; l1; l2]%N).
  change (7 :: 170 :: d1 :: d2 :: s1 :: s2 :: l1 :: l2 :: be_bytes 4 (crc32 h))%N with (h ++ be_bytes 4 (crc32 h)).
  assert (E4 : be_value (be_bytes 4 (crc32 h)) = crc32 h) by (apply be_value_be_bytes_small, crc32_bound; exact HB).
  assert (S1 : slice (h ++ be_bytes 4 (crc32 h)) 2 2 = [d1; d2]) by reflexivity.
  assert (S2 : slice (h ++ be_bytes 4 (crc32 h)) 4 2 = [s1; s2]) by reflexivity.
  assert (S3 : slice (h ++ be_bytes 4 (crc32 h)) 6 2 = [l1; l2]) by reflexivity.
  assert (S4 : slice (h ++ be_bytes 4 (crc32 h)) 8 4 = be_bytes 4 (crc32 h)).
  { unfold slice. rewrite (skipn_app_len 8) by reflexivity. apply firstn_all2. rewrite be_bytes_length. lia. }
  rewrite S1, S2, S3, S4, E1, E2, E3, E4. rewrite (firstn_app_len 8) by reflexivity.
  rewrite N.eqb_refl. cbn [negb]. destruct (N.ltb_spec (max_payload_length c) len); [lia|]. reflexivity.
Qed.

Lemma slice_app3 (a b d : list N) n k : length a = n -> length b = k -> slice (a ++ b ++ d) n k = b.
Proof. intros <- <-. unfold slice. rewrite skipn_app_exact. apply firstn_app_exact. Qed.

Lemma body_ok h p c : bytes_ok p -> firstn (16 + length p) (buffer c) = h ++ p ++ be_bytes 4 (crc32 p) -> length h = 12 ->
  payload_length c = N.of_nat (length p) ->
  body_done c = (wait_read (16 + length p), set_result_payload c (12, length p)) /\
  slice (buffer c) 12 (length p) = p.
Proof.
  intros HB Hf Hh Hp. unfold body_done. rewrite Hp, Nat2N.id. cbn [set_result_payload buffer].
  assert (S1 : slice (buffer c) 12 (length p) = p).
  { rewrite (slice_firstn _ (16 + length p)) by lia. rewrite Hf. apply slice_app3; [exact Hh|reflexivity]. }
  assert (S2 : slice (buffer c) (12 + length p) 4 = be_bytes 4 (crc32 p)).
  { rewrite (slice_firstn _ (16 + length p)) by lia. rewrite Hf. rewrite app_assoc.
    rewrite <- (app_nil_r (be_bytes 4 (crc32 p))) at 1.
    apply slice_app3; [rewrite app_length; lia|apply be_bytes_length]. }
  rewrite S1, S2. rewrite be_value_be_bytes_small by (apply crc32_bound; exact HB). rewrite N.eqb_refl. cbn [negb].
  split; [|reflexivity]. do 2 f_equal. lia.
Qed.

Lemma frame_header_hdr f : frame_header f = hdr_of (f_destination f) (f_source f) (N.of_nat (length (f_payload f))).
Proof. reflexivity. Qed.
Lemma hdr_of_split d s l : exists t, hdr_of d s l = 7%N :: 170%N :: t /\ length t = 10.
Proof. unfold hdr_of. eexists. split; [cbn [app]; reflexivity|]. rewrite !app_length, !be_bytes_length. reflexivity. Qed.
Lemma hdr_of_length d s l : length (hdr_of d s l) = 12.
Proof. destruct (hdr_of_split d s l) as (t & -> & H). cbn. lia. Qed.

(** From the idle state, a header with a correct CRC leads to the body state. *)
Lemma crun_hdr r c d s len rest : cinv wait_sync1 c ->
  (d < 65536)%N -> (s < 65536)%N -> (len < 65536)%N -> (len <= max_payload_length c)%N ->
  exists c', crun r (wait_sync1, c) (hdr_of d s len ++ rest) = crun r (wait_body 12, c') rest /\
    firstn 12 (buffer c') = hdr_of d s len /\ cinv (wait_body 12) c' /\
    res_destination c' = d /\ res_source c' = s /\ payload_length c' = len /\
    max_payload_length c' = max_payload_length c /\ length (buffer c') = length (buffer c).
Proof.
  intros Hc Hd Hs Hl Hm. pose proof (proj1 Hc) as Hb.
  destruct (hdr_of_split d s len) as (t & Et & Lt).
  set (c1 := cput c 0 [7%N]). set (c2 := cput c1 1 [170%N]).
  assert (E : crun r (wait_sync1, c) (hdr_of d s len ++ rest) = crun r (wait_header 2, c2) (t ++ rest)).
  { rewrite Et. reflexivity. }
  assert (B1 : length (buffer c1) = length (buffer c)) by (apply cput_buffer_length; cbn; lia).
  assert (B2 : length (buffer c2) = length (buffer c)) by (rewrite <- B1; apply cput_buffer_length; rewrite B1; cbn [length]; lia).
  rewrite E. rewrite crun_header; [|rewrite B2; lia|lia].
  rewrite app_length. destruct (Nat.ltb_spec (2 + (length t + length rest)) 12); [lia|].
  replace (12 - 2) with (length t) by lia. rewrite firstn_app_exact, skipn_app_exact.
  set (c3 := cput c2 2 t).
  assert (B3 : length (buffer c3) = length (buffer c)) by (rewrite <- B2; apply cput_buffer_length; rewrite B2; lia).
  assert (F : firstn 12 (buffer c3) = hdr_of d s len).
  { pose proof (pend_put wait_sync1 c 0 [7%N] wait_sync2 eq_refl eq_refl ltac:(cbn; lia)) as P1.
    pose proof (pend_put wait_sync2 c1 1 [170%N] (wait_header 2) eq_refl eq_refl ltac:(rewrite B1; cbn [length]; lia)) as P2.
    pose proof (pend_put (wait_header 2) c2 2 t (wait_header 12) eq_refl ltac:(cbn [num_buffered]; lia) ltac:(lia)) as P3.
    fold c1 in P1. fold c2 in P2. fold c3 in P3. rewrite P2, P1 in P3. unfold pend in P3. cbn [num_buffered firstn app] in P3.
    rewrite Et. exact P3. }
  assert (Hc3 : cinv wait_sync1 c3) by (split; [rewrite B3; exact Hb|exact I]).
  rewrite (header_ok r c3 d s len F Hc3) by assumption.
  exists (set_result_header c3 d s len). split; [reflexivity|]. split; [exact F|].
  split; [split; [rewrite <- B3 in Hb; exact Hb|cbn; split; [lia|exact Hm]]|].
  repeat split. exact B3.
Qed.

(** A body of the right length ends either in [wait_read] or back in [wait_sync1]. *)
Lemma crun_frame r c f rest : cinv wait_sync1 c -> frame_ok (max_payload_length c) f ->
  (max_payload_length c < 65536)%N ->
  exists c', crun r (wait_sync1, c) (frame_bytes f ++ rest) = ((wait_read (16 + length (f_payload f)), c'), rest) /\
    rd c' = f /\ max_payload_length c' = max_payload_length c /\ length (buffer c') = length (buffer c).
Proof.
  intros Hc (Hd & Hs & Hp & Hm) Hmax.
  destruct (crun_hdr r c (f_destination f) (f_source f) (N.of_nat (length (f_payload f))) 
     (f_payload f ++ be_bytes 4 (crc32 (f_payload f)) ++ rest) Hc Hd Hs ltac:(lia) Hm) as (c1 & E1 & F1 & I1 & R1 & R2 & R3 & R4 & R5).
  unfold frame_bytes. rewrite frame_header_hdr, <- !app_assoc, E1.
  destruct I1 as [Hb [_ Hle]]. set (p := f_payload f) in *.
  rewrite crun_body by lia. rewrite R3, Nat2N.id.
  set (w := p ++ be_bytes 4 (crc32 p)).
  assert (Lw : length w = length p + 4) by (unfold w; rewrite app_length, be_bytes_length; reflexivity).
  replace (p ++ be_bytes 4 (crc32 p) ++ rest) with (w ++ rest) by (unfold w; now rewrite <- app_assoc).
  rewrite app_length. destruct (Nat.ltb_spec (12 + (length w + length rest)) (12 + length p + 4)); [lia|].
  replace (12 + length p + 4 - 12) with (length w) by lia. rewrite firstn_app_exact, skipn_app_exact.
  set (c2 := cput c1 12 w).
  assert (F2 : firstn (16 + length p) (buffer c2) = hdr_of (f_destination f) (f_source f) (N.of_nat (length p)) ++ p ++ be_bytes 4 (crc32 p)).
  { pose proof (pend_put (wait_body 12) c1 12 w (wait_body (16 + length p)) eq_refl ltac:(cbn; lia) ltac:(lia)) as P.
    unfold pend in P. cbn [num_buffered] in P. fold c2 in P. rewrite P, F1. reflexivity. }
  destruct (body_ok _ p c2 Hp F2 (hdr_of_length _ _ _) R3) as [E2 S2]. rewrite E2.
  rewrite crun_read by reflexivity.
  exists (set_result_payload c2 (12, length p)). split; [reflexivity|]. split.
  - unfold rd. cbn [set_result_payload res_destination res_source res_payload buffer fst snd]. rewrite S2.
    change (res_destination c2) with (res_destination c1). change (res_source c2) with (res_source c1).
    rewrite R1, R2. destruct f; reflexivity.
  - split; [exact R4|]. change (buffer (set_result_payload c2 (12, length p))) with (buffer c2).
    rewrite <- R5. apply cput_buffer_length. lia.
Qed.

(** A header followed by a body whose CRC is wrong: the parser is idle exactly after it. *)
Lemma crun_bad_body r c d s w rest : cinv wait_sync1 c ->
  (d < 65536)%N -> (s < 65536)%N -> (N.of_nat (length w) < 65536)%N -> (N.of_nat (length w) <= max_payload_length c)%N ->
  forall crcb, length crcb = 4 -> be_value crcb <> crc32 w ->
  exists c', crun r (wait_sync1, c) (hdr_of d s (N.of_nat (length w)) ++ w ++ crcb ++ rest) = crun r (wait_sync1, c') rest /\
    max_payload_length c' = max_payload_length c /\ length (buffer c') = length (buffer c).
Proof.
  intros Hc Hd Hs Hl Hm crcb L4 Hne.
  destruct (crun_hdr r c d s (N.of_nat (length w)) (w ++ crcb ++ rest) Hc Hd Hs Hl Hm) as (c1 & E1 & F1 & I1 & R1 & R2 & R3 & R4 & R5).
  rewrite E1. destruct I1 as [Hb [_ Hle]].
  rewrite crun_body by lia. rewrite R3, Nat2N.id.
  set (wc := w ++ crcb).
  assert (Lw : length wc = length w + 4) by (unfold wc; rewrite app_length; lia).
  replace (w ++ crcb ++ rest) with (wc ++ rest) by (unfold wc; now rewrite <- app_assoc).
  rewrite app_length. destruct (Nat.ltb_spec (12 + (length wc + length rest)) (12 + length w + 4)); [lia|].
  replace (12 + length w + 4 - 12) with (length wc) by lia. rewrite firstn_app_exact, skipn_app_exact.
  set (c2 := cput c1 12 wc).
  assert (F2 : firstn (16 + length w) (buffer c2) = hdr_of d s (N.of_nat (length w)) ++ w ++ crcb).
  { pose proof (pend_put (wait_body 12) c1 12 wc (wait_body (16 + length w)) eq_refl ltac:(cbn; lia) ltac:(lia)) as P.
    unfold pend in P. cbn [num_buffered] in P. fold c2 in P. rewrite P, F1. reflexivity. }
  unfold body_done. change (payload_length c2) with (payload_length c1). rewrite R3, Nat2N.id.
  cbn [set_result_payload buffer].
  assert (S1 : slice (buffer c2) 12 (length w) = w).
  { rewrite (slice_firstn _ (16 + length w)) by lia. rewrite F2. apply slice_app3; [apply hdr_of_length|reflexivity]. }
  assert (S2 : slice (buffer c2) (12 + length w) 4 = crcb).
  { rewrite (slice_firstn _ (16 + length w)) by lia. rewrite F2. rewrite app_assoc.
    rewrite <- (app_nil_r crcb) at 1. apply slice_app3; [rewrite app_length, hdr_of_length; lia|exact L4]. }
  rewrite S1, S2. destruct (N.eqb_spec (crc32 w) (be_value crcb)); [congruence|]. cbn [negb].
  eexists. split; [reflexivity|]. split; [exact R4|]. cbn [add_report set_result_payload buffer].
  rewrite <- R5. apply cput_buffer_length. lia.
Qed.

(** ** Feeding a stream *)
Fixpoint frun (sc : pstate * context) (l : list N) : list frame * (pstate * context) :=
  match l with
  | [] => ([], sc)
  | b :: l' =>
      let sc' := cstep_with retry1 sc b in
      if is_wait_read (fst sc') then
        let (fs, z) := frun (wait_sync1, snd sc') l' in (rd (snd sc') :: fs, z)
      else frun sc' l'
  end.

Lemma frun_app a : forall sc b,
  frun sc (a ++ b) = let (f1, sc1) := frun sc a in let (f2, sc2) := frun sc1 b in (f1 ++ f2, sc2).
Proof.
  induction a as [|x a IH]; intros sc b.
  - cbn [app frun]. destruct (frun sc b). reflexivity.
  - cbn [app frun]. destruct (is_wait_read _).
    + rewrite IH. destruct (frun (wait_sync1, _) a) as [f1 s1]. destruct (frun s1 b). reflexivity.
    + apply IH.
Qed.

Lemma frun_not_read l : forall sc, is_wait_read (fst sc) = false -> is_wait_read (fst (snd (frun sc l))) = false.
Proof.
  induction l as [|b l IH]; intros sc H; [exact H|]. cbn [frun].
  destruct (is_wait_read (fst (cstep_with retry1 sc b))) eqn:E.
  - specialize (IH (wait_sync1, snd (cstep_with retry1 sc b)) eq_refl).
    destruct (frun (wait_sync1, _) l). exact IH.
  - apply IH. exact E.
Qed.

Lemma frun_crun l : forall sc, is_wait_read (fst sc) = false ->
  frun sc l = let (sc', rest) := crun retry1 sc l in
    if is_wait_read (fst sc') then let (fs, z) := frun (wait_sync1, snd sc') rest in (rd (snd sc') :: fs, z)
    else ([], sc').
Proof.
  induction l as [|b l IH]; intros sc H.
  - rewrite crun_nil, H. reflexivity.
  - cbn [frun crun]. rewrite H. destruct (is_wait_read (fst (cstep_with retry1 sc b))) eqn:E.
    + destruct (cstep_with retry1 sc b) as [s' c']. rewrite crun_read by exact E. cbn [fst snd] in *. rewrite E. reflexivity.
    + apply IH. exact E.
Qed.

Lemma crun_rest r l : forall sc, is_wait_read (fst sc) = false ->
  (is_wait_read (fst (fst (crun r sc l))) = false -> snd (crun r sc l) = []) /\
  (l <> [] -> length (snd (crun r sc l)) < length l) /\
  (exists used, l = used ++ snd (crun r sc l)).
Proof.
  induction l as [|b l IH]; intros sc H.
  - rewrite crun_nil. cbn [fst snd]. split; [auto|]. split; [congruence|]. now exists [].
  - cbn [crun]. rewrite H. destruct (is_wait_read (fst (cstep_with r sc b))) eqn:E.
    + destruct (cstep_with r sc b) as [s' c']. rewrite crun_read by exact E. cbn [fst snd] in *.
      split; [congruence|]. split; [cbn; lia|]. now exists [b].
    + destruct (IH _ E) as (I1 & I2 & used & I3). split; [exact I1|]. split.
      * intros _. destruct l as [|b' l]; [rewrite crun_nil; cbn; lia|]. specialize (I2 ltac:(discriminate)). cbn [length] in *. lia.
      * exists (b :: used). cbn [app]. f_equal. exact I3.
Qed.

Definition mkp (sc : pstate * context) : link_parser := {| lp_state := fst sc; lp_context := snd sc |}.

Lemma link_parse_spec p bytes : cinv (lp_state p) (lp_context p) ->
  let sc' := fst (crun retry1 (lp_state p, lp_context p) bytes) in
  link_parse p bytes = Ok (is_wait_read (fst sc'), mkp sc', snd (crun retry1 (lp_state p, lp_context p) bytes)).
Proof.
  intros Hi. unfold link_parse.
  destruct (parse_many_ext (length bytes + 11) bytes _ _ Hi ltac:(lia)) as (rest & E1 & E2).
  rewrite E2. cbn [obind]. rewrite E1. cbn [fst snd input_length input_take]. rewrite firstn_all. reflexivity.
Qed.

Lemma feed_fuel_spec : forall k p bytes, cinv (lp_state p) (lp_context p) -> has_result p = false ->
  length bytes <= k ->
  let r := frun (lp_state p, lp_context p) bytes in feed_fuel k p bytes = Ok (fst r, mkp (snd r)).
Proof.
  induction k as [|k IH]; intros p bytes Hi Hr Hk.
  - destruct bytes; [|cbn in Hk; lia]. cbn. destruct p; reflexivity.
  - destruct bytes as [|b bytes]; [cbn; destruct p; reflexivity|].
    cbn [feed_fuel]. rewrite (link_parse_spec p (b :: bytes) Hi). cbn [obind].
    set (l := b :: bytes) in *. unfold has_result in Hr.
    destruct (crun_rest retry1 l (lp_state p, lp_context p) Hr) as (C1 & C2 & _).
    pose proof (crun_inv retry1 good_retry1 l _ _ Hi) as Hi'.
    rewrite (frun_crun l) by exact Hr.
    destruct (crun retry1 (lp_state p, lp_context p) l) as [[s' c'] rest]. cbn [fst snd] in *.
    specialize (C2 ltac:(discriminate)).
    destruct (is_wait_read s') eqn:E.
    + unfold link_read, has_result. cbn [lp_state mkp fst]. rewrite E.
      change (link_reset (mkp (s', c'))) with (mkp (wait_sync1, c')).
      rewrite (IH (mkp (wait_sync1, c')) rest); [|apply (cinv_sync1 s'); exact Hi'|reflexivity|cbn [length] in *; unfold l in *; cbn [length] in *; lia].
      cbn [obind lp_state lp_context mkp fst snd].
      destruct (frun (wait_sync1, c') rest). reflexivity.
    + rewrite (C1 eq_refl). destruct k; reflexivity.
Qed.

Lemma frun_inv l : forall s c, cinv s c -> cinv (fst (snd (frun (s, c) l))) (snd (snd (frun (s, c) l))).
Proof.
  induction l as [|b l IH]; intros s c Hi; [exact Hi|]. cbn [frun].
  pose proof (cstep_inv retry1 s c b good_retry1 Hi) as H. destruct (cstep_with retry1 (s, c) b) as [s' c'].
  cbn [fst snd] in *. destruct (is_wait_read s').
  - specialize (IH wait_sync1 c' (cinv_sync1 _ _ H)). destruct (frun (wait_sync1, c') l). exact IH.
  - apply IH. exact H.
Qed.

Lemma feed_spec p bytes : cinv (lp_state p) (lp_context p) -> has_result p = false ->
  let r := frun (lp_state p, lp_context p) bytes in feed p bytes = Ok (fst r, mkp (snd r)).
Proof. intros. apply feed_fuel_spec; auto. Qed.

Lemma feed_chunks_spec : forall chunks p, cinv (lp_state p) (lp_context p) -> has_result p = false ->
  let r := frun (lp_state p, lp_context p) (concat chunks) in feed_chunks p chunks = Ok (fst r, mkp (snd r)).
Proof.
  induction chunks as [|ch chunks IH]; intros p Hi Hr; [cbn; destruct p; reflexivity|].
  cbn [feed_chunks concat]. rewrite (feed_spec p ch Hi Hr). cbn [obind].
  pose proof (frun_inv ch _ _ Hi) as Hi'. pose proof (frun_not_read ch (lp_state p, lp_context p) Hr) as Hr'.
  rewrite frun_app. destruct (frun (lp_state p, lp_context p) ch) as [f1 [s1 c1]]. cbn [fst snd] in *.
  rewrite (IH (mkp (s1, c1)) Hi' Hr'). cbn [obind lp_state lp_context mkp fst snd].
  destruct (frun (s1, c1) (concat chunks)). reflexivity.
Qed.

(** ** Reachable parsers satisfy the invariant *)
Lemma pinv_cinv s c : pinv s c -> cinv s c. Proof. intros H. apply H. Qed.
Lemma new_pinv m : pinv wait_sync1 (new_context m).
Proof.
  split; [split; [|exact I]|split; [constructor|exact I]]. unfold new_context; cbn [buffer max_payload_length].
  rewrite repeat_length. unfold min_frame_size. lia.
Qed.
Lemma reachable_pinv m p : link_reachable m p ->
  pinv (lp_state p) (lp_context p) /\ max_payload_length (lp_context p) = N.min m 4092.
Proof.
  induction 1 as [|p bytes found p' rest Hp [IH1 IH2] Hb E|p Hp [IH1 IH2]].
  - split; [apply new_pinv|reflexivity].
  - rewrite (link_parse_spec p bytes (pinv_cinv _ _ IH1)) in E. injection E as _ <- _.
    destruct (crun_pinv retry1 suffix_retry1 good_retry1 bytes _ _ IH1 Hb) as (P1 & P2 & _).
    cbn [mkp lp_state lp_context]. split; [exact P1|congruence].
  - cbn. split; [|exact IH2]. split; [apply (cinv_sync1 (lp_state p)); apply IH1|split; [constructor|exact I]].
Qed.

(** ** Soundness: delivered frames occur in the stream *)
Lemma frun_sound l : forall s c, pinv s c -> is_wait_read s = false -> bytes_ok l ->
  frames_in (max_payload_length c) (fst (frun (s, c) l)) (pend s c ++ l) /\
  (let s' := fst (snd (frun (s, c) l)) in let c' := snd (snd (frun (s, c) l)) in
   pinv s' c' /\ max_payload_length c' = max_payload_length c /\ exists g, pend s c ++ l = g ++ pend s' c').
Proof.
  induction l as [|b l IH]; intros s c Hp Hr Hl.
  - cbn [frun fst snd]. split; [constructor|]. split; [exact Hp|]. split; [reflexivity|]. exists []. now rewrite app_nil_r.
  - inversion Hl as [|x y Hb Hl']; subst. cbn [frun].
    destruct (cstep_pinv retry1 s c b suffix_retry1 good_retry1 Hp Hr Hb) as (Q1 & Q2 & Q3 & g & Q4).
    destruct (cstep_with retry1 (s, c) b) as [s' c']. cbn [fst snd] in *.
    change (b :: l) with ([b] ++ l). rewrite app_assoc, Q4, <- app_assoc.
    destruct (is_wait_read s') eqn:E.
    + assert (Hp1 : pinv wait_sync1 c') by (split; [apply (cinv_sync1 s'); apply Q1|split; [constructor|exact I]]).
      destruct (IH wait_sync1 c' Hp1 eq_refl Hl') as (J1 & J2 & J3 & g2 & J4).
      destruct (frun (wait_sync1, c') l) as [fs z]. cbn [fst snd] in *.
      destruct s' as [| |n|n|n]; try discriminate. destruct Q1 as (_ & _ & _ & Qf & Qok).
      cbn [pend num_buffered firstn app] in J1, J4. rewrite Qf. split.
      * constructor; [rewrite <- Q2; exact Qok|]. rewrite <- Q2. exact J1.
      * split; [exact J2|]. split; [congruence|]. exists (g ++ frame_bytes (rd c') ++ g2). rewrite <- !app_assoc. now rewrite <- J4.
    + destruct (IH s' c' Q1 E Hl') as (J1 & J2 & J3 & g2 & J4). split.
      * rewrite <- Q2. clear - J1. remember (pend s' c' ++ l) as w. destruct J1 as [w|f fs gap w Hok J1]; [constructor|].
        rewrite app_assoc. constructor; assumption.
      * split; [exact J2|]. split; [congruence|]. exists (g ++ g2). rewrite J4. now rewrite app_assoc.
Qed.

(** ** A quiet gap resynchronises *)
Lemma quiet_gap pre gap s c : pinv s c -> is_wait_read s = false ->
  (exists g, pre ++ gap = g ++ pend s c) -> ~ In 7%N gap -> 
  15 + N.to_nat (max_payload_length c) <= length gap -> s = wait_sync1.
Proof.
  intros (Hi & Hok & Hm) Hr [g Hg] Hn Hl.
  assert (X : forall n, num_buffered s = n -> n <= length gap -> n <= length (buffer c) -> (exists t, pend s c = 7%N :: t) -> False).
  { intros n En Hnl Hnb [t Et]. apply Hn.
    assert (L : length (pend s c) = n) by (unfold pend; rewrite firstn_length; lia).
    assert (E : exists g', gap = g' ++ pend s c).
    { exists (skipn (length pre) g).
      assert (length pre <= length g). { apply (f_equal (@length N)) in Hg. rewrite !app_length in Hg. lia. }
      apply (f_equal (skipn (length pre))) in Hg. rewrite skipn_app_exact in Hg. rewrite skipn_app in Hg.
      replace (length pre - length g) with 0 in Hg by lia. exact Hg. }
    destruct E as [g' E]. rewrite E, Et. apply in_or_app. right. left. reflexivity. }
  destruct Hi as [Hb Hi]. destruct s as [| |n|n|n]; [reflexivity| | | |discriminate]; exfalso.
  - apply (X 1); [reflexivity|lia|lia|exists []; exact Hm].
  - destruct Hm as [_ [t Ht]]. apply (X n); [reflexivity|lia|lia|]. exists (170%N :: t). exact Ht.
  - destruct Hm as [Hh _]. apply (X n); [reflexivity|lia|lia|].
    destruct (hdr_of_split (res_destination c) (res_source c) (payload_length c)) as (t & Et & _). rewrite Et in Hh.
    unfold pend; cbn [num_buffered]. replace n with (12 + (n - 12)) by lia. rewrite firstn_slice, Hh. cbn [app]. eauto.
Qed.

(** No sync pair and no trailing sync byte. *)
Fixpoint sync_free (l : list N) : Prop :=
  match l with
  | [] => True
  | x :: l' => match l' with [] => x <> 7%N | y :: _ => x = 7%N -> y <> 170%N end /\ sync_free l'
  end.
Lemma crun_sync_free l : forall c rest, sync_free l -> exists c',
  crun retry1 (wait_sync1, c) (l ++ rest) = crun retry1 (wait_sync1, c') rest /\
  max_payload_length c' = max_payload_length c /\ (cinv wait_sync1 c -> cinv wait_sync1 c').
Proof.
  remember (length l) as n. revert l Heqn. induction n as [n IH] using lt_wf_ind. intros l Hn c rest Hf.
  destruct l as [|x l]; [exists c; auto|].
  cbn [app crun fst is_wait_read]. cbn [cstep_with]. destruct (N.eqb_spec x sync1) as [->|E].
  - destruct l as [|y l]; [destruct Hf as [X _]; exfalso; apply X; reflexivity|].
    destruct Hf as [Hxy Hf]. specialize (Hxy eq_refl).
    cbn [app crun fst is_wait_read cstep_with]. destruct (N.eqb_spec y sync2) as [->|E]; [exfalso; apply Hxy; reflexivity|].
    destruct (IH (length l) ltac:(subst n; cbn; lia) l eq_refl (cput c 0 [sync1]) rest ltac:(apply Hf)) as (c' & E1 & E2 & E3).
    exists c'. split; [exact E1|]. split; [exact E2|]. intros Hc. apply E3. apply (cinv_put wait_sync1); [destruct Hc; cbn; lia|exact Hc].
  - apply (IH (length l) ltac:(subst n; cbn; lia) l eq_refl c rest). apply Hf.
Qed.

(** ** The statements used by PropLink *)
Lemma link_write_bytes d s m w bytes body :
  link_frame_write d s m w = Some (bytes, body) ->
  bytes = frame_bytes {| f_destination := d; f_source := s; f_payload := body |} /\
  length bytes = 16 + length body /\ (N.of_nat (length body) <= m)%N.
Proof.
  unfold link_frame_write. destruct (w _) as [b|]; [|discriminate].
  destruct (Nat.ltb_spec (min_frame_size + N.to_nat m - header_total_size - length b) 4) as [|L]; [discriminate|].
  destruct (N.ltb_spec 65535 (N.of_nat (length b))) as [|L2]; [discriminate|]. intros [= <- <-].
  unfold min_frame_size, header_total_size in L.
  assert (U : u16 (N.of_nat (length b)) = N.of_nat (length b)).
  { unfold u16, trunc. apply N.mod_small. change (2 ^ 16)%N with 65536%N. lia. }
  rewrite U. unfold frame_bytes, frame_header, frame_header_fields.
  cbn [f_destination f_source f_payload app]. unfold sync1, sync2, min_frame_size.
  rewrite firstn_all2.
  - split; [reflexivity|]. split; [|lia]. repeat (cbn [length]; rewrite ?app_length, ?be_bytes_length). lia.
  - repeat (cbn [length]; rewrite ?app_length, ?be_bytes_length). lia.
Qed.

Lemma link_write_total d s m p : (m < 65536)%N -> (N.of_nat (length p) <= m)%N ->
  exists bytes, link_frame_write d s m (fun space => if space <? length p then WErr else WOk p) = Some (bytes, p).
Proof.
  intros Hm Hp. unfold link_frame_write, min_frame_size, header_total_size.
  destruct (Nat.ltb_spec (16 + N.to_nat m - 12) (length p)); [lia|].
  destruct (Nat.ltb_spec (16 + N.to_nat m - 12 - length p) 4); [lia|].
  destruct (N.ltb_spec 65535 (N.of_nat (length p))); [lia|]. eauto.
Qed.

Lemma idle_cinv m p : link_reachable m p -> cinv (lp_state p) (lp_context p).
Proof. intros H. apply (reachable_pinv m p H). Qed.

Lemma parse_frame m p f rest : link_reachable m p -> lp_state p = wait_sync1 -> frame_ok (N.min m 4092) f ->
  exists p', link_parse p (frame_bytes f ++ rest) = Ok (true, p', rest) /\ link_read p' = Some f.
Proof.
  intros Hr Hs Hf. destruct (reachable_pinv m p Hr) as [Hp Hm].
  pose proof (idle_cinv m p Hr) as Hi. rewrite (link_parse_spec p _ Hi). rewrite Hs in Hi |- *.
  rewrite <- Hm in Hf.
  destruct (crun_frame retry1 (lp_context p) f rest Hi Hf ltac:(rewrite Hm; lia)) as (c' & E & R & _).
  rewrite E. cbn [fst snd is_wait_read]. eexists. split; [reflexivity|].
  unfold link_read, has_result. cbn [mkp lp_state fst is_wait_read lp_context snd]. f_equal. exact R.
Qed.

Lemma frun_frames fs : forall c rest, cinv wait_sync1 c -> (max_payload_length c < 65536)%N ->
  Forall (frame_ok (max_payload_length c)) fs ->
  exists c', frun (wait_sync1, c) (flat_map frame_bytes fs ++ rest) =
    (fs ++ fst (frun (wait_sync1, c') rest), snd (frun (wait_sync1, c') rest)) /\ cinv wait_sync1 c' /\
    max_payload_length c' = max_payload_length c.
Proof.
  induction fs as [|f fs IH]; intros c rest Hc Hm Hf.
  - exists c. cbn [flat_map app]. split; [apply surjective_pairing|]. auto.
  - inversion Hf as [|x y Hf1 Hf2]; subst. cbn [flat_map]. rewrite <- app_assoc.
    destruct (crun_frame retry1 c f (flat_map frame_bytes fs ++ rest) Hc Hf1 Hm) as (c1 & E & R & M & B).
    assert (Hc1 : cinv wait_sync1 c1) by (destruct Hc; split; [rewrite M, B; assumption|exact I]).
    destruct (IH c1 rest Hc1 ltac:(congruence) ltac:(rewrite M; exact Hf2)) as (c' & E' & H1 & H2).
    exists c'. rewrite frun_crun by reflexivity. rewrite E. cbn [fst snd is_wait_read].
    rewrite E'. cbn [app]. rewrite R. split; [reflexivity|]. split; [exact H1|congruence].
Qed.

Lemma feed_frames m p fs chunks : link_reachable m p -> lp_state p = wait_sync1 ->
  Forall (frame_ok (N.min m 4092)) fs -> concat chunks = flat_map frame_bytes fs ->
  exists p', feed_chunks p chunks = Ok (fs, p') /\ lp_state p' = wait_sync1.
Proof.
  intros Hr Hs Hf Hc. destruct (reachable_pinv m p Hr) as [_ Hm]. pose proof (idle_cinv m p Hr) as Hi.
  rewrite (feed_chunks_spec chunks p Hi) by (unfold has_result; rewrite Hs; reflexivity).
  rewrite Hc, Hs in *. rewrite <- Hm in Hf.
  destruct (frun_frames fs (lp_context p) [] Hi ltac:(rewrite Hm; lia) Hf) as (c' & E & _).
  rewrite app_nil_r in E. rewrite E. cbn [frun fst snd]. rewrite app_nil_r. eexists. split; reflexivity.
Qed.

Lemma chunk_independence m p chunks : link_reachable m p -> has_result p = false ->
  exists r, feed_chunks p chunks = Ok r /\ feed p (concat chunks) = Ok r.
Proof.
  intros Hr Hn. pose proof (idle_cinv m p Hr) as Hi.
  rewrite (feed_chunks_spec chunks p Hi Hn), (feed_spec p (concat chunks) Hi Hn). eauto.
Qed.

Lemma feed_reachable m p chunks fs p' : link_reachable m p -> Forall bytes_ok chunks -> has_result p = false ->
  feed_chunks p chunks = Ok (fs, p') -> link_reachable m p' /\ has_result p' = false.
Proof.
  intros Hr Hok Hn. revert p fs p' Hr Hn. induction Hok as [|ch chunks Hb Hok IH]; intros p fs p' Hr Hn E.
  - cbn in E. injection E as <- <-. auto.
  - cbn [feed_chunks] in E. destruct (feed p ch) as [[f1 p1]| |] eqn:E1; cbn [obind] in E; try discriminate.
    destruct (feed_chunks p1 chunks) as [[f2 p2]| |] eqn:E2; cbn [obind] in E; try discriminate.
    injection E as <- <-.
    assert (X : link_reachable m p1 /\ has_result p1 = false); [|destruct X; eapply IH; eassumption].
    clear IH E2 f2 p2 Hok chunks. unfold feed in E1. remember (length ch) as k. clear Heqk.
    revert p ch f1 p1 Hr Hn Hb E1. induction k as [|k IH]; intros p ch f1 p1 Hr Hn Hb E1.
    + destruct ch; cbn in E1; [injection E1 as <- <-; auto|discriminate].
    + destruct ch as [|b ch]; cbn [feed_fuel] in E1; [injection E1 as <- <-; auto|].
      destruct (link_parse p (b :: ch)) as [[[fd q] rest]| |] eqn:E2; cbn [obind] in E1; try discriminate.
      assert (Hq : link_reachable m q) by (eapply reach_parse; eassumption).
      assert (Hrest : bytes_ok rest /\ fd = has_result q).
      { pose proof (idle_cinv m p Hr) as Hi. rewrite (link_parse_spec p _ Hi) in E2. injection E2 as <- <- <-.
        split; [|reflexivity]. destruct (crun_rest retry1 (b :: ch) (lp_state p, lp_context p) Hn) as (_ & _ & used & E).
        rewrite E in Hb. apply bytes_ok_app in Hb. apply Hb. }
      destruct Hrest as [Hrest ->]. destruct (has_result q) eqn:Eq.
      * destruct (link_read q); [|discriminate].
        destruct (feed_fuel k (link_reset q) rest) as [[f3 p3]| |] eqn:E3; cbn [obind] in E1; try discriminate.
        injection E1 as <- <-. eapply IH; [| |exact Hrest|exact E3]; [apply reach_reset; exact Hq|reflexivity].
      * eapply IH; [exact Hq|exact Eq|exact Hrest|exact E1].
Qed.

Lemma frames_sound m chunks fs p' : Forall bytes_ok chunks ->
  feed_chunks (new_link_parser m) chunks = Ok (fs, p') -> frames_in (N.min m 4092) fs (concat chunks).
Proof.
  intros Hok E. assert (Hc : bytes_ok (concat chunks)) by (clear E; induction Hok as [|x l Hx Hl IHl]; cbn [concat]; [constructor|apply bytes_ok_app; split; assumption]).
  rewrite (feed_chunks_spec chunks (new_link_parser m)) in E; [|apply new_pinv|reflexivity].
  injection E as <- _. destruct (frun_sound (concat chunks) wait_sync1 (new_context m) (new_pinv m) eq_refl Hc) as [J _].
  exact J.
Qed.

Lemma parse_safe m p bytes : link_reachable m p ->
  exists found p' rest, link_parse p bytes = Ok (found, p', rest) /\ found = has_result p' /\
    (exists used, bytes = used ++ rest) /\ (found = false -> rest = []) /\
    (has_result p = false -> bytes <> [] -> length rest < length bytes) /\
    (has_result p = true -> p' = p /\ rest = bytes).
Proof.
  intros Hr. pose proof (idle_cinv m p Hr) as Hi. rewrite (link_parse_spec p bytes Hi).
  eexists _, _, _. split; [reflexivity|]. split; [reflexivity|]. unfold has_result.
  destruct (is_wait_read (lp_state p)) eqn:E.
  - rewrite crun_read by exact E. cbn [fst snd]. split; [now exists []|]. split; [congruence|]. split; [congruence|].
    intros _. split; [destruct p; reflexivity|reflexivity].
  - destruct (crun_rest retry1 bytes (lp_state p, lp_context p) E) as (C1 & C2 & C3).
    split; [exact C3|]. split; [exact C1|]. split; [intros _; exact C2|congruence].
Qed.

Lemma resync_gap m p pre gap f : link_reachable m p -> has_result p = false -> bytes_ok pre -> bytes_ok gap ->
  ~ In 7%N gap -> 15 + N.to_nat (N.min m 4092) <= length gap -> frame_ok (N.min m 4092) f ->
  exists fs p1 p', feed_chunks p [pre; gap] = Ok (fs, p1) /\ lp_state p1 = wait_sync1 /\
    feed_chunks p [pre; gap; frame_bytes f] = Ok (fs ++ [f], p') /\ lp_state p' = wait_sync1.
Proof.
  intros Hr Hn Hpre Hgap Hno Hlen Hf. pose proof (idle_cinv m p Hr) as Hi.
  destruct (reachable_pinv m p Hr) as [Hp Hm].
  rewrite !(feed_chunks_spec _ p Hi Hn). cbn [concat]. rewrite !app_nil_r.
  destruct (frun_sound (pre ++ gap) _ _ Hp Hn) as (_ & J2 & J3 & g & J4); [apply bytes_ok_app; auto|].
  pose proof (frun_not_read (pre ++ gap) (lp_state p, lp_context p) Hn) as Hn2.
  rewrite (app_assoc pre gap (frame_bytes f)), (frun_app (pre ++ gap)).
  destruct (frun (lp_state p, lp_context p) (pre ++ gap)) as [fs [s c]]. cbn [fst snd] in *.
  assert (Es : s = wait_sync1).
  { apply (quiet_gap (pend (lp_state p) (lp_context p) ++ pre) gap s c J2 Hn2); [|exact Hno|rewrite J3, Hm; lia].
    exists g. rewrite <- app_assoc. exact J4. }
  subst s.
  destruct (frun_frames [f] c [] (pinv_cinv _ _ J2)) as (c' & E & _); [rewrite J3, Hm; lia|constructor; [rewrite J3, Hm; exact Hf|constructor]|].
  cbn [flat_map] in E. rewrite !app_nil_r in E. rewrite E. cbn [frun fst snd app].
  eexists fs, _, _. split; [reflexivity|]. split; [reflexivity|]. split; reflexivity.
Qed.

Lemma resync_noise m p noise f : link_reachable m p -> lp_state p = wait_sync1 ->
  sync_free noise -> frame_ok (N.min m 4092) f ->
  exists p', feed_chunks p [noise; frame_bytes f] = Ok ([f], p') /\ lp_state p' = wait_sync1.
Proof.
  intros Hr Hs Hno Hf. pose proof (idle_cinv m p Hr) as Hi. destruct (reachable_pinv m p Hr) as [Hp Hm].
  rewrite (feed_chunks_spec _ p Hi) by (unfold has_result; rewrite Hs; reflexivity).
  cbn [concat]. rewrite !app_nil_r. rewrite Hs in *.
  rewrite frun_crun by reflexivity.
  destruct (crun_sync_free noise (lp_context p) (frame_bytes f) Hno) as (c1 & E1 & M1 & I1).
  rewrite E1. rewrite <- (app_nil_r (frame_bytes f)).
  destruct (crun_frame retry1 c1 f [] (I1 Hi)) as (c2 & E2 & R2 & _); [rewrite M1, Hm; exact Hf|rewrite M1, Hm; lia|].
  rewrite E2. cbn [fst snd is_wait_read frun]. rewrite R2. eexists. split; reflexivity.
Qed.

Lemma resync_bad_body m p d s w crcb f : link_reachable m p -> lp_state p = wait_sync1 ->
  (d < 65536)%N -> (s < 65536)%N -> (N.of_nat (length w) <= N.min m 4092)%N ->
  length crcb = 4 -> be_value crcb <> crc32 w -> frame_ok (N.min m 4092) f ->
  exists p', feed_chunks p [hdr_of d s (N.of_nat (length w)) ++ w ++ crcb; frame_bytes f] = Ok ([f], p') /\ lp_state p' = wait_sync1.
Proof.
  intros Hr Hs Hd Hsr Hl L4 Hne Hf. pose proof (idle_cinv m p Hr) as Hi. destruct (reachable_pinv m p Hr) as [Hp Hm].
  rewrite (feed_chunks_spec _ p Hi) by (unfold has_result; rewrite Hs; reflexivity).
  cbn [concat]. rewrite !app_nil_r. rewrite Hs in *.
  rewrite frun_crun by reflexivity. rewrite <- !app_assoc.
  destruct (crun_bad_body retry1 (lp_context p) d s w (frame_bytes f) Hi Hd Hsr ltac:(lia) ltac:(rewrite Hm; exact Hl) crcb L4 Hne) as (c1 & E1 & M1 & B1).
  rewrite E1. rewrite <- (app_nil_r (frame_bytes f)).
  assert (Hc1 : cinv wait_sync1 c1) by (destruct Hi; split; [rewrite M1, B1; assumption|exact I]).
  destruct (crun_frame retry1 c1 f [] Hc1) as (c2 & E2 & R2 & _); [rewrite M1, Hm; exact Hf|rewrite M1, Hm; lia|].
  rewrite E2. cbn [fst snd is_wait_read frun]. rewrite R2. eexists. split; reflexivity.
Qed.

Lemma sync_free_spec l : (forall a b, l <> a ++ [7%N; 170%N] ++ b) -> (forall a, l <> a ++ [7%N]) -> sync_free l.
Proof.
  induction l as [|x l IH]; intros H1 H2; [exact I|]. cbn [sync_free]. split.
  - destruct l as [|y l].
    + intros ->. apply (H2 []). reflexivity.
    + intros -> ->. apply (H1 [] l). reflexivity.
  - apply IH.
    + intros a b E. apply (H1 (x :: a) b). cbn. now rewrite E.
    + intros a E. apply (H2 (x :: a)). cbn. now rewrite E.
Qed.

Lemma burst_dropped m p g sect i f :
  link_reachable m p -> lp_state p = wait_sync1 ->
  frame_ok (N.min m 4092) g -> frame_ok (N.min m 4092) f ->
  let good := f_payload g ++ be_bytes 4 (crc32 (f_payload g)) in
  bytes_ok sect -> length sect = length good -> sect <> good ->
  (forall k, nth k (bits good) false <> nth k (bits sect) false -> i <= k < i + 32) ->
  exists p', feed_chunks p [frame_header g ++ sect; frame_bytes f] = Ok ([f], p').
Proof.
  intros Hr Hs (Hd & Hsr & Hp & Hm) Hf good Hok Hl Hne Hk.
  assert (HG : crc_protected good).
  { exists (f_payload g), (be_bytes 4 (crc32 (f_payload g))). split; [reflexivity|]. split; [apply be_bytes_length|].
    symmetry. apply be_value_be_bytes_small, crc32_bound, Hp. }
  assert (Hgok : bytes_ok good) by (apply bytes_ok_app; split; [exact Hp|apply be_bytes_ok]).
  assert (HB : ~ crc_protected sect).
  { apply (crc_detects_bursts_pf good sect i); auto. }
  set (n := length (f_payload g)).
  assert (Lg : length good = n + 4) by (unfold good; rewrite app_length, be_bytes_length; reflexivity).
  assert (Lw : length (firstn n sect) = n) by (rewrite firstn_length; lia).
  assert (Lc : length (skipn n sect) = 4) by (rewrite skipn_length; lia).
  rewrite <- (firstn_skipn n sect). rewrite frame_header_hdr. fold n. rewrite <- Lw.
  assert (Hbad : be_value (skipn n sect) <> crc32 (firstn n sect)).
  { intros E. apply HB. exists (firstn n sect), (skipn n sect). split; [symmetry; apply firstn_skipn|]. auto. }
  assert (HB2 : (N.of_nat (length (firstn n sect)) <= N.min m 4092)%N) by (rewrite Lw; exact Hm).
  destruct (resync_bad_body m p (f_destination g) (f_source g) (firstn n sect) (skipn n sect) f Hr Hs Hd Hsr HB2 Lc Hbad Hf) as (p' & E & _).
  exists p'. rewrite Lw in *. exact E.
Qed.
