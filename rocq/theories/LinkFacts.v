(** * LinkFacts: proofs about the link parser *)
From Verif Require Import Base BaseFacts Crc CrcFacts CrcMain Codec Link LinkSpec.
Ltac Zify.zify_post_hook ::= Z.div_mod_to_equations.
Opaque crc32.

Definition bw (buf : list N) (off : nat) (data : list N) : list N :=
  firstn off buf ++ data ++ skipn (off + length data) buf.

Lemma buf_write_fits buf off data : off + length data <= length buf ->
  buf_write buf off data = Some (bw buf off data).
Proof. intros H. unfold buf_write. destruct (Nat.leb_spec (off + length data) (length buf)); [reflexivity|lia]. Qed.

Lemma bw_length buf off data : off + length data <= length buf -> length (bw buf off data) = length buf.
Proof. intros H. unfold bw. rewrite !app_length, firstn_length, skipn_length. lia. Qed.

Lemma bw_nil buf off : off <= length buf -> bw buf off [] = buf.
Proof. intros H. unfold bw. cbn [app length]. rewrite Nat.add_0_r. apply firstn_skipn. Qed.

Lemma skipn_skipn' {A} (l : list A) a b : skipn a (skipn b l) = skipn (b + a) l.
Proof.
  revert l; induction b as [|b IH]; intros l; [reflexivity|].
  destruct l; cbn [skipn Nat.add]; [now rewrite !skipn_nil|apply IH].
Qed.

Lemma bw_app buf off a b : off + length a + length b <= length buf ->
  bw buf off (a ++ b) = bw (bw buf off a) (off + length a) b.
Proof.
  intros H. unfold bw. rewrite app_length.
  assert (L : length (firstn off buf) = off) by (rewrite firstn_length; lia).
  assert (L2 : length (firstn off buf ++ a) = off + length a) by (rewrite app_length; lia).
  rewrite (app_assoc (firstn off buf) a). rewrite (firstn_app_len (off + length a)) by exact L2.
  rewrite <- !app_assoc. f_equal. f_equal. f_equal.
  rewrite (app_assoc (firstn off buf)). rewrite skipn_app.
  rewrite L2. rewrite (skipn_all2 (n := off + length a + length b)) by lia.
  cbn [app]. rewrite skipn_skipn'. f_equal. lia.
Qed.

Lemma bw_slice_after buf off data o n : off + length data <= o -> off + length data <= length buf ->
  slice (bw buf off data) o n = slice buf o n.
Proof.
  intros H H2. unfold slice, bw. f_equal. rewrite app_assoc, skipn_app.
  assert (L : length (firstn off buf ++ data) = off + length data) by (rewrite app_length, firstn_length; lia).
  rewrite L, (skipn_all2 (n := o)) by lia. cbn [app]. rewrite skipn_skipn'. f_equal. lia.
Qed.

Lemma firstn_bw buf off data : off <= length buf ->
  firstn (off + length data) (bw buf off data) = firstn off buf ++ data.
Proof.
  intros H. unfold bw. rewrite app_assoc. apply firstn_app_len. rewrite app_length, firstn_length. lia.
Qed.

(** ** The parser one byte at a time *)
Definition header_done (retry : context -> pstate * context) (c1 : context) : pstate * context :=
  let dst := be_value (slice (buffer c1) 2 2) in
  let src := be_value (slice (buffer c1) 4 2) in
  let len := be_value (slice (buffer c1) 6 2) in
  let actual := be_value (slice (buffer c1) 8 4) in
  let c2 := set_result_header c1 dst src len in
  let expected := crc32 (firstn 8 (buffer c2)) in
  if negb (expected =? actual)%N then retry (add_report c2 (on_bad_header_crc expected actual))
  else if (max_payload_length c2 <? len)%N
  then (wait_sync1, add_report c2 (on_bad_body_length (max_payload_length c2) len))
  else (wait_body 12, c2).

Definition body_done (c1 : context) : pstate * context :=
  let plen := N.to_nat (payload_length c1) in
  let c2 := set_result_payload c1 (12, plen) in
  let expected := crc32 (slice (buffer c2) 12 plen) in
  let actual := be_value (slice (buffer c2) (12 + plen) 4) in
  if negb (expected =? actual)%N then (wait_sync1, add_report c2 (on_bad_body_crc expected actual))
  else (wait_read (12 + plen + 4), c2).

Definition cput (c : context) (off : nat) (data : list N) : context := set_buffer c (bw (buffer c) off data).

Definition cstep_with (retry : context -> pstate * context) (sc : pstate * context) (b : N) : pstate * context :=
  let (s, c) := sc in
  match s with
  | wait_sync1 => if (b =? sync1)%N then (wait_sync2, cput c 0 [b]) else (wait_sync1, c)
  | wait_sync2 => if (b =? sync2)%N then (wait_header 2, cput c 1 [b]) else (wait_sync1, c)
  | wait_header n =>
      if S n =? 12 then header_done retry (cput c n [b]) else (wait_header (S n), cput c n [b])
  | wait_body n =>
      if S n =? 12 + N.to_nat (payload_length c) + 4 then body_done (cput c n [b])
      else (wait_body (S n), cput c n [b])
  | wait_read n => (wait_read n, c)
  end.

Fixpoint crun (retry : context -> pstate * context) (sc : pstate * context) (l : list N)
  : (pstate * context) * list N :=
  if is_wait_read (fst sc) then (sc, l) else
  match l with
  | [] => (sc, [])
  | b :: l' => crun retry (cstep_with retry sc b) l'
  end.

Definition retry0 (c : context) : pstate * context := (wait_sync1, c).
Definition retry1 (c : context) : pstate * context :=
  fst (crun retry0 (wait_sync1, c) (slice (buffer c) 2 10)).

(** What an input denotes. *)
Definition contents (c : context) (i : input) (l : list N) : Prop :=
  match i with
  | Ext l' => l' = l
  | Alias off len => off + len <= length (buffer c) /\ slice (buffer c) off len = l
  end.
Definition num_buffered (s : pstate) : nat :=
  match s with
  | wait_sync1 => 0 | wait_sync2 => 1
  | wait_header n => n | wait_body n => n | wait_read n => n
  end.
Definition ahead (s : pstate) (i : input) : Prop :=
  match i with Ext _ => True | Alias off _ => num_buffered s <= off end.

Definition cinv (s : pstate) (c : context) : Prop :=
  16 + N.to_nat (max_payload_length c) <= length (buffer c) /\
  match s with
  | wait_header n => n < 12
  | wait_body n => 12 <= n < 16 + N.to_nat (payload_length c) /\ (payload_length c <= max_payload_length c)%N
  | _ => True
  end.

Lemma contents_length c i l : contents c i l -> input_length i = length l.
Proof.
  destruct i as [l'|off len]; cbn; [intros ->; reflexivity|].
  intros [H <-]. unfold slice. rewrite firstn_length, skipn_length. lia.
Qed.
Lemma contents_take c i l k : contents c i l -> input_take c i k = firstn k l.
Proof.
  destruct i as [l'|off len]; cbn; [intros ->; reflexivity|].
  intros [H <-]. unfold slice. rewrite firstn_firstn. reflexivity.
Qed.
Lemma contents_first c i b l : contents c i (b :: l) -> input_first c i = Ok b.
Proof.
  destruct i as [l'|off len]; cbn; [intros ->; reflexivity|].
  intros [H E]. destruct len as [|len]; [cbn in E; discriminate|].
  unfold slice in E.
  assert (E2 : nth_error (buffer c) off = Some b).
  { rewrite <- (firstn_skipn off (buffer c)).
    assert (L : length (firstn off (buffer c)) = off) by (rewrite firstn_length; lia).
    rewrite nth_error_app2 by lia. rewrite L, Nat.sub_diag.
    destruct (skipn off (buffer c)); cbn in E; [discriminate|]. cbn. congruence. }
  rewrite E2. reflexivity.
Qed.
(** Advancing, possibly after a write strictly behind the reading position. *)
Lemma contents_advance c i l k : contents c i l -> k <= length l ->
  contents c (input_advance i k) (skipn k l).
Proof.
  destruct i as [l'|off len]; cbn [contents input_advance]; [intros -> _; reflexivity|].
  intros [H E] Hk. assert (Hl : length l = len).
  { rewrite <- E. unfold slice. rewrite firstn_length, skipn_length. lia. }
  rewrite Nat.min_l by lia. split; [lia|]. rewrite <- E.
  unfold slice. rewrite skipn_firstn_comm, skipn_skipn'. reflexivity.
Qed.
Lemma contents_write c i l n data :
  contents c i l -> n + length data <= length (buffer c) ->
  match i with Ext _ => True | Alias off _ => n + length data <= off end ->
  contents (cput c n data) i l.
Proof.
  destruct i as [l'|off len]; cbn [contents]; [auto|].
  intros [H E] Hn Ho. unfold cput; cbn [set_buffer buffer]. rewrite bw_length by lia.
  split; [lia|]. rewrite bw_slice_after by lia. exact E.
Qed.
Definition advance_off i k :=
  match i with Ext _ => True | Alias _ len => k <= len end.

Lemma crun_read retry s c l : is_wait_read s = true -> crun retry (s, c) l = ((s, c), l).
Proof. intros H. destruct l; cbn [crun fst]; rewrite H; reflexivity. Qed.
Lemma crun_nil retry sc : crun retry sc [] = (sc, []).
Proof. cbn. destruct (is_wait_read (fst sc)); reflexivity. Qed.

Lemma cput_buffer_length c n data : n + length data <= length (buffer c) ->
  length (buffer (cput c n data)) = length (buffer c).
Proof. intros. unfold cput. cbn. apply bw_length; assumption. Qed.

(** Bulk transfer in the header state is the same as byte by byte. *)
Lemma cput_cons c n b l : n + S (length l) <= length (buffer c) ->
  cput (cput c n [b]) (S n) l = cput c n (b :: l).
Proof.
  intros H. unfold cput; cbn [set_buffer buffer]. 
  change (b :: l) with ([b] ++ l). rewrite (bw_app _ n [b] l) by (cbn [length]; lia).
  cbn [length]. replace (n + 1) with (S n) by lia. reflexivity.
Qed.
Lemma cput_nil c n : n <= length (buffer c) -> cput c n [] = c.
Proof. intros. unfold cput. rewrite bw_nil by lia. destruct c; reflexivity. Qed.

Lemma crun_header retry : forall l n c, 16 <= length (buffer c) -> n < 12 ->
  crun retry (wait_header n, c) l =
  if n + length l <? 12 then ((wait_header (n + length l), cput c n l), [])
  else crun retry (header_done retry (cput c n (firstn (12 - n) l))) (skipn (12 - n) l).
Proof.
  induction l as [|b l IH]; intros n c Hb Hn.
  - cbn [length]. rewrite Nat.add_0_r. rewrite crun_nil. destruct (Nat.ltb_spec n 12); [|lia].
    rewrite cput_nil by lia. reflexivity.
  - cbn [crun fst is_wait_read]. cbn [cstep_with length].
    destruct (Nat.eqb_spec (S n) 12) as [E|E].
    + destruct (Nat.ltb_spec (n + S (length l)) 12); [lia|].
      replace (12 - n) with 1 by lia. cbn [firstn skipn]. reflexivity.
    + rewrite IH; [|rewrite cput_buffer_length by (cbn [length]; lia); lia|lia].
      destruct (Nat.ltb_spec (S n + length l) 12); destruct (Nat.ltb_spec (n + S (length l)) 12); try lia.
      * rewrite cput_cons by lia. replace (S n + length l) with (n + S (length l)) by lia. reflexivity.
      * replace (12 - n) with (S (12 - S n)) by lia. cbn [firstn skipn].
        rewrite cput_cons by (rewrite firstn_length; lia). reflexivity.
Qed.

Lemma cput_payload_length c n l : payload_length (cput c n l) = payload_length c.
Proof. reflexivity. Qed.

Lemma crun_body retry : forall l n c, 16 + N.to_nat (payload_length c) <= length (buffer c) ->
  n < 12 + N.to_nat (payload_length c) + 4 ->
  crun retry (wait_body n, c) l =
  if n + length l <? 12 + N.to_nat (payload_length c) + 4 then ((wait_body (n + length l), cput c n l), [])
  else crun retry (body_done (cput c n (firstn (12 + N.to_nat (payload_length c) + 4 - n) l)))
         (skipn (12 + N.to_nat (payload_length c) + 4 - n) l).
Proof.
  induction l as [|b l IH]; intros n c Hb Hn.
  - cbn [length]. rewrite Nat.add_0_r. rewrite crun_nil. destruct (Nat.ltb_spec n (12 + N.to_nat (payload_length c) + 4)); [|lia].
    rewrite cput_nil by lia. reflexivity.
  - cbn [crun fst is_wait_read]. cbn [cstep_with length].
    set (tot := 12 + N.to_nat (payload_length c) + 4) in *.
    destruct (Nat.eqb_spec (S n) tot) as [E|E].
    + destruct (Nat.ltb_spec (n + S (length l)) tot); [lia|].
      replace (tot - n) with 1 by lia. cbn [firstn skipn]. reflexivity.
    + rewrite IH; [|rewrite cput_buffer_length by (cbn [length]; lia); exact Hb|rewrite cput_payload_length; fold tot; lia].
      rewrite cput_payload_length. fold tot.
      destruct (Nat.ltb_spec (S n + length l) tot); destruct (Nat.ltb_spec (n + S (length l)) tot); try lia.
      * rewrite cput_cons by lia. replace (S n + length l) with (n + S (length l)) by lia. reflexivity.
      * replace (tot - n) with (S (tot - S n)) by lia. cbn [firstn skipn].
        rewrite cput_cons by (rewrite firstn_length; lia). reflexivity.
Qed.

Definition good_retry (r : context -> pstate * context) : Prop :=
  forall c, cinv wait_sync1 c -> cinv (fst (r c)) (snd (r c)).

Lemma cinv_put s c n data : n + length data <= length (buffer c) ->
  cinv s c -> cinv s (cput c n data).
Proof. intros H [H1 H2]. unfold cinv. rewrite cput_buffer_length by exact H. split; [exact H1|exact H2]. Qed.
Lemma cinv_sync1 s c : cinv s c -> cinv wait_sync1 c.
Proof. intros [H _]. split; [exact H|exact I]. Qed.

Lemma header_done_inv r c : good_retry r -> cinv wait_sync1 c ->
  cinv (fst (header_done r c)) (snd (header_done r c)).
Proof.
  intros Hr [H _]. unfold header_done.
  set (c2 := set_result_header _ _ _ _).
  assert (H2 : cinv wait_sync1 c2) by (split; [exact H|exact I]).
  destruct (negb _).
  - apply Hr. split; [exact H|exact I].
  - destruct (N.ltb_spec (max_payload_length c2) (be_value (slice (buffer c) 6 2))) as [L|L].
    + cbn [fst snd]. split; [exact H|exact I].
    + cbn [fst snd]. split; [exact H|]. cbn [c2 set_result_header payload_length]. split; [lia|exact L].
Qed.
Lemma body_done_inv c : cinv wait_sync1 c -> cinv (fst (body_done c)) (snd (body_done c)).
Proof.
  intros [H _]. unfold body_done. destruct (negb _); cbn [fst snd]; split; try exact H; exact I.
Qed.

Lemma cstep_inv r s c b : good_retry r -> cinv s c ->
  cinv (fst (cstep_with r (s, c) b)) (snd (cstep_with r (s, c) b)).
Proof.
  intros Hr Hi. pose proof (cinv_sync1 _ _ Hi) as H0. destruct Hi as [H H'].
  destruct s as [| |n|n|n]; cbn [cstep_with].
  - destruct (b =? sync1)%N; cbn [fst snd]; [|exact H0].
    apply (cinv_put wait_sync2); [cbn; lia|]. split; [exact H|exact I].
  - destruct (b =? sync2)%N; cbn [fst snd]; [|exact H0].
    apply (cinv_put (wait_header 2)); [cbn; lia|]. split; [exact H|lia].
  - destruct (Nat.eqb_spec (S n) 12).
    + apply header_done_inv; [exact Hr|]. apply (cinv_put wait_sync1); [cbn; lia|exact H0].
    + cbn [fst snd]. apply (cinv_put (wait_header (S n))); [cbn; lia|]. split; [exact H|lia].
  - destruct (Nat.eqb_spec (S n) (12 + N.to_nat (payload_length c) + 4)).
    + apply body_done_inv. apply (cinv_put wait_sync1); [cbn; lia|exact H0].
    + cbn [fst snd]. apply (cinv_put (wait_body (S n))); [cbn; lia|]. split; [exact H|lia].
  - cbn [fst snd]. split; [exact H|exact H'].
Qed.
Lemma crun_inv r : good_retry r -> forall l s c, cinv s c ->
  cinv (fst (fst (crun r (s, c) l))) (snd (fst (crun r (s, c) l))).
Proof.
  intros Hr. induction l as [|b l IH]; intros s c Hi.
  - rewrite crun_nil. exact Hi.
  - cbn [crun]. destruct (is_wait_read (fst (s, c))); [exact Hi|].
    pose proof (cstep_inv r s c b Hr Hi). destruct (cstep_with r (s, c) b) as [s' c'].
    apply IH. assumption.
Qed.
Lemma good_retry0 : good_retry retry0.
Proof. intros c H. exact H. Qed.
Lemma good_retry1 : good_retry retry1.
Proof. intros c H. unfold retry1. apply crun_inv; [exact good_retry0|exact H]. Qed.

(** ** parse_many is crun *)
Definition cond (s : pstate) (i : input) (l : list N) : Prop :=
  match i with
  | Ext _ => True
  | Alias off _ => num_buffered s <= off /\ num_buffered s + length l < 12 /\
                   match s with wait_body _ | wait_read _ => False | _ => True end
  end.

Lemma parse_sync1_spec r : forall n l c i, contents c i l -> n = length l -> cinv wait_sync1 c ->
  cond wait_sync1 i l ->
  exists s' c' i' l2, parse_sync1 n c i = Ok (s', c', i') /\ contents c' i' l2 /\
    crun r (wait_sync1, c) l = crun r (s', c') l2 /\ (l <> [] -> length l2 < length l) /\
    cinv s' c' /\ cond s' i' l2.
Proof.
  induction n as [|n IH]; intros l c i Hc Hn Hi Ha.
  - destruct l; [|discriminate]. exists wait_sync1, c, i, []. cbn [parse_sync1].
    repeat split; try assumption; try (intros X; now destruct X); apply Hi.
  - destruct l as [|b l]; [discriminate|]. cbn [parse_sync1]. rewrite (contents_first _ _ _ _ Hc). cbn [obind].
    pose proof (contents_advance _ _ _ 1 Hc ltac:(cbn [length]; lia)) as Hc1. cbn [skipn] in Hc1.
    cbn [crun fst is_wait_read cstep_with].
    destruct (N.eqb_spec b sync1) as [E|E].
    + assert (HL : 0 + length [b] <= length (buffer c)) by (destruct Hi; cbn [length]; lia).
      unfold buffer_put. rewrite buf_write_fits by exact HL. cbn [obind].
      exists wait_sync2, (cput c 0 [b]), (input_advance i 1), l.
      split; [reflexivity|]. split.
      { apply contents_write; [exact Hc1|exact HL|].
        destruct i as [l'|off len]; cbn [input_advance]; [exact I|].
        destruct Hc as [_ Hc]. assert (len <> 0). { intros ->. cbn in Hc. discriminate. } cbn [length]. lia. }
      split; [reflexivity|]. split; [cbn [length]; lia|]. split.
      { apply (cinv_put wait_sync2); [exact HL|]. destruct Hi. split; [assumption|exact I]. }
      destruct i as [l'|off len]; cbn [input_advance cond]; [exact I|].
      cbn [cond num_buffered length] in *. destruct Hc as [_ Hc]. assert (len <> 0). { intros ->. cbn in Hc. discriminate. } lia.
    + destruct (IH l c (input_advance i 1) Hc1 ltac:(cbn [length] in Hn; lia) Hi) as (s' & c' & i' & l2 & E1 & E2 & E3 & E4 & E5 & E6).
      { destruct i as [l'|off len]; cbn [input_advance cond num_buffered length] in *; [exact I|]. lia. }
      exists s', c', i', l2. split; [exact E1|]. split; [exact E2|]. split; [exact E3|]. split; [|split; assumption].
      intros _. destruct l as [|b' l]; [|specialize (E4 ltac:(discriminate)); cbn [length] in *; lia].
      assert (X : parse_sync1 0 c (input_advance i 1) = Ok (s', c', i')) by (cbn [length] in Hn; assert (Hn0 : n = 0) by lia; rewrite Hn0 in E1; exact E1).
      cbn [parse_sync1] in X. injection X as <- <- <-.
      pose proof (contents_length _ _ _ E2). pose proof (contents_length _ _ _ Hc1). cbn [length] in *. lia.
Qed.

Lemma contents_transfer c i l n k : contents c i l -> k <= length l -> n + k <= length (buffer c) ->
  match i with Ext _ => True | Alias off _ => n <= off end ->
  contents (cput c n (firstn k l)) (input_advance i k) (skipn k l).
Proof.
  intros Hc Hk Hn Ho. apply contents_write.
  - apply contents_advance; assumption.
  - rewrite firstn_length. lia.
  - pose proof (contents_length _ _ _ Hc) as HL.
    destruct i as [l'|off len]; cbn [input_advance input_length] in *; [exact I|]. rewrite firstn_length. lia.
Qed.

Lemma transfer_spec c i l n maxb : contents c i l -> n <= maxb -> maxb <= length (buffer c) ->
  transfer_data n c i maxb =
  Ok (Nat.min (maxb - n) (length l) + n, cput c n (firstn (maxb - n) l), input_advance i (Nat.min (maxb - n) (length l))).
Proof.
  intros Hc Hn Hm. unfold transfer_data. destruct (Nat.ltb_spec maxb n); [lia|].
  rewrite (contents_length _ _ _ Hc), (contents_take _ _ _ _ Hc).
  rewrite firstn_length.
  destruct (Nat.ltb_spec (Nat.min (Nat.min (maxb - n) (length l)) (length l)) (Nat.min (maxb - n) (length l))); [lia|].
  rewrite buf_write_fits by (rewrite firstn_length; lia).
  replace (firstn (Nat.min (maxb - n) (length l)) l) with (firstn (maxb - n) l); [reflexivity|].
  destruct (Nat.le_gt_cases (maxb - n) (length l)).
  - now rewrite Nat.min_l by lia.
  - rewrite Nat.min_r by lia. rewrite !firstn_all2 by lia. reflexivity.
Qed.

Lemma iter_spec r pm s c i l :
  good_retry r ->
  (forall c3, cinv wait_sync1 c3 -> exists i', pm wait_sync1 c3 (Alias 2 10) = Ok (fst (r c3), snd (r c3), i'))
    \/ (match s with wait_header n => n + length l < 12 | _ => True end) ->
  contents c i l -> cinv s c -> cond s i l -> l <> [] -> is_wait_read s = false ->
  exists s' c' i' l2,
    match s with
    | wait_sync1 => parse_sync1 (input_length i) c i
    | wait_sync2 => parse_sync2 c i
    | wait_header n => parse_header pm n c i
    | wait_body n => parse_body n c i
    | wait_read n => Ok (wait_read n, c, i)
    end = Ok (s', c', i') /\ contents c' i' l2 /\
    crun r (s, c) l = crun r (s', c') l2 /\ length l2 < length l /\
    cinv s' c' /\ cond s' i' l2.
Proof.
  intros Hr Hpm Hc Hi Hcond Hl Hs.
  pose proof (contents_length _ _ _ Hc) as HL.
  destruct s as [| |n|n|n]; [| | | |discriminate].
  - destruct (parse_sync1_spec r (input_length i) l c i Hc HL Hi Hcond) as (s' & c' & i' & l2 & H1 & H2 & H3 & H4 & H5 & H6).
    exists s', c', i', l2. repeat (split; [assumption || auto|]). assumption.
  - destruct l as [|b l]; [congruence|]. unfold parse_sync2.
    rewrite (contents_first _ _ _ _ Hc). cbn [obind].
    pose proof (contents_advance _ _ _ 1 Hc ltac:(cbn [length]; lia)) as Hc1. cbn [skipn] in Hc1.
    cbn [crun fst is_wait_read cstep_with].
    destruct (N.eqb_spec b sync2) as [E|E].
    + assert (HL2 : 1 + length [b] <= length (buffer c)) by (destruct Hi; cbn [length]; lia).
      unfold buffer_put. rewrite buf_write_fits by exact HL2. cbn [obind].
      exists (wait_header 2), (cput c 1 [b]), (input_advance i 1), l.
      split; [reflexivity|]. split.
      { apply contents_write; [exact Hc1|exact HL2|].
        destruct i as [l'|off len]; cbn [input_advance]; [exact I|].
        cbn [cond num_buffered input_length length] in *. lia. }
      split; [reflexivity|]. split; [cbn [length]; lia|]. split.
      { apply (cinv_put (wait_header 2)); [exact HL2|]. destruct Hi. split; [assumption|lia]. }
      destruct i as [l'|off len]; cbn [input_advance cond]; [exact I|].
      cbn [cond num_buffered input_length length] in *. lia.
    + exists wait_sync1, c, (input_advance i 1), l. split; [reflexivity|]. split; [exact Hc1|].
      split; [reflexivity|]. split; [cbn [length]; lia|]. split; [apply (cinv_sync1 wait_sync2); exact Hi|].
      destruct i as [l'|off len]; cbn [input_advance cond num_buffered length] in *; [exact I|lia].
  - destruct Hi as [Hb Hn]. assert (H0 : cinv wait_sync1 c) by (split; [exact Hb|exact I]).
    unfold parse_header. rewrite (transfer_spec c i l n) by (try assumption; unfold header_total_size; lia).
    cbn [obind]. change header_total_size with 12.
    rewrite (crun_header r l n c) by lia.
    assert (Hlen : 0 < length l) by (destruct l; [congruence|cbn; lia]).
    destruct (Nat.ltb_spec (n + length l) 12) as [H|H].
    + rewrite Nat.min_r by lia. destruct (Nat.eqb_spec (length l + n) 12); [lia|]. cbn [negb].
      rewrite firstn_all2 by lia.
      exists (wait_header (length l + n)), (cput c n l), (input_advance i (length l)), [].
      split; [reflexivity|]. split.
      { pose proof (contents_transfer c i l n (length l) Hc) as X. rewrite firstn_all, skipn_all in X.
        apply X; [lia|lia|]. destruct i; [exact I|cbn [cond num_buffered] in Hcond; lia]. }
      split. { rewrite crun_nil. do 3 f_equal. lia. }
      split; [cbn; lia|]. split.
      { apply (cinv_put (wait_header _)); [lia|]. split; [exact Hb|lia]. }
      destruct i as [l'|off len]; cbn [input_advance cond num_buffered length input_length] in *; [exact I|lia].
    + rewrite Nat.min_l by lia. destruct (Nat.eqb_spec (12 - n + n) 12); [|lia]. cbn [negb].
      destruct i as [l'|off len]; [|cbn [cond num_buffered] in Hcond; lia].
      cbn [contents] in Hc. subst l'.
      set (c1 := cput c n (firstn (12 - n) l)).
      assert (H1 : cinv wait_sync1 c1).
      { apply (cinv_put wait_sync1); [rewrite firstn_length; lia|exact H0]. }
      unfold header_done.
      set (c2 := set_result_header c1 _ _ _). change header_fields_size with 8.
      set (actual := be_value (slice (buffer c1) 8 4)). set (expected := crc32 (firstn 8 (buffer c2))).
      assert (Hsk : length (skipn (12 - n) l) < length l) by (rewrite skipn_length; lia).
      destruct (negb (expected =? actual)%N).
      * destruct Hpm as [Hpm|Hpm]; [|lia].
        assert (H3 : cinv wait_sync1 (add_report c2 (on_bad_header_crc expected actual))) by exact H1.
        destruct (Hpm _ H3) as [i' E]. rewrite E. cbn [obind]. set (c3 := add_report _ _) in *.
        exists (fst (r c3)), (snd (r c3)), (Ext (skipn (12 - n) l)), (skipn (12 - n) l).
        split; [reflexivity|]. split; [reflexivity|]. split; [destruct (r c3); reflexivity|].
        split; [exact Hsk|]. split; [apply Hr; exact H3|exact I].
      * destruct (N.ltb_spec (max_payload_length c2) (be_value (slice (buffer c1) 6 2))) as [L|L].
        -- exists wait_sync1, (add_report c2 (on_bad_body_length (max_payload_length c2) (be_value (slice (buffer c1) 6 2)))),
             (Ext (skipn (12 - n) l)), (skipn (12 - n) l).
           repeat (split; [reflexivity|]). split; [exact Hsk|]. split; [exact H1|exact I].
        -- exists (wait_body (12 - n + n)), c2, (Ext (skipn (12 - n) l)), (skipn (12 - n) l).
           replace (12 - n + n) with 12 by lia.
           repeat (split; [reflexivity|]). split; [exact Hsk|].
           split; [|exact I]. split; [apply H1|]. cbn [payload_length c2 set_result_header]. split; [lia|exact L].
  - destruct Hi as [Hb [Hn Hp]]. assert (H0 : cinv wait_sync1 c) by (split; [exact Hb|exact I]).
    unfold parse_body. change header_total_size with 12.
    assert (Hlen : 0 < length l) by (destruct l; [congruence|cbn; lia]).
    rewrite (crun_body r l n c) by lia.
    set (tot := 12 + N.to_nat (payload_length c) + 4) in *.
    rewrite (transfer_spec c i l n tot) by (try assumption; unfold tot; lia). cbn [obind].
    destruct i as [l'|off len]; [|cbn [cond] in Hcond; tauto].
    cbn [contents] in Hc. subst l'.
    destruct (Nat.ltb_spec (n + length l) tot) as [H|H].
    + rewrite Nat.min_r by lia. destruct (Nat.eqb_spec (length l + n) tot); [lia|]. cbn [negb].
      rewrite firstn_all2 by lia.
      exists (wait_body (length l + n)), (cput c n l), (Ext (skipn (length l) l)), [].
      split; [reflexivity|]. split; [cbn; apply skipn_all|].
      split. { rewrite crun_nil. do 3 f_equal. lia. }
      split; [cbn; lia|]. split; [|exact I].
      apply (cinv_put (wait_body _)); [unfold tot in *; lia|]. split; [exact Hb|]. unfold tot in *; lia.
    + rewrite Nat.min_l by lia. destruct (Nat.eqb_spec (tot - n + n) tot); [|lia]. cbn [negb].
      set (c1 := cput c n (firstn (tot - n) l)).
      assert (H1 : cinv wait_sync1 c1).
      { apply (cinv_put wait_sync1); [rewrite firstn_length; unfold tot in *; lia|exact H0]. }
      assert (Hsk : length (skipn (tot - n) l) < length l) by (rewrite skipn_length; lia).
      assert (P1 : payload_length c1 = payload_length c) by reflexivity.
      unfold body_done. rewrite P1. fold tot.
      set (c2 := set_result_payload _ _).
      destruct (negb _); cbn [crun]; eexists _, _, _, _; (split; [reflexivity|]); (split; [reflexivity|]).
      * split; [reflexivity|]. split; [exact Hsk|]. split; [exact H1|exact I].
      * replace (tot - n + n) with tot by lia.
        split; [reflexivity|]. split; [exact Hsk|]. split; [split; [apply H1|exact I]|exact I].
Qed.

Lemma parse_many_unfold (f : nat) s c i l : contents c i l ->
  is_not_empty i && negb (is_wait_read s) = match l with [] => false | _ => negb (is_wait_read s) end.
Proof.
  intros Hc. unfold is_not_empty. rewrite (contents_length _ _ _ Hc). destruct l; reflexivity.
Qed.

Lemma parse_many_nested : forall f l s c i r, good_retry r -> contents c i l -> cinv s c -> cond s i l ->
  (match s with wait_sync1 | wait_sync2 | wait_header _ => True | _ => False end) ->
  num_buffered s + length l < 12 -> length l <= f ->
  exists i', parse_many f s c i = Ok (fst (fst (crun r (s, c) l)), snd (fst (crun r (s, c) l)), i') /\
    match fst (fst (crun r (s, c) l)) with wait_sync1 | wait_sync2 | wait_header _ => True | _ => False end /\
    num_buffered (fst (fst (crun r (s, c) l))) <= num_buffered s + length l.
Proof.
  induction f as [|f IH]; intros l s c i r Hr Hc Hi Hcond Hs Hn Hf.
  - destruct l; [|cbn in Hf; lia]. cbn [parse_many]. rewrite (parse_many_unfold 0 _ _ _ _ Hc).
    rewrite crun_nil. cbn [fst snd length]. exists i. repeat split; [exact Hs|lia].
  - cbn [parse_many]. rewrite (parse_many_unfold (S f) _ _ _ _ Hc).
    destruct l as [|b l].
    { rewrite crun_nil. cbn [fst snd length]. exists i. repeat split; [exact Hs|lia]. }
    assert (Hw : is_wait_read s = false) by (destruct s; tauto). rewrite Hw. cbn [negb].
    destruct (iter_spec r (parse_many f) s c i (b :: l) Hr) as (s' & c' & i' & l2 & E1 & E2 & E3 & E4 & E5 & E6); try assumption; try discriminate.
    { right. destruct s; try exact I. exact Hn. }
    rewrite E1. cbn [obind]. rewrite E3.
    assert (Hs' : match s' with wait_sync1 | wait_sync2 | wait_header _ => True | _ => False end /\
                  num_buffered s' + length l2 <= num_buffered s + length (b :: l)).
    { clear IH Hf Hr E3.
      assert (S1 : forall n c i s' c' i', parse_sync1 n c i = Ok (s', c', i') -> (s' = wait_sync1 \/ s' = wait_sync2)).
      { clear. induction n as [|n IH]; intros c i s' c' i'; cbn [parse_sync1].
        - intros [= <- <- <-]; auto.
        - destruct (input_first c i); cbn [obind]; try discriminate.
          destruct (a =? sync1)%N; [|apply IH]. destruct (buffer_put c 0 a); cbn [obind]; try discriminate.
          intros [= <- <- <-]. auto. }
      destruct s as [| |n|n|n]; try tauto.
      - destruct (S1 _ _ _ _ _ _ E1) as [-> | ->]; split; try exact I; cbn [num_buffered] in *; lia.
      - unfold parse_sync2 in E1. rewrite (contents_first _ _ _ _ Hc) in E1. cbn [obind] in E1.
        destruct (b =? sync2)%N.
        + destruct (buffer_put c 1 b); cbn [obind] in E1; try discriminate. injection E1 as <- <- <-.
          split; [exact I|]. cbn [num_buffered length] in *. lia.
        + injection E1 as <- <- <-. split; [exact I|]. cbn [num_buffered length] in *. lia.
      - unfold parse_header in E1. cbn [num_buffered] in *. destruct Hi as [Hb Hi].
        rewrite (transfer_spec c i (b :: l) n) in E1 by (try assumption; unfold header_total_size; lia).
        cbn [obind] in E1. change header_total_size with 12 in E1.
        rewrite Nat.min_r in E1 by lia.
        destruct (Nat.eqb_spec (length (b :: l) + n) 12); [lia|]. cbn [negb] in E1. injection E1 as <- <- <-.
        pose proof (contents_length _ _ _ E2) as X.
        pose proof (contents_length _ _ _ Hc) as Y.
        pose proof (contents_length _ _ _ (contents_advance _ _ _ (length (b :: l)) Hc ltac:(lia))) as Z.
        rewrite skipn_all in Z. cbn [length] in *. split; [exact I|]. cbn [num_buffered]. lia. }
    destruct (IH l2 s' c' i' r Hr E2 E5 E6 ltac:(tauto) ltac:(lia) ltac:(lia)) as (i2 & F1 & F2 & F3).
    exists i2. rewrite F1. split; [reflexivity|]. split; [exact F2|]. lia.
Qed.

Lemma parse_many_ext : forall f l s c, cinv s c -> length l + 11 <= f ->
  exists rest, crun retry1 (s, c) l = (fst (crun retry1 (s, c) l), rest) /\
  parse_many f s c (Ext l) = Ok (fst (fst (crun retry1 (s, c) l)), snd (fst (crun retry1 (s, c) l)), Ext rest).
Proof.
  induction f as [|f IH]; intros l s c Hi Hf; [lia|].
  cbn [parse_many]. rewrite (parse_many_unfold (S f) s c (Ext l) l eq_refl).
  destruct l as [|b l].
  { rewrite crun_nil. exists []. split; reflexivity. }
  destruct (is_wait_read s) eqn:Hw; cbn [negb].
  { rewrite crun_read by exact Hw. exists (b :: l). split; reflexivity. }
  destruct (iter_spec retry1 (parse_many f) s c (Ext (b :: l)) (b :: l) good_retry1) as (s' & c' & i' & l2 & E1 & E2 & E3 & E4 & E5 & E6);
    try assumption; try reflexivity; try discriminate; try exact I.
  { left. intros c3 H3.
    assert (HS : contents c3 (Alias 2 10) (slice (buffer c3) 2 10)).
    { split; [|reflexivity]. destruct H3; lia. }
    pose proof (contents_length _ _ _ HS) as HL. cbn [input_length] in HL.
    destruct (parse_many_nested f (slice (buffer c3) 2 10) wait_sync1 c3 (Alias 2 10) retry0 good_retry0 HS H3) as (i' & X & _);
      [split; [cbn [num_buffered]; lia|split; [cbn [num_buffered]; lia|exact I]]|exact I|cbn [num_buffered]; lia|cbn [length] in Hf; lia|].
    exists i'. exact X. }
  rewrite E1. cbn [obind]. rewrite E3.
  assert (Hin : exists l3, i' = Ext l3).
  { clear - E1. destruct i' as [l3|off len]; [eauto|exfalso].
    assert (S1 : forall n c l s' c' off len, parse_sync1 n c (Ext l) <> Ok (s', c', Alias off len)).
    { clear. induction n as [|n IH]; intros c l s' c' off len; cbn [parse_sync1]; [discriminate|].
      destruct (input_first c (Ext l)); cbn [obind]; try discriminate.
      destruct (a =? sync1)%N; [|apply IH]. destruct (buffer_put c 0 a); cbn [obind]; discriminate. }
    assert (T1 : forall n c l m k c' off len, transfer_data n c (Ext l) m <> Ok (k, c', Alias off len)).
    { clear. intros. unfold transfer_data. destruct (_ <? _); [discriminate|].
      destruct (_ <? _); [discriminate|]. destruct (buf_write _ _ _); discriminate. }
    destruct s as [| |n|n|n].
    - eapply S1; exact E1.
    - unfold parse_sync2 in E1. destruct (input_first _ _); cbn [obind] in E1; try discriminate.
      destruct (_ =? _)%N; [destruct (buffer_put _ _ _)|]; cbn [obind] in E1; discriminate.
    - unfold parse_header in E1. destruct (transfer_data _ _ _ _) as [[[k c1] [l1|o1 n1]]| |] eqn:T; cbn [obind] in E1; try discriminate; [|eapply T1; exact T].
      destruct (negb _); [discriminate|]. destruct (negb _).
      + destruct (parse_many _ _ _ _) as [[[? ?] ?]| |]; cbn [obind] in E1; discriminate.
      + destruct (_ <? _)%N; discriminate.
    - unfold parse_body in E1. destruct (transfer_data _ _ _ _) as [[[k c1] [l1|o1 n1]]| |] eqn:T; cbn [obind] in E1; try discriminate; [|eapply T1; exact T].
      destruct (negb _); [discriminate|]. destruct (negb _); discriminate.
    - discriminate. }
  destruct Hin as [l3 ->]. cbn [contents] in E2. subst l3.
  destruct (IH l2 s' c' E5 ltac:(cbn [length] in *; lia)) as (rest & F1 & F2).
  exists rest. split; [exact F1|exact F2].
Qed.
