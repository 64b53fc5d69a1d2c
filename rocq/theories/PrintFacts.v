(** * PrintFacts: the text is as PrintSpec says, and only one content has a given text *)
From Verif Require Import Base BaseFacts Codec CodecSpec CodecFacts Link LinkLayer Primitives Session Handshake HandshakeSpec HandshakeFacts Icf IcfSpec IcfFacts Print PrintSpec.
From Coq Require Import Ascii String.

(** ** Reading text *)
Definition det {A} (R : A -> text -> Prop) : Prop := forall x y s t r r', R x s -> R y t -> s ++ r = t ++ r' -> x = y /\ s = t.

Lemma split_at (c : N) a b r r' : ~ In c a -> ~ In c b -> a ++ c :: r = b ++ c :: r' -> a = b /\ r = r'.
Proof.
  revert b; induction a as [|x a IH]; intros [|y b] Ha Hb H; cbn [app] in H.
  - injection H as H. auto.
  - injection H as E H. exfalso; apply Hb; left; auto.
  - injection H as E H. exfalso; apply Ha; left; auto.
  - injection H as E H. subst y. destruct (IH b) as [-> ->]; auto; intro; [apply Ha|apply Hb]; right; assumption.
Qed.
Lemma line_det ind m m' s t r r' : line ind m s -> line ind m' t -> ~ In 10%N m -> ~ In 10%N m' -> s ++ r = t ++ r' -> m = m' /\ s = t.
Proof.
  unfold line. intros -> -> Hm Hm' H. rewrite <- !app_assoc in H. apply app_inv_head in H.
  change ([10%N] ++ r) with (10%N :: r) in H. change ([10%N] ++ r') with (10%N :: r') in H. apply split_at in H as [-> _]; auto.
Qed.
Definition plain (m : text) : bool := forallb (fun c => negb (c =? 10)%N) m.
Lemma plain_ok m : plain m = true -> ~ In 10%N m.
Proof. unfold plain. rewrite forallb_forall. intros H I. specialize (H _ I). discriminate. Qed.
Lemma decimal_plain d v : decimal d v -> ~ In 10%N d.
Proof. intros (_ & F & _) I. rewrite Forall_forall in F. specialize (F _ I). cbv beta in F. lia. Qed.
Lemma decimal_value d v w : decimal d v -> decimal d w -> v = w.
Proof. intros (_ & _ & A & _) (_ & _ & B & _). congruence. Qed.
Lemma plain_app a b : ~ In 10%N a -> ~ In 10%N b -> ~ In 10%N (a ++ b).
Proof. intros A B I. apply in_app_or in I. tauto. Qed.

Lemma numbered_det ind pre post s t r r' v w : plain pre = true -> plain post = true ->
  (exists d, decimal d v /\ line ind (pre ++ d ++ post) s) -> (exists d, decimal d w /\ line ind (pre ++ d ++ post) t) -> s ++ r = t ++ r' -> v = w /\ s = t.
Proof.
  intros P Q (d & D & L) (e & E & M) H.
  assert (X : pre ++ d ++ post = pre ++ e ++ post /\ s = t).
  { eapply line_det; eauto; apply plain_app; try (apply plain_ok, P); apply plain_app; try (apply plain_ok, Q); eapply decimal_plain; eauto. }
  destruct X as [X Y]. apply app_inv_head, app_inv_tail in X. subst e. split; [eapply decimal_value; eauto|exact Y].
Qed.
Lemma number_det ind name : plain (str name) = true -> det (shows_number ind name).
Proof.
  intros P v w s t r r' (d & D & L) (e & E & M) H. apply (numbered_det ind (str name ++ str ": ") [] s t r r' v w); auto.
  - unfold plain in *. rewrite forallb_app, P. reflexivity.
  - exists d. split; [exact D|]. rewrite app_nil_r, <- app_assoc. exact L.
  - exists e. split; [exact E|]. rewrite app_nil_r, <- app_assoc. exact M.
Qed.
Lemma word_det {A} ind name (word : A -> string) : plain (str name) = true -> (forall x, plain (str (word x)) = true) ->
  (forall x y, str (word x) = str (word y) -> x = y) -> det (fun x => shows_word ind name (word x)).
Proof.
  intros P Q I x y s t r r' L M H.
  assert (X : str name ++ str ": " ++ str (word x) = str name ++ str ": " ++ str (word y) /\ s = t).
  { eapply line_det; eauto; apply plain_app; try (apply plain_ok, P); apply plain_app; try (apply plain_ok; reflexivity); apply plain_ok, Q. }
  destruct X as [X Y]. apply app_inv_head, app_inv_head, I in X. auto.
Qed.
Lemma seq_det {A B} (P : A -> text -> Prop) (Q : B -> text -> Prop) : det P -> det Q -> det (fun ab => seq (P (fst ab)) (Q (snd ab))).
Proof.
  intros HP HQ [a b] [a' b'] s t r r' (u & v & -> & U & V) (u' & v' & -> & U' & V') H. cbn [fst snd] in *. rewrite <- !app_assoc in H.
  destruct (HP _ _ _ _ _ _ U U' H) as [-> ->]. apply app_inv_head in H. destruct (HQ _ _ _ _ _ _ V V' H) as [-> ->]. auto.
Qed.
(** for definitions that are sequences *)
Lemma seq_det2 (P P' Q Q' : text -> Prop) s t r r' (A B : Prop) : seq P Q s -> seq P' Q' t -> s ++ r = t ++ r' ->
  (forall u u' w w', P u -> P' u' -> u ++ w = u' ++ w' -> A /\ u = u') ->
  (A -> forall u u' w w', Q u -> Q' u' -> u ++ w = u' ++ w' -> B /\ u = u') -> (A /\ B) /\ s = t.
Proof.
  intros (u & v & -> & U & V) (u' & v' & -> & U' & V') H HP HQ. rewrite <- !app_assoc in H.
  destruct (HP _ _ _ _ U U' H) as [X ->]. apply app_inv_head in H. destruct (HQ X _ _ _ _ V V' H) as [Y ->]. auto.
Qed.

Lemma hex_of_det c d e : hex_of c d -> hex_of c e -> d = e.
Proof. unfold hex_of. lia. Qed.
Lemma hex_of_small c d : hex_of c d -> (d < 16)%N.
Proof. unfold hex_of. lia. Qed.
Lemma hex_line_some a s : hex_line a s -> a <> [].
Proof. destruct 1; discriminate. Qed.
Lemma hex_line_det a s : hex_line a s -> forall b t r r', hex_line b t -> List.length a = List.length b -> s ++ r = t ++ r' -> a = b /\ s = t.
Proof.
  induction 1 as [h l ch cl H1 H2|h l ch cl a s H1 H2 H3 IH]; intros b t r r' K L E; inversion K as [h' l' ch' cl' K1 K2|h' l' ch' cl' b' t' K1 K2 K3]; subst; cbn in L, E.
  - injection E as <- <- E. rewrite (hex_of_det _ _ _ H1 K1), (hex_of_det _ _ _ H2 K2). auto.
  - apply hex_line_some in K3. destruct b'; [congruence|discriminate].
  - apply hex_line_some in H3. destruct a; [congruence|discriminate].
  - injection E as <- <- E. destruct (IH b' t' r r' K3 ltac:(lia) E) as [-> ->]. rewrite (hex_of_det _ _ _ H1 K1), (hex_of_det _ _ _ H2 K2). auto.
Qed.
Lemma hex_dump_det ind a s : hex_dump ind a s -> forall b t r r', hex_dump ind b t -> List.length a = List.length b -> s ++ r = t ++ r' -> a = b /\ s = t.
Proof.
  induction 1 as [|a s H L|a s c u H L N D IH]; intros b t r r' K E X; inversion K as [|a' s' H' L'|a' s' c' u' H' L' N' D']; subst; rewrite ?app_length in E; cbn [List.length] in E.
  - auto.
  - apply hex_line_some in H'. destruct b; [congruence|discriminate].
  - apply hex_line_some in H'. destruct a'; [congruence|discriminate].
  - apply hex_line_some in H. destruct a; [congruence|discriminate].
  - rewrite <- !app_assoc in X. apply app_inv_head in X. destruct (hex_line_det _ _ H _ _ _ _ H' E X) as [-> ->]. auto.
  - destruct c'; [congruence|]. cbn [List.length] in E. lia.
  - apply hex_line_some in H. destruct a; [congruence|discriminate].
  - destruct c; [congruence|]. cbn [List.length] in E. lia.
  - rewrite <- !app_assoc in X. apply app_inv_head in X. destruct (hex_line_det _ _ H _ _ _ _ H' ltac:(lia) X) as [-> ->].
    apply app_inv_head, app_inv_head in X. destruct (IH _ _ _ _ D' ltac:(lia) X) as [-> ->]. auto.
Qed.

Lemma bytes_det ind name : plain (str name) = true -> det (shows_bytes ind name).
Proof.
  intros P x y s t r r' HX HY E. unfold shows_bytes in *.
  destruct (seq_det2 _ _ _ _ s t r r' (List.length x = List.length y) (x = y) HX HY E) as [[_ A] B]; auto.
  - intros u u' w w' U U' X. destruct (numbered_det ind (str name ++ str " (length == ") (str ")") u u' w w' (N.of_nat (List.length x)) (N.of_nat (List.length y))) as [A B]; auto.
    + unfold plain in *. rewrite forallb_app, P. reflexivity.
    + destruct U as (d & D & U). exists d. split; [exact D|]. rewrite <- app_assoc. exact U.
    + destruct U' as (d & D & U'). exists d. split; [exact D|]. rewrite <- app_assoc. exact U'.
    + split; [lia|exact B].
  - intros L u u' w w' U U' X. eapply hex_dump_det; eauto.
Qed.

Lemma fields_det ind l : forall i l' s t r r', shows_fields ind i l s -> shows_fields ind i l' t -> List.length l = List.length l' -> s ++ r = t ++ r' -> l = l' /\ s = t.
Proof.
  induction l as [|e l IH]; intros i [|e' l'] s t r r' H H' L E; cbn [List.length] in L; try discriminate; cbn [shows_fields] in H, H'; [subst; auto|].
  destruct (seq_det2 _ _ _ _ s t r r' True (e = e' /\ l = l') H H' E) as [[_ [-> ->]] B]; auto.
  - intros u u' w w' U U' X. split; [exact I|]. destruct (numbered_det ind (str "field #") [] u u' w w' i i) as [_ B]; auto.
    + destruct U as (d & D & U). exists d. rewrite app_nil_r. auto.
    + destruct U' as (d & D & U'). exists d. rewrite app_nil_r. auto.
  - intros _ u u' w w' U U' X. destruct (seq_det2 _ _ _ _ u u' w w' (ex_identifier e = ex_identifier e') (ex_body e = ex_body e' /\ l = l') U U' X) as [[A [B1 B2]] C]; auto.
    + intros. eapply number_det; eauto. reflexivity.
    + intros _ v v' z z' V V' Y. apply (seq_det2 _ _ _ _ v v' z z' (ex_body e = ex_body e') (l = l') V V' Y); [intros; eapply bytes_det; eauto; reflexivity|].
      intros _ p p' q q' Z Z' W. eapply IH; eauto.
    + split; [|exact C]. split; [|exact B2]. destruct e, e'; cbn in *; congruence.
Qed.

Lemma key_word_str x y : str (key_word x) = str (key_word y) -> x = y.
Proof. destruct x, y; cbn; congruence. Qed.
Lemma entry_word_str x y : str (entry_word x) = str (entry_word y) -> x = y.
Proof. destruct x, y; vm_compute; congruence. Qed.

Lemma body_det ind : det (shows_body ind).
Proof.
  intros x y s t r r' HX HY E. unfold shows_body in *.
  assert (Y : (cb_valid_after x = cb_valid_after y /\ cb_valid_before x = cb_valid_before y /\ cb_signing_level x = cb_signing_level y /\ cb_key_type x = cb_key_type y /\ cb_public_key x = cb_public_key y /\ List.length (cb_extensions x) = List.length (cb_extensions y) /\ cb_extensions x = cb_extensions y) /\ s = t).
  { apply (seq_det2 _ _ _ _ s t r r' _ _ HX HY E); [intros; eapply number_det; eauto; reflexivity|]. intros _ s1 t1 r1 r1' H1 H1' E1.
    apply (seq_det2 _ _ _ _ _ _ _ _ _ _ H1 H1' E1); [intros; eapply number_det; eauto; reflexivity|]. intros _ s2 t2 r2 r2' H2 H2' E2.
    apply (seq_det2 _ _ _ _ _ _ _ _ _ _ H2 H2' E2); [intros; eapply number_det; eauto; reflexivity|]. intros _ s3 t3 r3 r3' H3 H3' E3.
    apply (seq_det2 _ _ _ _ _ _ _ _ _ _ H3 H3' E3).
    { intros u u' w w' U U' X. eapply (word_det ind "public_key_type" key_word eq_refl (fun k => match k with pk_Ed25519 => eq_refl | pk_X25519 => eq_refl end) key_word_str); eauto. }
    intros _ s4 t4 r4 r4' H4 H4' E4.
    apply (seq_det2 _ _ _ _ _ _ _ _ _ _ H4 H4' E4); [intros; eapply bytes_det; eauto; reflexivity|]. intros _ s5 t5 r5 r5' H5 H5' E5.
    apply (seq_det2 _ _ _ _ _ _ _ _ _ _ H5 H5' E5).
    { intros u u' w w' (d & D & U) (d' & D' & U') X.
      destruct (numbered_det ind (str "extensions" ++ str " (count = ") (str ")") u u' w w' (N.of_nat (List.length (cb_extensions x))) (N.of_nat (List.length (cb_extensions y)))) as [A B]; auto.
      - exists d. rewrite <- app_assoc. auto.
      - exists d'. rewrite <- app_assoc. auto.
      - split; [lia|exact B]. }
    intros L s6 t6 r6 r6' H6 H6' E6. eapply fields_det; eauto. }
  destruct Y as [(A & B & C & D & F & _ & G) Y]. split; [|exact Y]. destruct x, y; cbn in *; congruence.
Qed.

Lemma certificates_det l : forall i l' s t, shows_certificates i l s -> shows_certificates i l' t -> s ++ [10%N] = t ++ [10%N] -> l = l'.
Proof.
  assert (Z : forall i e b l s, shows_certificates i ((e, b) :: l) s -> exists c u, s = 10%N :: c :: u).
  { intros i e b l0 s (a & u & -> & A & (a' & u' & -> & (d & D & A') & _)). unfold line in A, A'. subst. cbn. eauto. }
  induction l as [|[e b] l IH]; intros i [|[e' b'] l'] s t H H' E; auto.
  - apply Z in H' as (c & u & ->). cbn in H. subst s. discriminate.
  - apply Z in H as (c & u & ->). cbn in H'. subst t. discriminate.
  - cbn [shows_certificates] in H, H'.
    assert (L : forall u u' w w', line 0 [] u -> line 0 [] u' -> u ++ w = u' ++ w' -> True /\ u = u') by (intros u u' w w' -> -> _; auto).
    destruct H as (a1 & s1 & -> & A1 & H), H' as (a1' & s1' & -> & A1' & H'). rewrite <- !app_assoc in E. destruct (L _ _ _ _ A1 A1' E) as [_ ->]. apply app_inv_head in E.
    destruct H as (a2 & s2 & -> & A2 & H), H' as (a2' & s2' & -> & A2' & H'). rewrite <- !app_assoc in E.
    destruct (numbered_det 0 (str "certificate #") [] a2 a2' _ _ i i eq_refl eq_refl ltac:(destruct A2 as (d & D & X); exists d; rewrite app_nil_r; auto) ltac:(destruct A2' as (d & D & X); exists d; rewrite app_nil_r; auto) E) as [_ ->]. apply app_inv_head in E.
    destruct H as (a3 & s3 & -> & A3 & H), H' as (a3' & s3' & -> & A3' & H'). rewrite <- !app_assoc in E. destruct (bytes_det _ "signature" eq_refl _ _ _ _ _ _ A3 A3' E) as [X1 ->]. apply app_inv_head in E.
    destruct H as (a4 & s4 & -> & A4 & H), H' as (a4' & s4' & -> & A4' & H'). rewrite <- !app_assoc in E. destruct (bytes_det _ "certificate_body" eq_refl _ _ _ _ _ _ A4 A4' E) as [X2 ->]. apply app_inv_head in E.
    destruct H as (a5 & s5 & -> & A5 & H), H' as (a5' & s5' & -> & A5' & H'). rewrite <- !app_assoc in E. destruct (body_det _ _ _ _ _ _ _ A5 A5' E) as [-> ->]. apply app_inv_head in E.
    rewrite (IH _ _ _ _ H H' E). destruct e, e'; cbn in *; congruence.
Qed.

(** Only one content has a given text *)
Lemma shows_determines name c c' t : (forall k x, c = Key k x -> k <> ce_certificate_chain) -> (forall k x, c' = Key k x -> k <> ce_certificate_chain) ->
  shows name c t -> shows name c' t -> c = c'.
Proof.
  intros N N' H H'.
  assert (T : forall k k' (P P' : text -> Prop), (line 0 (str "File: " ++ name) ;; line 0 (str "Type: " ++ str (entry_word k)) ;; P) t ->
    (line 0 (str "File: " ++ name) ;; line 0 (str "Type: " ++ str (entry_word k')) ;; P') t -> k = k' /\ exists u, P u /\ P' u).
  { intros k k' P P' (a & u & -> & A & a1 & u1 & -> & A1 & U) (a' & u' & E & A' & a1' & u1' & -> & A1' & U').
    unfold line in A, A'. subst a a'. apply app_inv_head in E.
    assert (X : str "Type: " ++ str (entry_word k) = str "Type: " ++ str (entry_word k') /\ a1 = a1').
    { eapply line_det; [exact A1|exact A1'| | |exact E]; apply plain_ok; [destruct k|destruct k']; reflexivity. }
    destruct X as [X ->]. apply app_inv_head in X, E. apply entry_word_str in X. subst. eauto. }
  destruct c as [k x|l], c' as [k' x'|l']; cbn [shows] in H, H'.
  - destruct (T _ _ _ _ H H') as (-> & u & (a & z & -> & A & Z) & (a' & z' & E & A' & Z')). destruct (bytes_det _ "key-data" eq_refl _ _ _ _ _ _ A A' E) as [-> _]. reflexivity.
  - destruct (T _ _ _ _ H H') as (-> & _). destruct (N _ _ eq_refl eq_refl).
  - destruct (T _ _ _ _ H H') as (E & _). destruct (N' _ _ eq_refl (eq_sym E)).
  - destruct (T _ _ _ _ H H') as (_ & u & (a & z & -> & A & Z) & (a' & z' & E & A' & Z')). unfold line in Z, Z'. cbn in Z, Z'. subst z z'. rewrite (certificates_det _ _ _ _ _ A A' E). reflexivity.
Qed.

(** ** The printed text is as specified *)
Lemma dec_digits_ok fuel : forall v, (v < 2 ^ N.of_nat fuel)%N -> (0 < fuel) ->
  let t := dec_digits fuel v in
  t <> [] /\ Forall (fun c => (48 <= c <= 57)%N) t /\ (forall a, (fold_left (fun a c => 10 * a + (c - 48)) t a = a * 10 ^ N.of_nat (List.length t) + v)%N) /\ (hd 0%N t = 48%N -> v = 0%N).
Proof.
  induction fuel as [|f IH]; intros v Hv Hf; [lia|]. cbn [dec_digits]. destruct (N.ltb_spec v 10) as [L|L].
  - cbv zeta. split; [discriminate|]. split; [repeat constructor; lia|]. split; [|cbn [hd]; lia].
    intros a. cbn [fold_left List.length]. change (N.of_nat 1) with 1%N. rewrite N.pow_1_r. lia.
  - assert (F : 0 < f) by (destruct f; [cbn in Hv; lia|lia]).
    assert (Q : (v / 10 < 2 ^ N.of_nat f)%N).
    { apply N.div_lt_upper_bound; [lia|]. rewrite Nat2N.inj_succ, N.pow_succ_r' in Hv. lia. }
    destruct (IH _ Q F) as (A & B & C & D). cbv zeta. set (t := dec_digits f (v / 10)) in *. pose proof (N.mod_lt v 10 ltac:(lia)) as M. pose proof (N.div_mod v 10 ltac:(lia)) as DM.
    split; [destruct t; discriminate|]. split; [apply Forall_app; split; [exact B|repeat constructor; lia]|]. split.
    + intros a. rewrite fold_left_app, C. cbn [fold_left]. rewrite app_length. cbn [List.length]. replace (N.of_nat (List.length t + 1)) with (N.succ (N.of_nat (List.length t))) by lia. rewrite N.pow_succ_r'. lia.
    + destruct t as [|c t]; [congruence|]. cbn [hd app]. intros E. specialize (D E). lia.
Qed.
Lemma dec_ok v : decimal (dec v) v.
Proof.
  assert (V : (v < 2 ^ N.of_nat (S (N.to_nat (N.log2 v))))%N).
  { rewrite Nat2N.inj_succ, N2Nat.id. destruct (N.eq_dec v 0) as [->|]; [reflexivity|]. apply N.log2_spec. lia. }
  destruct (dec_digits_ok _ v V ltac:(lia)) as (A & B & C & D). split; [exact A|]. split; [exact B|]. split; [apply (C 0%N)|].
  intros H. specialize (D H). subst v. reflexivity.
Qed.

Lemma hex_digit_ok d : (d < 16)%N -> hex_of (hex_digit d) d.
Proof. unfold hex_of, hex_digit. destruct (N.ltb_spec d 10); lia. Qed.
Lemma hex_bytes_ok l : bytes_ok l -> l <> [] -> hex_line l (hex_bytes l).
Proof.
  induction l as [|b l IH]; [congruence|]. intros B _. inversion B as [|? ? B1 B2]; subst. unfold byte_ok in B1.
  assert (H : (b / 16 < 16)%N) by (apply N.div_lt_upper_bound; lia). pose proof (N.mod_lt b 16 ltac:(lia)) as M. pose proof (N.div_mod b 16 ltac:(lia)) as DM.
  destruct l as [|c l].
  - cbn [hex_bytes]. rewrite DM at 1. constructor; apply hex_digit_ok; assumption.
  - change (hex_bytes (b :: c :: l)) with (hex_digit (b / 16) :: hex_digit (b mod 16) :: 58%N :: hex_bytes (c :: l)). rewrite DM at 1. constructor; [apply hex_digit_ok; assumption|apply hex_digit_ok; assumption|]. apply IH; [exact B2|discriminate].
Qed.
Lemma hex_lines_ok ind fuel : forall l, bytes_ok l -> List.length l <= fuel -> hex_dump ind l (hex_lines fuel ind l).
Proof.
  induction fuel as [|f IH]; intros [|b l] B L; cbn [List.length] in L; try (cbn [hex_lines]; constructor); [lia|].
  set (x := b :: l) in *. assert (X : x <> []) by discriminate. assert (LX : List.length x <= S f) by (subst x; cbn; lia).
  replace (hex_lines (S f) ind x) with (line_prefix ind ++ hex_bytes (firstn 16 x) ++ newline ++ hex_lines f ind (skipn 16 x)) by reflexivity.
  unfold line_prefix, newline. destruct (Nat.le_gt_cases (List.length x) 16) as [S|S].
  - rewrite firstn_all2, skipn_all2 by exact S. replace (hex_lines f ind []) with (@nil N) by (destruct f; reflexivity). rewrite app_nil_r. constructor; [apply hex_bytes_ok; assumption|exact S].
  - pose proof (firstn_length_le x (n := 16) ltac:(lia)) as FL. rewrite <- (firstn_skipn 16 x) at 1. constructor.
    + apply hex_bytes_ok; [apply bytes_ok_firstn, B|]. intros E. rewrite E in FL. discriminate.
    + exact FL.
    + intros E. apply (f_equal (@List.length N)) in E. rewrite skipn_length in E. cbn [List.length] in E. lia.
    + apply IH; [apply bytes_ok_skipn, B|]. rewrite skipn_length. lia.
Qed.

Lemma console_app ind a b : console ind (a ++ b) = console ind a ++ console ind b.
Proof. unfold console. rewrite map_app, concat_app. reflexivity. Qed.
Lemma console_cons ind i l : console ind (i :: l) = console_item ind i ++ console ind l.
Proof. reflexivity. Qed.
Lemma seq_intro (P Q : text -> Prop) a b : P a -> Q b -> seq P Q (a ++ b).
Proof. intros A B. exists a, b. auto. Qed.
Lemma number_ok ind name v : shows_number ind name v (console_item ind (Number name v)).
Proof. exists (dec v). split; [apply dec_ok|]. unfold line, console_item, line_prefix, newline. rewrite <- !app_assoc. reflexivity. Qed.
Lemma word_ok ind name w : shows_word ind name w (console_item ind (Word name w)).
Proof. unfold shows_word, line, console_item, line_prefix, newline. rewrite <- !app_assoc. reflexivity. Qed.
Lemma bytes_item_ok ind name d : bytes_ok d -> shows_bytes ind name d (console_item ind (Bytes name d)).
Proof.
  intros B. unfold shows_bytes, console_item.
  replace (line_prefix ind ++ str name ++ str " (length == " ++ dec (N.of_nat (List.length d)) ++ str ")" ++ newline ++ hex_lines (List.length d) (ind + 2) d)
    with ((repeat 32%N ind ++ (str name ++ str " (length == " ++ dec (N.of_nat (List.length d)) ++ str ")") ++ [10%N]) ++ hex_lines (List.length d) (ind + 2) d)
    by (unfold line_prefix, newline; rewrite <- !app_assoc; reflexivity).
  apply seq_intro; [|apply hex_lines_ok; [exact B|lia]]. exists (dec (N.of_nat (List.length d))). split; [apply dec_ok|reflexivity].
Qed.
Lemma fields_ok ind l : forall i, Forall extension_ok l -> shows_fields ind i l (console ind (fields_items extension_items i l)).
Proof.
  induction l as [|e l IH]; intros i H; [reflexivity|]. inversion H as [|? ? H1 H2]; subst. cbn [fields_items shows_fields]. rewrite console_cons. apply seq_intro.
  - exists (dec i). split; [apply dec_ok|]. reflexivity.
  - rewrite console_app. unfold extension_items. rewrite !console_cons. change (console ind []) with (@nil N). rewrite app_nil_r, <- app_assoc.
    apply seq_intro; [apply number_ok|]. apply seq_intro; [apply bytes_item_ok, H1|apply IH, H2].
Qed.
Lemma key_word_ok k : key_type_name k = key_word k.
Proof. destruct k; reflexivity. Qed.
Lemma entry_word_ok k : entry_name k = entry_word k.
Proof. destruct k; reflexivity. Qed.
Lemma shows_body_ok ind b : body_ok b -> shows_body ind b (console ind (body_items b)).
Proof.
  intros (_ & _ & _ & K & X & _). unfold body_items, structs_items, shows_body. rewrite console_app, !console_cons. change (console ind []) with (@nil N). rewrite app_nil_r, <- !app_assoc.
  do 3 (apply seq_intro; [apply number_ok|]). apply seq_intro; [exact (word_ok ind "public_key_type" (key_word (cb_key_type b)))|]. apply seq_intro; [apply bytes_item_ok, K|]. apply seq_intro; [|apply fields_ok, X].
  exists (dec (N.of_nat (List.length (cb_extensions b)))). split; [apply dec_ok|reflexivity].
Qed.

(** What [print_certificates] does *)
Lemma certificates_ok l : forall ind i, (ind + 2 = 2 * N.to_nat i) -> Forall is_certificate l ->
  exists t, print_certificates ind i (map fst l) = (t, true) /\ shows_certificates i l t.
Proof.
  induction l as [|[e b] l IH]; intros ind i Hi H; [exists []; split; reflexivity|]. inversion H as [|? ? (H1 & H2 & H3) H4]; subst. cbn [fst snd] in *.
  destruct (IH (ind + 2) (i + 1)%N ltac:(lia) H4) as (t & E & S). cbn [map fst print_certificates]. rewrite H3, (read_wire_body b H2), E. eexists. split; [reflexivity|].
  cbn [shows_certificates]. rewrite <- Hi. replace (ind + 2 + 2 + 2) with (ind + 2 + 4) by lia.
  replace ((newline ++ str "certificate #" ++ dec i ++ newline ++ console (ind + 2) (envelope_items e)) ++ console (ind + 2 + 4) (body_items b) ++ t)
    with (newline ++ (str "certificate #" ++ dec i ++ newline) ++ console_item (ind + 2) (Bytes "signature" (env_signature e)) ++ console_item (ind + 2) (Bytes "certificate_body" (env_body e)) ++ console (ind + 2 + 4) (body_items b) ++ t).
  2: { unfold envelope_items. rewrite !console_cons. change (console (ind + 2) []) with (@nil N). rewrite app_nil_r, <- !app_assoc. reflexivity. }
  apply seq_intro; [reflexivity|]. apply seq_intro; [exists (dec i); split; [apply dec_ok|unfold line, newline; rewrite <- app_assoc; reflexivity]|].
  apply seq_intro; [apply bytes_item_ok, H1|]. apply seq_intro; [apply bytes_item_ok, H1|]. apply seq_intro; [apply shows_body_ok, H2|exact S].
Qed.
Lemma certificates_only chain : forall ind i t, Forall envelope_ok chain -> print_certificates ind i chain = (t, true) -> exists l, map fst l = chain /\ Forall is_certificate l.
Proof.
  induction chain as [|e chain IH]; intros ind i t F H; [exists []; auto|]. inversion F as [|? ? F1 F2]; subst. cbn [print_certificates] in H.
  destruct (read_all body_read (env_body e)) as [b|] eqn:R; [|discriminate]. destruct (print_certificates (ind + 2) (i + 1) chain) as [u ok] eqn:E. injection H as _ ->.
  destruct (IH _ _ _ F2 E) as (l & M & C). apply (read_all_iff _ _ _ rlaw_body) in R as [B W]; [|apply F1]. exists ((e, b) :: l). split; [cbn; congruence|]. constructor; [split; [exact F1|split; [exact B|exact W]]|exact C].
Qed.
Lemma print_certificates_ok chain : forall ind i, snd (print_certificates ind i chain) = forallb (fun e => match read_all body_read (env_body e) with inl _ => true | inr _ => false end) chain.
Proof.
  induction chain as [|e chain IH]; intros ind i; [reflexivity|]. cbn [print_certificates forallb]. destruct (read_all body_read (env_body e)); [|reflexivity].
  specialize (IH (ind + 2) (i + 1)%N). destruct (print_certificates (ind + 2) (i + 1) chain). exact IH.
Qed.
(** It finishes exactly when the model of Icf says so *)
Lemma display_finishes f name p : snd (display f name p) = print_contents f p.
Proof.
  unfold display, print_contents. destruct (read_container f p) as [c|]; [|reflexivity]. destruct (entry_eqb (cf_type c) ce_certificate_chain); [|reflexivity].
  unfold print_certificate_chain. destruct (read_all chain_read (cf_payload c)) as [chain|]; [|reflexivity]. rewrite <- (print_certificates_ok chain 0 1). destruct (print_certificates 0 1 chain). reflexivity.
Qed.

Lemma entry_eqb_iff a b : entry_eqb a b = true <-> a = b.
Proof. unfold entry_eqb. destruct a, b; cbn; split; congruence. Qed.

Lemma display_shows f name p d c : files_ok f -> readable f p d -> holds d c -> exists t, display f name p = (t, true) /\ shows name c t.
Proof.
  intros F R H. assert (BD : bytes_ok d) by (eapply F; apply R). destruct c as [k x|l]; cbn [holds] in H.
  - destruct H as [NK ->]. assert (BX : bytes_ok x).
    { unfold file_of, wire_container, wire_seq in BD. cbn [cf_type cf_payload] in BD. apply bytes_ok_app in BD as [_ BD]. apply bytes_ok_app in BD as [_ BD]. exact BD. }
    pose proof (readable_seq _ _ _ _ R BX) as Q. unfold display. rewrite (proj2 (read_container_iff f p {| cf_type := k; cf_payload := x |} F) (conj Q R)). cbn [cf_type cf_payload].
    destruct (entry_eqb k ce_certificate_chain) eqn:E; [apply entry_eqb_iff in E; congruence|]. eexists. split; [reflexivity|]. cbn [shows]. change (entry_name k) with (entry_word k).
    replace ((str "File: " ++ name ++ newline ++ str "Type: " ++ str (entry_word k) ++ newline) ++ console 2 [Bytes "key-data" x] ++ newline)
      with ((str "File: " ++ name ++ newline) ++ (str "Type: " ++ str (entry_word k) ++ newline) ++ console_item 2 (Bytes "key-data" x) ++ newline)
      by (rewrite console_cons; change (console 2 []) with (@nil N); rewrite app_nil_r, <- !app_assoc; reflexivity).
    apply seq_intro; [unfold line, newline; rewrite <- app_assoc; reflexivity|]. apply seq_intro; [unfold line, newline; rewrite <- app_assoc; reflexivity|]. apply seq_intro; [apply bytes_item_ok, BX|reflexivity].
  - destruct H as (HC & L & ->). assert (CO : chain_ok (map fst l)).
    { split; [|rewrite map_length; exact L]. clear -HC. induction HC as [|[e b] l H _ IH]; constructor; [apply H|exact IH]. }
    pose proof (wire_chain_bytes _ CO) as BX. unfold chain_file in *. pose proof (readable_seq _ _ _ _ R BX) as Q. unfold display.
    rewrite (proj2 (read_container_iff f p {| cf_type := ce_certificate_chain; cf_payload := wire_chain (map fst l) |} F) (conj Q R)). cbn [cf_type cf_payload].
    change (entry_eqb ce_certificate_chain ce_certificate_chain) with true. cbn iota. rewrite (read_wire_chain _ CO).
    destruct (certificates_ok l 0 1%N eq_refl HC) as (t & E & S). rewrite E. eexists. split; [reflexivity|]. cbn [shows]. change (entry_name ce_certificate_chain) with (entry_word ce_certificate_chain).
    replace ((str "File: " ++ name ++ newline ++ str "Type: " ++ str (entry_word ce_certificate_chain) ++ newline) ++ t ++ newline)
      with ((str "File: " ++ name ++ newline) ++ (str "Type: " ++ str (entry_word ce_certificate_chain) ++ newline) ++ t ++ newline) by (rewrite <- !app_assoc; reflexivity).
    apply seq_intro; [unfold line, newline; rewrite <- app_assoc; reflexivity|]. apply seq_intro; [unfold line, newline; rewrite <- app_assoc; reflexivity|]. apply seq_intro; [exact S|reflexivity].
Qed.
Lemma display_only f name p t : files_ok f -> display f name p = (t, true) -> exists d c, readable f p d /\ holds d c.
Proof.
  intros F H. unfold display in H. destruct (read_container f p) as [c|] eqn:R; [|discriminate]. apply read_container_iff in R as [Q R]; [|exact F].
  destruct c as [k x]. cbn [cf_type cf_payload] in *. unfold container_ok in Q. cbn [cf_payload] in Q. exists (file_of k x). destruct (entry_eqb k ce_certificate_chain) eqn:E.
  - apply entry_eqb_iff in E. subst k. destruct (read_all chain_read x) as [chain|] eqn:X; [|discriminate]. apply (read_all_iff _ _ _ rlaw_chain) in X as [CO ->]; [|apply Q].
    destruct (print_certificates 0 1 chain) as [u ok] eqn:P. injection H as _ ->. destruct (certificates_only chain 0 1%N u (proj1 CO) P) as (l & <- & HC). exists (Certificates l). split; [exact R|].
    split; [exact HC|]. split; [|reflexivity]. destruct CO as [_ CO]. rewrite map_length in CO. exact CO.
  - exists (Key k x). split; [exact R|]. split; [|reflexivity]. intros ->. discriminate.
Qed.
