(** * ProgramFacts: the command line of the certificate tool *)
From Verif Require Import Base BaseFacts Codec CodecSpec CodecFacts Link LinkLayer Primitives Session Handshake HandshakeSpec HandshakeFacts Icf IcfSpec IcfFacts Print PrintSpec PrintFacts Program ProgramSpec.
From Coq Require Import Ascii String.
Local Notation length := List.length.

(** ** Reading numbers *)
Lemma is_space_iff c : is_space c = true <-> space c.
Proof. unfold is_space, space. rewrite orb_true_iff, andb_true_iff, !N.leb_le, N.eqb_eq. tauto. Qed.
Lemma is_digit_iff c : is_digit c = true <-> digit c.
Proof. unfold is_digit, digit. rewrite andb_true_iff, !N.leb_le. tauto. Qed.
Lemma digit_not_space c : digit c -> ~ space c.
Proof. unfold digit, space. lia. Qed.
Lemma digit_not_sign c : digit c -> ((c =? 43) || (c =? 45))%N = false /\ (c =? 45)%N = false.
Proof. unfold digit. intros H. split; [apply orb_false_iff; split|]; apply N.eqb_neq; lia. Qed.
Lemma skip_blanks b t : Forall space b -> skip_space (b ++ t) = skip_space t.
Proof. induction 1 as [|c b Hc _ IH]; [reflexivity|]. cbn. apply is_space_iff in Hc. rewrite Hc. exact IH. Qed.
Lemma skip_all b : Forall space b -> skip_space b = [].
Proof. intros H. rewrite <- (app_nil_r b), skip_blanks by exact H. reflexivity. Qed.
Lemma skip_stop c r : ~ space c -> skip_space (c :: r) = c :: r.
Proof. intros H. cbn. destruct (is_space c) eqn:E; [|reflexivity]. apply is_space_iff in E. tauto. Qed.
Lemma take_digits_app t : forall acc n rest, Forall digit t -> ~ (exists c r, rest = c :: r /\ digit c) ->
  take_digits acc n (t ++ rest) = (fold_left (fun a c => 10 * a + (c - 48))%N t acc, n + length t, rest).
Proof.
  induction t as [|c t IH]; intros acc n rest H N.
  - rewrite Nat.add_0_r. cbn [app fold_left]. destruct rest as [|c r]; [reflexivity|]. cbn. destruct (is_digit c) eqn:E; [|reflexivity].
    apply is_digit_iff in E. exfalso. eauto.
  - inversion H as [|? ? Hc Ht]; subst. cbn [app take_digits fold_left length]. apply is_digit_iff in Hc. rewrite Hc, IH by assumption. f_equal. f_equal. lia.
Qed.
Lemma extract_entered max x typed v rest : entered typed v rest ->
  extract max x (typing typed) = if (max <? v)%N then (max, {| in_text := rest; in_failed := true |}) else (v, typing rest).
Proof.
  intros (b & t & -> & B & (T & D & V) & R). unfold extract, typing. cbn [in_failed in_text]. rewrite skip_blanks by exact B.
  destruct t as [|c t]; [congruence|]. inversion D as [|? ? Hc Ht]; subst. rewrite <- app_comm_cons. rewrite skip_stop by (apply digit_not_space; exact Hc).
  destruct (digit_not_sign c Hc) as [-> ->]. rewrite app_comm_cons, take_digits_app by assumption. cbn [length Nat.add Nat.eqb].
  destruct (N.ltb max _); reflexivity.
Qed.
Lemma entered_shorter typed v rest : entered typed v rest -> length rest < length typed.
Proof. intros (b & t & -> & _ & (T & _) & _). rewrite !app_length. destruct t; [congruence|cbn; lia]. Qed.
Lemma extract_end max x typed : at_end typed -> extract max x (typing typed) = (x, {| in_text := []; in_failed := true |}).
Proof. intros H. unfold extract, typing. cbn [in_failed in_text]. rewrite skip_all by exact H. reflexivity. Qed.
Lemma extract_word max x typed : not_a_number typed -> exists i, extract max x (typing typed) = (0%N, i) /\ in_failed i = true.
Proof.
  intros (b & c & r & -> & B & S & D & P & M). unfold extract, typing. cbn [in_failed in_text]. rewrite skip_blanks, skip_stop by assumption.
  replace ((c =? 43) || (c =? 45))%N with false by (symmetry; apply orb_false_iff; split; apply N.eqb_neq; assumption).
  cbn [take_digits]. destruct (is_digit c) eqn:E; [apply is_digit_iff in E; tauto|]. cbn. eauto.
Qed.
Lemma level_loop_entered fuel : forall typed l x, level_entered typed l -> length typed < fuel -> (6 < x)%N -> option_map fst (level_loop fuel x (typing typed)) = Some l.
Proof.
  induction fuel as [|fuel IH]; intros typed l x H F X; [lia|]. cbn [level_loop]. destruct H as [rest E L|v rest E V H].
  - rewrite (extract_entered _ _ _ _ _ E). replace (4294967295 <? l)%N with false by (symmetry; apply N.ltb_ge; lia). replace (l <=? 6)%N with true by (symmetry; apply N.leb_le; lia). reflexivity.
  - rewrite (extract_entered _ _ _ _ _ E). change (2 ^ 32)%N with 4294967296%N in V. replace (4294967295 <? v)%N with false by (symmetry; apply N.ltb_ge; lia).
    replace (v <=? 6)%N with false by (symmetry; apply N.leb_gt; lia). cbn [in_failed typing]. apply IH; [exact H|apply entered_shorter in E; lia|lia].
Qed.
Lemma ask_level_entered typed l : level_entered typed l -> option_map fst (ask_level (typing typed)) = Some l.
Proof. intros H. unfold ask_level. apply level_loop_entered; [exact H|cbn; lia|reflexivity]. Qed.
Lemma level_loop_unanswered fuel : forall typed x, unanswered typed -> (6 < x)%N -> level_loop fuel x (typing typed) = None.
Proof.
  induction fuel as [|fuel IH]; intros typed x H X; [reflexivity|]. cbn [level_loop]. destruct H as [E|v rest E V|v rest E V H].
  - rewrite extract_end by exact E. replace (x <=? 6)%N with false by (symmetry; apply N.leb_gt; lia). reflexivity.
  - rewrite (extract_entered _ _ _ _ _ E). change (2 ^ 32)%N with 4294967296%N in V. replace (4294967295 <? v)%N with true by (symmetry; apply N.ltb_lt; lia). reflexivity.
  - rewrite (extract_entered _ _ _ _ _ E). change (2 ^ 32)%N with 4294967296%N in V. replace (4294967295 <? v)%N with false by (symmetry; apply N.ltb_ge; lia).
    replace (v <=? 6)%N with false by (symmetry; apply N.leb_gt; lia). cbn [in_failed typing]. apply IH; [exact H|lia].
Qed.
Lemma ask_level_failed i : in_failed i = true -> ask_level i = None.
Proof. intros H. unfold ask_level. cbn [level_loop]. unfold extract. rewrite H. cbn. rewrite H. reflexivity. Qed.
Lemma ask_level_word typed : not_a_number typed -> option_map fst (ask_level (typing typed)) = Some 0%N.
Proof. intros H. unfold ask_level. cbn [level_loop]. destruct (extract_word 4294967295 256 typed H) as (i & -> & _). reflexivity. Qed.

(** The next thing typed is a number, or not a number, or nothing, unless there is a sign *)
Lemma leading_blanks t : exists b r, t = b ++ r /\ Forall space b /\ (r = [] \/ exists c s, r = c :: s /\ ~ space c).
Proof.
  induction t as [|c t (b & r & -> & B & R)]; [exists [], []; auto|]. destruct (is_space c) eqn:E.
  - exists (c :: b), r. split; [reflexivity|]. split; [constructor; [apply is_space_iff; exact E|exact B]|exact R].
  - exists [], (c :: b ++ r). split; [reflexivity|]. split; [constructor|]. right. exists c, (b ++ r). split; [reflexivity|]. intros H. apply is_space_iff in H. congruence.
Qed.
Lemma leading_digits t : exists d r, t = d ++ r /\ Forall digit d /\ ~ (exists c s, r = c :: s /\ digit c).
Proof.
  induction t as [|c t (d & r & -> & D & R)]; [exists [], []; split; [reflexivity|]; split; [constructor|intros (? & ? & ? & _); discriminate]|]. destruct (is_digit c) eqn:E.
  - exists (c :: d), r. split; [reflexivity|]. split; [constructor; [apply is_digit_iff; exact E|exact D]|exact R].
  - exists [], (c :: d ++ r). split; [reflexivity|]. split; [constructor|]. intros (x & s & [= <- <-] & H). apply is_digit_iff in H. congruence.
Qed.
Lemma typed_cases t : ~ In 43%N t -> ~ In 45%N t -> (exists v rest, entered t v rest) \/ not_a_number t \/ at_end t.
Proof.
  intros P M. destruct (leading_blanks t) as (b & r & -> & B & [->|(c & s & -> & S)]); [right; right; unfold at_end; rewrite app_nil_r; exact B|].
  destruct (is_digit c) eqn:E.
  - left. destruct (leading_digits (c :: s)) as (d & r & Er & D & R). exists (fold_left (fun a c => 10 * a + (c - 48))%N d 0%N), r, b, d.
    split; [rewrite Er; reflexivity|]. split; [exact B|]. split; [|exact R]. split; [|split; [exact D|reflexivity]]. intros ->. cbn in Er. apply R. exists c, s. split; [auto|apply is_digit_iff; exact E].
  - right. left. exists b, c, s. split; [reflexivity|]. split; [exact B|]. split; [exact S|]. split; [intros H; apply is_digit_iff in H; congruence|].
    split; intros ->; [apply P|apply M]; apply in_or_app; right; left; reflexivity.
Qed.

(** ** The options *)
Lemma asks_unique a o o' : asks_for a o -> asks_for a o' -> o = o'.
Proof.
  intros (b & s & E & G & F) (b' & s' & E' & G' & F'). rewrite E in E'. revert b' E' F'. clear E. induction b as [|x b IH]; intros [|x' b'] E' F'; cbn in E'.
  - congruence.
  - injection E' as <- _. inversion F'; congruence.
  - injection E' as -> _. inversion F; congruence.
  - injection E' as <- E'. inversion F; inversion F'; subst. eauto.
Qed.
Lemma asks_flags a o : asks_for a o <->
  match o with
  | AHelp => ar_help a = true
  | AShow => ar_help a = false /\ ar_show a = true
  | AShared => ar_help a = false /\ ar_show a = false /\ ar_shared a = true
  | AX25519 => ar_help a = false /\ ar_show a = false /\ ar_shared a = false /\ ar_x25519 a = true
  | AEd25519 => ar_help a = false /\ ar_show a = false /\ ar_shared a = false /\ ar_x25519 a = false /\ ar_ed25519 a = true
  | ACert => ar_help a = false /\ ar_show a = false /\ ar_shared a = false /\ ar_x25519 a = false /\ ar_ed25519 a = false /\ ar_cert a = true
  | AAppend => ar_help a = false /\ ar_show a = false /\ ar_shared a = false /\ ar_x25519 a = false /\ ar_ed25519 a = false /\ ar_cert a = false /\ ar_append a = true
  end.
Proof.
  split.
  - intros (b & s & E & G & F). unfold order in E.
    destruct b as [|x1 b]; cbn [app] in E; [injection E as <- <-; exact G|]. injection E as <- E. inversion F as [|? ? F1 F']; subst. clear F. rename F' into F.
    destruct b as [|x1 b]; cbn [app] in E; [injection E as <- <-; cbn [given] in *; auto|]. injection E as <- E. inversion F as [|? ? F2 F']; subst. clear F. rename F' into F.
    destruct b as [|x1 b]; cbn [app] in E; [injection E as <- <-; cbn [given] in *; auto|]. injection E as <- E. inversion F as [|? ? F3 F']; subst. clear F. rename F' into F.
    destruct b as [|x1 b]; cbn [app] in E; [injection E as <- <-; cbn [given] in *; auto 7|]. injection E as <- E. inversion F as [|? ? F4 F']; subst. clear F. rename F' into F.
    destruct b as [|x1 b]; cbn [app] in E; [injection E as <- <-; cbn [given] in *; auto 8|]. injection E as <- E. inversion F as [|? ? F5 F']; subst. clear F. rename F' into F.
    destruct b as [|x1 b]; cbn [app] in E; [injection E as <- <-; cbn [given] in *; auto 9|]. injection E as <- E. inversion F as [|? ? F6 F']; subst. clear F. rename F' into F.
    destruct b as [|x1 b]; cbn [app] in E; [injection E as <- <-; cbn [given] in *; auto 10|]. injection E as <- E. destruct b; discriminate E.
  - destruct o; intros H; [exists [], [AShow; AShared; AX25519; AEd25519; ACert; AAppend]|exists [AHelp], [AShared; AX25519; AEd25519; ACert; AAppend]|
      exists [AHelp; AShow], [AX25519; AEd25519; ACert; AAppend]|exists [AHelp; AShow; AShared], [AEd25519; ACert; AAppend]|
      exists [AHelp; AShow; AShared; AX25519], [ACert; AAppend]|exists [AHelp; AShow; AShared; AX25519; AEd25519], [AAppend]|
      exists [AHelp; AShow; AShared; AX25519; AEd25519; ACert], []]; (split; [reflexivity|]); split; try apply H; repeat constructor; cbn [given]; try apply H.
Qed.
Ltac flags H := apply asks_flags in H; cbn beta iota in H; repeat match goal with h : _ /\ _ |- _ => destruct h end.
Ltac use_flags := repeat match goal with h : ?x _ = true |- _ => rewrite h | h : ?x _ = false |- _ => rewrite h end.

(** ** Showing files *)
Lemma show_files_all f name l : files_ok f ->
  (snd (show_files name f l) = true <-> Forall (fun p => exists d c, readable f p d /\ holds d c) l) /\
  (snd (show_files name f l) = true -> shows_all f name l (fst (show_files name f l))).
Proof.
  intros F. induction l as [|p l [IH1 IH2]]; [split; [split; intros _; [constructor|reflexivity]|intros _; constructor]|]. cbn [show_files].
  destruct (display f (name p) p) as [t ok] eqn:E. destruct ok.
  - destruct (display_only _ _ _ _ F E) as (d & c & R & H). destruct (display_shows f (name p) p d c F R H) as (t' & E' & S). rewrite E in E'. injection E' as <-.
    destruct (show_files name f l) as [u ok']. cbn [fst snd] in *. split.
    + rewrite IH1. split; [intros Hl; constructor; [eauto|exact Hl]|intros Hl; inversion Hl; assumption].
    + intros Hl. econstructor; eauto.
  - cbn [fst snd]. split; [|discriminate]. split; [discriminate|]. intros Hl. inversion Hl as [|? ? (d & c & R & H) _]; subst.
    destruct (display_shows f (name p) p d c F R H) as (t' & E' & _). congruence.
Qed.

(** ** The certificate *)
Lemma level_small typed l : level_entered typed l -> (l <= 6)%N.
Proof. induction 1; assumption. Qed.
Lemma run_cert_requested G k name f now a c pu pr typed d l rest : values_ok a -> days_value a typed d rest -> level_value a rest l ->
  exists t, run_cert G k name f now a c pu pr (typing typed) =
    (let* times := days_to_times false now d in let* r := create_certificate G k f c pu pr times l in
     Ok {| rs_files := fst r; rs_text := t ++ (if snd r then fst (display (fst r) (name c) c) else []); rs_end := ends (snd r) |}) /\
    t = (match ar_days a with None => endl "How many days (from now) should the certificate remain valid?" | _ => [] end) ++
        (match ar_level a with None => endl "Enter the certificate signing level (0 == endpoint certificate, max == 6):" | _ => [] end).
Proof.
  intros [Vd Vl] D L.
  assert (Hl : (l mod 256 = l)%N). { apply N.mod_small. destruct L as [L|[_ L]]; [apply Vl in L; exact L|]. apply level_small in L. lia. }
  eexists. split; [|reflexivity]. unfold run_cert. destruct D as [[Ed ->]|(Ed & En & Hd)]; rewrite Ed.
  - destruct (days_to_times false now d) as [times| |]; cbn [obind]; [|reflexivity|reflexivity].
    destruct L as [El|(El & L)]; rewrite El.
    + cbn [option_map]. rewrite Hl. destruct (create_certificate _ _ _ _ _ _ _ _); reflexivity.
    + rewrite (ask_level_entered _ _ L), Hl. destruct (create_certificate _ _ _ _ _ _ _ _); cbn [obind]; reflexivity.
  - unfold ask_days. rewrite (extract_entered _ _ _ _ _ En). change (2 ^ 16)%N with 65536%N in Hd. replace (65535 <? d)%N with false by (symmetry; apply N.ltb_ge; lia).
    destruct (days_to_times false now d) as [times| |]; cbn [obind]; [|reflexivity|reflexivity].
    destruct L as [El|(El & L)]; rewrite El.
    + cbn [option_map]. rewrite Hl. destruct (create_certificate _ _ _ _ _ _ _ _); cbn [obind]; [|reflexivity|reflexivity]. rewrite !app_nil_r. reflexivity.
    + rewrite (ask_level_entered _ _ L), Hl. destruct (create_certificate _ _ _ _ _ _ _ _); cbn [obind]; [|reflexivity|reflexivity]. rewrite <- !app_assoc. reflexivity.
Qed.
