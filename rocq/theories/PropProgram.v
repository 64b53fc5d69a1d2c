(** * C55: the certificate tool does what its command line asks for *)
From Verif Require Import Base BaseFacts Codec CodecSpec CodecFacts Link LinkLayer Primitives Session Handshake HandshakeSpec HandshakeFacts Icf IcfSpec IcfFacts Print PrintSpec PrintFacts PropIcf PropPrint Program ProgramSpec ProgramFacts.
From Coq Require Import Ascii String.
Local Notation length := List.length.

(** A command that is asked for is carried out, and nothing else: the files afterwards are those of the
    command, the program ends, with an error exactly when the command fails. *)
Theorem C55_requested : forall P G k name f now random a typed c, values_ok a -> requested a typed now random c ->
  (forall r, run P G k name f now random (Some a) (typing typed) = Ok r ->
     exists ok, run_command P G k f c = Ok (rs_files r, ok) /\ rs_end r = if ok then Finished else Failed) /\
  (forall f' ok, run_command P G k f c = Ok (f', ok) ->
     exists r, run P G k name f now random (Some a) (typing typed) = Ok r /\ rs_files r = f' /\ rs_end r = if ok then Finished else Failed).
Proof.
  intros P G k name f now random a typed c V R.
  enough (E : exists t : files * bool -> text, run P G k name f now random (Some a) (typing typed) =
    (let* x := run_command P G k f c in Ok {| rs_files := fst x; rs_text := t x; rs_end := if snd x then Finished else Failed |})).
  { destruct E as (t & E). rewrite E. split.
    - intros r H. destruct (run_command P G k f c) as [[f' ok]| |]; cbn [obind] in H; try discriminate. injection H as <-. exists ok. auto.
    - intros f' ok ->. cbn [obind]. eexists. split; [reflexivity|]. auto. }
  unfold run. destruct R as [p A E|p q A E|p q A E|c pu pr d l rest A E D L|p q o A E]; flags A; use_flags; rewrite E; cbn [run_command obind].
  - exists (fun _ : files * bool => shared_text name k f p random). reflexivity.
  - eexists (fun _ : files * bool => _). reflexivity.
  - eexists (fun _ : files * bool => _). reflexivity.
  - destruct (run_cert_requested G k name f now a c pu pr typed d l rest V D L) as (t & -> & _).
    exists (fun x : files * bool => t ++ (if snd x then fst (display (fst x) (name c) c) else [])).
    destruct (days_to_times false now d); reflexivity.
  - exists (fun _ : files * bool => []). reflexivity.
Qed.
Print Assumptions C55_requested.

(** Showing changes no file; it finishes exactly when every file can be read and is well-formed, and the
    text is then that of all files in the order they were named. *)
Theorem C55_show : forall P G k name f now random a i, files_ok f -> asks_for a AShow ->
  exists r, run P G k name f now random (Some a) i = Ok r /\ rs_files r = f /\ (rs_end r = Finished \/ rs_end r = Failed) /\
  (rs_end r = Finished <-> Forall (fun p => exists d c, readable f p d /\ holds d c) (ar_pos a)) /\
  (rs_end r = Finished -> shows_all f name (ar_pos a) (rs_text r)).
Proof.
  intros P G k name f now random a i F A. unfold run. flags A. use_flags. destruct (show_files_all f name (ar_pos a) F) as [H1 H2].
  destruct (show_files name f (ar_pos a)) as [t ok]. eexists. split; [reflexivity|]. cbn [rs_files rs_text rs_end fst snd] in *.
  split; [reflexivity|]. destruct ok; cbn [ends]; (split; [auto|]); (split; [|try discriminate; auto]); rewrite <- H1; split; congruence.
Qed.
Print Assumptions C55_show.

(** Help, no option at all, the wrong number of files, or a value that cannot be converted: no file is
    changed. *)
Theorem C55_nothing : forall P G k name f now random i,
  (exists r, run P G k name f now random None i = Ok r /\ rs_files r = f /\ rs_end r = Failed) /\
  (forall a, asks_for_nothing a -> exists r, run P G k name f now random (Some a) i = Ok r /\ rs_files r = f /\ rs_end r = Finished) /\
  (forall a o n, asks_for a o -> In (o, n) [(AShared, 1); (AX25519, 2); (AEd25519, 2); (ACert, 3); (AAppend, 3)] -> length (ar_pos a) <> n ->
     exists r, run P G k name f now random (Some a) i = Ok r /\ rs_files r = f /\ rs_end r = Failed) /\
  (forall a r, asks_for a ACert -> ar_days a = Some None \/ ar_level a = Some None -> run P G k name f now random (Some a) i = Ok r ->
     rs_files r = f /\ rs_end r = Failed).
Proof.
  intros P G k name f now random i. split; [|split; [|split]].
  - eexists. split; [reflexivity|]. auto.
  - intros a [H|H]; unfold run.
    + unfold order in H. repeat match goal with h : Forall _ (_ :: _) |- _ => inversion h; subst; clear h end. cbn [given] in *. use_flags. eexists. split; [reflexivity|]. auto.
    + flags H. use_flags. eexists. split; [reflexivity|]. auto.
  - intros a o n A I N. unfold run. cbn [In] in I.
    repeat (destruct I as [I|I]; [injection I as <- <-; flags A; use_flags; destruct (ar_pos a) as [|p1 [|p2 [|p3 [|p4 l]]]]; cbn [length] in N; try lia; eexists; (split; [reflexivity|]); auto|]). tauto.
  - intros a r A V H. unfold run in H. flags A. revert H. use_flags. intros H. destruct (ar_pos a) as [|c [|pu [|pr [|]]]]; try (injection H as <-; auto).
    unfold run_cert in H. destruct V as [V|V]; rewrite V in H; [injection H as <-; auto|].
    destruct (match ar_days a with Some _ => _ | None => _ end) as [[[d|] t1] i1]; [|injection H as <-; auto].
    destruct (days_to_times false now d); cbn [obind option_map] in H; try discriminate. injection H as <-. auto.
Qed.
Print Assumptions C55_nothing.

(** Whatever the command line is and whatever is typed (or not), only the files named as outputs of the
    action asked for can change. *)
Theorem C55_outputs_only : forall P G k name f now random args i r p, run P G k name f now random args i = Ok r -> rs_files r p <> f p ->
  exists a, args = Some a /\ may_change a p.
Proof.
  intros P G k name f now random args i r p H N. destruct args as [a|]; [|cbn in H; injection H as <-; cbn in N; congruence]. exists a. split; [reflexivity|].
  assert (X : forall c f' ok, run_command P G k f c = Ok (f', ok) -> f' p <> f p -> In p (outputs c)).
  { intros c f' ok E D. destruct (in_dec N.eq_dec p (outputs c)) as [Y|Y]; [exact Y|]. exfalso. apply D. eapply C43_outputs_only; eauto. }
  unfold run in H. unfold may_change.
  destruct (ar_help a) eqn:E1; [injection H as <-; cbn in N; congruence|].
  destruct (ar_show a) eqn:E2; [destruct (show_files name f (ar_pos a)); injection H as <-; cbn in N; congruence|].
  destruct (ar_shared a) eqn:E3.
  { left. split; [apply asks_flags; auto|]. destruct (ar_pos a) as [|q [|]]; try (injection H as <-; cbn in N; congruence). injection H as <-. cbn [rs_files] in N.
    pose proof (X (GenShared q random) _ _ (f_equal Ok (surjective_pairing _)) N) as [->|[]]. reflexivity. }
  destruct (ar_x25519 a) eqn:E4.
  { right. left. assert (A : asks_for a AX25519) by (apply asks_flags; auto). destruct (ar_pos a) as [|q [|q' [|]]]; try (injection H as <-; cbn in N; congruence). injection H as <-. cbn [rs_files] in N.
    pose proof (X (GenX25519 q q' random) _ _ (f_equal Ok (surjective_pairing _)) N) as [->|[->|[]]]; eauto 8. }
  destruct (ar_ed25519 a) eqn:E5.
  { right. left. assert (A : asks_for a AEd25519) by (apply asks_flags; auto 8). destruct (ar_pos a) as [|q [|q' [|]]]; try (injection H as <-; cbn in N; congruence). injection H as <-. cbn [rs_files] in N.
    pose proof (X (GenEd25519 q q' random) _ _ (f_equal Ok (surjective_pairing _)) N) as [->|[->|[]]]; eauto 8. }
  destruct (ar_cert a) eqn:E6.
  { right. right. left. assert (A : asks_for a ACert) by (apply asks_flags; auto 8). destruct (ar_pos a) as [|q [|pu [|pr [|]]]]; try (injection H as <-; cbn in N; congruence). exists pu, pr. split; [exact A|].
    unfold run_cert in H. destruct (match ar_days a with Some _ => _ | None => _ end) as [[days t1] i1]. destruct days as [d|]; [|injection H as <-; cbn in N; congruence].
    destruct (days_to_times false now d) as [times| |] eqn:ET; cbn [obind] in H; try discriminate.
    destruct (match ar_level a with Some _ => _ | None => _ end) as [level t2]. destruct level as [[l|]|]; try (injection H as <-; cbn in N; congruence).
    destruct (create_certificate G k f q pu pr times (l mod 256)) as [[f' ok]| |] eqn:EC; cbn [obind] in H; try discriminate. injection H as <-. cbn [rs_files fst] in N.
    assert (Y : run_command P G k f (Certify q pu pr now d (l mod 256)) = Ok (f', ok)) by (cbn [run_command]; rewrite ET; cbn [obind]; exact EC).
    pose proof (X _ _ _ Y N) as [->|[]]. reflexivity. }
  destruct (ar_append a) eqn:E7; [|injection H as <-; cbn in N; congruence].
  right. right. right. assert (A : asks_for a AAppend) by (apply asks_flags; auto 9). destruct (ar_pos a) as [|p1 [|p2 [|o [|]]]]; try (injection H as <-; cbn in N; congruence). exists p1, p2. split; [exact A|].
  destruct (append_certificate_chains P k f p1 p2 o) as [[f' ok]| |] eqn:E; cbn [obind] in H; try discriminate. injection H as <-. cbn [rs_files fst] in N.
  pose proof (X (Append p1 p2 o) _ _ E N) as [->|[]]. reflexivity.
Qed.
Print Assumptions C55_outputs_only.

(** From the command line to the certificate: with readable keys and at most 24 days, the certificate is
    made for the days and the level that were given or entered, and its text is what the program writes last. *)
Theorem C55_certificate : forall P G k name f now random a typed cert public private d l t key pk, signer_ok P G -> files_ok f -> k cert = Stored -> values_ok a ->
  (now < 2 ^ 63)%N -> (d <= 24)%N -> requested a typed now random (Certify cert public private now d l) ->
  readable f private (file_of ce_ed25519_private_key key) -> (length key = 64) ->
  readable f public (file_of (public_entry t) pk) -> length pk = 32 ->
  let body := plain_body now (now + d * day_ms) l t pk in
  exists r before shown, run P G k name f now random (Some a) (typing typed) = Ok r /\ rs_end r = Finished /\
    rs_files r = set_file f cert (chain_file [signed G key body]) /\ rs_text r = before ++ shown /\
    shows (name cert) (Certificates [(signed G key body, body)]) shown.
Proof.
  intros P G k name f now random a typed cp pu pr d l t key pk S F K V Hn Hd R R1 L1 R2 L2. inversion R as [| | |c' pu' pr' d' l' rest A E D L|]; subst.
  assert (Hl : (l < 2 ^ 8)%N). { destruct L as [L|[_ L]]; [apply V; exact L|]. apply level_small in L. change (2 ^ 8)%N with 256%N. lia. }
  pose proof (C39_days_partial now d Hn Hd) as ET.
  destruct (run_cert_requested G k name f now a cp pu pr typed d l rest V D L) as (before & ER & _).
  assert (Ha : (now < 2 ^ 64)%N) by (change (2 ^ 64)%N with 18446744073709551616%N; change (2 ^ 63)%N with 9223372036854775808%N in Hn; lia).
  assert (Hb : (now + d * day_ms < 2 ^ 64)%N) by (change (2 ^ 64)%N with 18446744073709551616%N; change (2 ^ 63)%N with 9223372036854775808%N in Hn; unfold day_ms; lia).
  assert (B : forall q y x, readable f q (file_of y x) -> bytes_ok x).
  { intros q y x [Rq _]. pose proof (F _ _ Rq) as B. unfold file_of, wire_container, wire_seq in B. cbn [cf_payload] in B. apply bytes_ok_app in B as [_ B]. apply bytes_ok_app in B as [_ B]. exact B. }
  pose proof (B _ _ _ R1) as Bk. pose proof (B _ _ _ R2) as Bp. clear B.
  pose proof (C43_create P G k f cp pu pr now (now + d * day_ms) l t key pk S F K R1 L1 Bk R2 L2 Bp Ha Hb Hl) as EC.
  destruct (signed_small P G key now (now + d * day_ms) l t pk S Ha Hb Hl L2 Bp) as (Kb & Sm). set (b := plain_body now (now + d * day_ms) l t pk) in *. set (e := signed G key b) in *. intros body. subst body.
  destruct (chain1_ok e Sm) as (C & Q & Len).
  assert (F' : files_ok (set_file f cp (chain_file [e]))).
  { intros q x. unfold set_file. destruct (N.eqb q cp); [|apply F]. intros [= <-]. unfold chain_file, file_of. apply wire_container_bytes. exact Q. }
  assert (R' : readable (set_file f cp (chain_file [e])) cp (chain_file [e])) by (split; [unfold set_file; rewrite N.eqb_refl; reflexivity|rewrite Len; lia]).
  destruct (display_shows _ (name cp) _ _ (Certificates [(e, b)]) F' R') as (x & E1 & X).
  { split; [constructor; [|constructor]|]; [|split; [cbn; lia|reflexivity]]. split; [apply Sm|]. split; [exact Kb|reflexivity]. }
  exists {| rs_files := set_file f cp (chain_file [e]); rs_text := before ++ x; rs_end := Finished |}, before, x.
  split; [|split; [reflexivity|]; split; [reflexivity|]; split; [reflexivity|exact X]].
  unfold run. flags A. use_flags. rewrite E, ER, ET. cbn [obind]. rewrite EC. cbn [obind fst snd]. rewrite E1. reflexivity.
Qed.
Print Assumptions C55_certificate.

(** ** The end of the program *)

(** Unless a certificate is to be made without --level, the program ends; and with a level that is typed. *)
Theorem C55_ends_partial : forall P G k name f now random args i r, run P G k name f now random args i = Ok r -> rs_end r = Hangs ->
  exists a c pu pr, args = Some a /\ asks_for a ACert /\ ar_pos a = [c; pu; pr] /\ ar_level a = None /\
  (forall typed d rest l, i = typing typed -> days_value a typed d rest -> values_ok a -> ~ level_entered rest l).
Proof.
  intros P G k name f now random args i r H E.
  assert (X : forall b, ends b <> Hangs) by (intros []; discriminate).
  destruct args as [a|]; [|injection H as <-; discriminate E]. pose proof H as H0. unfold run in H. exists a.
  assert (Y : forall c pu pr, asks_for a ACert -> ar_pos a = [c; pu; pr] -> run_cert G k name f now a c pu pr i = Ok r ->
    exists c pu pr, Some a = Some a /\ asks_for a ACert /\ ar_pos a = [c; pu; pr] /\ ar_level a = None /\
      (forall typed d rest l, i = typing typed -> days_value a typed d rest -> values_ok a -> ~ level_entered rest l)).
  { intros c pu pr A Ep R. exists c, pu, pr. split; [reflexivity|]. split; [exact A|]. split; [exact Ep|].
    assert (L : ar_level a = None).
    { unfold run_cert in R. destruct (match ar_days a with Some _ => _ | None => _ end) as [[days t1] i1]. destruct days as [d|]; [|injection R as <-; discriminate E].
      destruct (days_to_times false now d) as [times| |]; cbn [obind] in R; try discriminate. destruct (ar_level a) as [[l|]|]; [| |reflexivity]; exfalso; cbn [option_map] in R.
      - destruct (create_certificate _ _ _ _ _ _ _ _) as [x| |]; cbn [obind] in R; try discriminate. injection R as <-. exact (X _ E).
      - injection R as <-. discriminate E. }
    split; [exact L|]. intros typed d rest l -> D V Hl.
    destruct (run_cert_requested G k name f now a c pu pr typed d l rest V D (or_intror (conj L Hl))) as (t & ER & _). rewrite ER in R.
    destruct (days_to_times false now d); cbn [obind] in R; try discriminate. destruct (create_certificate _ _ _ _ _ _ _ _) as [x| |]; cbn [obind] in R; try discriminate. injection R as <-. exact (X _ E). }
  destruct (ar_help a) eqn:E1; [injection H as <-; discriminate E|].
  destruct (ar_show a) eqn:E2; [destruct (show_files name f (ar_pos a)); injection H as <-; destruct (X _ E)|].
  destruct (ar_shared a) eqn:E3; [destruct (ar_pos a) as [|? [|]]; injection H as <-; try discriminate E; destruct (X _ E)|].
  destruct (ar_x25519 a) eqn:E4; [destruct (ar_pos a) as [|? [|? [|]]]; injection H as <-; try discriminate E; destruct (X _ E)|].
  destruct (ar_ed25519 a) eqn:E5; [destruct (ar_pos a) as [|? [|? [|]]]; injection H as <-; try discriminate E; destruct (X _ E)|].
  destruct (ar_cert a) eqn:E6.
  { destruct (ar_pos a) as [|c [|pu [|pr [|]]]] eqn:Ep; try (injection H as <-; discriminate E). apply (Y c pu pr); [apply asks_flags; auto 8|reflexivity|exact H]. }
  destruct (ar_append a); [|injection H as <-; discriminate E]. destruct (ar_pos a) as [|? [|? [|? [|]]]]; try (injection H as <-; discriminate E).
  destruct (append_certificate_chains _ _ _ _ _ _) as [x| |]; cbn [obind] in H; try discriminate. injection H as <-. destruct (X _ E).
Qed.
Print Assumptions C55_ends_partial.

(** Otherwise it may never end: when the level is asked for and the input ends or a number is too large,
    and whenever the days were asked for and are not a number below 2^16. *)
Theorem C55_hangs_refuted : forall P G k name f now random a typed c pu pr, values_ok a -> (now < 2 ^ 63)%N -> asks_for a ACert -> ar_pos a = [c; pu; pr] -> ar_level a = None ->
  (exists d rest, (d <= 24)%N /\ days_value a typed d rest /\ unanswered rest) \/ (ar_days a = None /\ (not_a_number typed \/ at_end typed)) ->
  exists r, run P G k name f now random (Some a) (typing typed) = Ok r /\ rs_files r = f /\ rs_end r = Hangs.
Proof.
  intros P G k name f now random a typed c pu pr V Hn A Ep L H.
  enough (X : exists r, run_cert G k name f now a c pu pr (typing typed) = Ok r /\ rs_files r = f /\ rs_end r = Hangs) by (unfold run; flags A; use_flags; rewrite Ep; exact X).
  unfold run_cert. rewrite L. destruct H as [(d & rest & Hd & D & U)|(Ed & H)].
  - assert (EL : ask_level (typing rest) = None) by (unfold ask_level; apply level_loop_unanswered; [exact U|reflexivity]).
    destruct D as [[Ed ->]|(Ed & En & Hd')]; rewrite Ed.
    + rewrite (C39_days_partial now d Hn Hd). cbn [obind]. rewrite EL. eexists. split; [reflexivity|]. auto.
    + unfold ask_days. rewrite (extract_entered _ _ _ _ _ En). replace (65535 <? d)%N with false by (symmetry; apply N.ltb_ge; lia).
      rewrite (C39_days_partial now d Hn Hd). cbn [obind]. rewrite EL. eexists. split; [reflexivity|]. auto.
  - rewrite Ed. assert (Z : exists i, ask_days (typing typed) = (0%N, i) /\ in_failed i = true).
    { destruct H as [H|H]; [exact (extract_word 65535 0 typed H)|]. unfold ask_days. rewrite extract_end by exact H. eauto. }
    destruct Z as (i & -> & Fi). rewrite (C39_days_partial now 0 Hn ltac:(lia)). cbn [obind]. rewrite (ask_level_failed i Fi). eexists. split; [reflexivity|]. auto.
Qed.
Print Assumptions C55_hangs_refuted.

(** ** Values that were not entered *)

(** A word that is typed instead of a level is taken for level 0. *)
Theorem C55_level_refuted : forall P G k name f now random a typed c pu pr d, values_ok a -> asks_for a ACert -> ar_pos a = [c; pu; pr] ->
  ar_days a = Some (Some d) -> ar_level a = None -> not_a_number typed ->
  forall f' ok, run_command P G k f (Certify c pu pr now d 0) = Ok (f', ok) ->
  exists r, run P G k name f now random (Some a) (typing typed) = Ok r /\ rs_files r = f' /\ rs_end r = if ok then Finished else Failed.
Proof.
  intros P G k name f now random a typed c pu pr d V A Ep Ed L W f' ok H. unfold run. flags A. use_flags. rewrite Ep. unfold run_cert. rewrite Ed, L. cbn [run_command] in H.
  destruct (days_to_times false now d) as [times| |]; cbn [obind] in *; try discriminate. rewrite (ask_level_word _ W). change (0 mod 256)%N with 0%N. rewrite H. cbn [obind fst snd].
  eexists. split; [reflexivity|]. auto.
Qed.
Print Assumptions C55_level_refuted.
(** When the days are not a number, or the input has ended, the certificate is made for no time at all. *)
Theorem C55_days_refuted : forall P G k name f now random a typed c pu pr l, values_ok a -> asks_for a ACert -> ar_pos a = [c; pu; pr] ->
  ar_days a = None -> ar_level a = Some (Some l) -> not_a_number typed \/ at_end typed ->
  forall f' ok, run_command P G k f (Certify c pu pr now 0 l) = Ok (f', ok) ->
  exists r, run P G k name f now random (Some a) (typing typed) = Ok r /\ rs_files r = f' /\ rs_end r = if ok then Finished else Failed.
Proof.
  intros P G k name f now random a typed c pu pr l V A Ep Ed L W f' ok H. unfold run. flags A. use_flags. rewrite Ep. unfold run_cert. rewrite Ed, L. cbn [run_command] in H.
  assert (Z : exists i, ask_days (typing typed) = (0%N, i)).
  { destruct W as [W|W]; [destruct (extract_word 65535 0 typed W) as (i & Ei & _); exists i; exact Ei|]. unfold ask_days. rewrite extract_end by exact W. eauto. }
  destruct Z as (i & ->). destruct (days_to_times false now 0) as [times| |]; cbn [obind option_map] in *; try discriminate.
  rewrite N.mod_small by (destruct V as [_ V]; exact (V _ L)). rewrite H. cbn [obind fst snd]. eexists. split; [reflexivity|]. auto.
Qed.
Print Assumptions C55_days_refuted.

(** The exit status does not tell whether the action was carried out. *)
Theorem C55_exit_refuted : forall r, rs_end r = Finished \/ rs_end r = Failed -> exit_status r = Some 0%N.
Proof. intros r [H|H]; unfold exit_status; rewrite H; reflexivity. Qed.
Print Assumptions C55_exit_refuted.

(** ** Examples *)
Definition pg_name (p : N) : text := match p with 0 => str "a.pub" | 1 => str "b.key" | _ => str "c.icf" end%N.
Definition pg_files : files := fun p => match p with
  | 0%N => Some (file_of ce_x25519_public_key (map N.of_nat (List.seq 1 32)))
  | 1%N => Some (file_of ce_ed25519_private_key (sg_secret toy_signer [1%N]))
  | _ => None end.
Definition pg_cert (days level : option (option N)) : arguments :=
  {| ar_help := false; ar_show := false; ar_shared := false; ar_x25519 := false; ar_ed25519 := false; ar_cert := true; ar_append := true;
     ar_days := days; ar_level := level; ar_pos := [2; 0; 1]%N |}.
Definition pg_run (days level : option (option N)) (typed : string) : outcome result :=
  run toy toy_signer (fun _ => Stored) pg_name pg_files 1700000000000 [] (Some (pg_cert days level)) (typing (str typed)).
Definition pg_typed : string := (" 10 9" ++ String (ascii_of_nat 10) (" 007" ++ String (ascii_of_nat 10) "4 and more"))%string.
Lemma entered_intro b t rest v : Forall space b -> number_text t v -> match rest with c :: _ => (c < 48 \/ 57 < c)%N | [] => True end -> entered (b ++ t ++ rest) v rest.
Proof. intros B T R. exists b, t. split; [reflexivity|]. split; [exact B|]. split; [exact T|]. intros (c & r & -> & D). unfold digit in D. lia. Qed.
(** The days and the level are typed, after a level that is too large twice (9 and 007); what is shown ends like this *)
Example C55_certificate_instance :
  requested (pg_cert None None) (str pg_typed) 1700000000000 [] (Certify 2 0 1 1700000000000 10 4) /\
  exists r, pg_run None None pg_typed = Ok r /\ rs_end r = Finished /\
    firstn 173 (rs_text r) = firstn 173 (lines ["How many days (from now) should the certificate remain valid?"; "Enter the certificate signing level (0 == endpoint certificate, max == 6):"; "File: c.icf"; "Type: certificate_chain"]%string) /\
    skipn (length (rs_text r) - 294) (rs_text r) = lines
     ["      valid_after: 1700000000000"; "      valid_before: 1700864000000"; "      signing_level: 4"; "      public_key_type: X25519"; "      public_key (length == 32)";
      "        01:02:03:04:05:06:07:08:09:0a:0b:0c:0d:0e:0f:10"; "        11:12:13:14:15:16:17:18:19:1a:1b:1c:1d:1e:1f:20"; "      extensions (count = 0)"; ""]%string.
Proof.
  split.
  - assert (NT : forall t v, t <> [] -> forallb is_digit t = true -> fold_left (fun a c => 10 * a + (c - 48))%N t 0%N = v -> number_text t v).
    { intros t v N D V. split; [exact N|]. split; [|exact V]. apply Forall_forall. intros c I. apply is_digit_iff. rewrite forallb_forall in D. auto. }
    assert (SP : forall b, forallb is_space b = true -> Forall space b).
    { intros b H. apply Forall_forall. intros c I. apply is_space_iff. rewrite forallb_forall in H. auto. }
    apply (rq_cert _ _ _ _ 2 0 1 10 4 (skipn 3 (str pg_typed)))%N.
    + apply asks_flags. repeat split.
    + reflexivity.
    + right. split; [reflexivity|]. split; [|reflexivity]. exact (entered_intro (str " ") (str "10") (skipn 3 (str pg_typed)) 10 (SP (str " ") eq_refl) (NT (str "10") 10%N ltac:(discriminate) eq_refl eq_refl) ltac:(left; reflexivity)).
    + right. split; [reflexivity|]. apply (refused _ _ 9%N (skipn 5 (str pg_typed))); [|lia|].
      * exact (entered_intro (str " ") (str "9") (skipn 5 (str pg_typed)) 9 (SP (str " ") eq_refl) (NT (str "9") 9%N ltac:(discriminate) eq_refl eq_refl) ltac:(left; reflexivity)).
      * apply (refused _ _ 7%N (skipn 10 (str pg_typed))); [|lia|].
        -- exact (entered_intro ([10; 32]%N) (str "007") (skipn 10 (str pg_typed)) 7 (SP [10; 32]%N eq_refl) (NT (str "007") 7%N ltac:(discriminate) eq_refl eq_refl) ltac:(left; reflexivity)).
        -- apply (accepted _ _ (skipn 12 (str pg_typed))); [|lia].
           exact (entered_intro [10]%N (str "4") (skipn 12 (str pg_typed)) 4 (SP [10]%N eq_refl) (NT (str "4") 4%N ltac:(discriminate) eq_refl eq_refl) ltac:(left; reflexivity)).
  - eexists. split; [vm_compute; reflexivity|]. vm_compute. auto.
Qed.
(** A word instead of the level: a certificate of level 0; a word instead of the days, or nothing more typed: it hangs;
    --level 200 is accepted; the end of the input instead of the days: valid for no time. *)
Example C55_defects_instance :
  (exists r d, pg_run (Some (Some 10%N)) None "five" = Ok r /\ rs_end r = Finished /\ rs_files r 2%N = Some d /\
     d = chain_file [signed toy_signer (sg_secret toy_signer [1%N]) (plain_body 1700000000000 1700864000000 0 pk_X25519 (map N.of_nat (List.seq 1 32)))]) /\
  (exists r, pg_run None None "ten 5" = Ok r /\ rs_end r = Hangs) /\
  (exists r, pg_run (Some (Some 10%N)) None "9 8" = Ok r /\ rs_end r = Hangs) /\
  (exists r, pg_run (Some (Some 10%N)) (Some (Some 200%N)) "" = Ok r /\ rs_end r = Finished /\
     rs_files r 2%N = Some (chain_file [signed toy_signer (sg_secret toy_signer [1%N]) (plain_body 1700000000000 1700864000000 200 pk_X25519 (map N.of_nat (List.seq 1 32)))])) /\
  (exists r, pg_run None (Some (Some 1%N)) "" = Ok r /\ rs_end r = Finished /\
     rs_files r 2%N = Some (chain_file [signed toy_signer (sg_secret toy_signer [1%N]) (plain_body 1700000000000 1700000000000 1 pk_X25519 (map N.of_nat (List.seq 1 32)))])).
Proof.
  split; [eexists; eexists; split; [vm_compute; reflexivity|vm_compute; auto]|].
  split; [eexists; split; [vm_compute; reflexivity|vm_compute; auto]|].
  split; [eexists; split; [vm_compute; reflexivity|vm_compute; auto]|].
  split; eexists; (split; [vm_compute; reflexivity|vm_compute; auto]).
Qed.
(** Three files to show, the second of which does not exist: the first one is shown, the program fails. *)
Example C55_show_instance :
  let a := {| ar_help := false; ar_show := true; ar_shared := true; ar_x25519 := false; ar_ed25519 := false; ar_cert := false; ar_append := false;
              ar_days := None; ar_level := None; ar_pos := [0; 3; 1]%N |} in
  exists r, run toy toy_signer (fun _ => Stored) pg_name pg_files 0 [] (Some a) (typing []) = Ok r /\ rs_end r = Failed /\ rs_files r = pg_files /\
    rs_text r = lines ["File: a.pub"; "Type: x25519_public_key"; "  key-data (length == 32)"; "    01:02:03:04:05:06:07:08:09:0a:0b:0c:0d:0e:0f:10"; "    11:12:13:14:15:16:17:18:19:1a:1b:1c:1d:1e:1f:20"; ""]%string.
Proof. eexists. split; [vm_compute; reflexivity|]. vm_compute. auto. Qed.
