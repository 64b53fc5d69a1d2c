(** * C39, C43: the certificate tool *)
From Verif Require Import Base BaseFacts Codec CodecSpec CodecFacts Link LinkLayer Primitives Session SessionFacts Handshake HandshakeSpec HandshakeFacts Icf IcfSpec IcfFacts.

(** A signer for the toy primitives. *)
Definition toy_signer : signer := {|
  sg_public seed := toy_digest 32 seed;
  sg_secret seed := toy_digest 32 seed ++ toy_digest 32 seed;
  sg_sign key m := toy_digest 64 (firstn 32 key ++ m) |}.
Lemma toy_signer_ok : signer_ok toy toy_signer.
Proof.
  assert (D : forall n d, length (toy_digest n d) = n /\ bytes_ok (toy_digest n d)).
  { intros n d. unfold toy_digest. generalize (fold_left (fun a b => N.land (a * 5 + b + 1) 65535) d 0%N). intros v.
    assert (A : forall x, byte_ok (N.land x 255)) by (intros x; unfold byte_ok; change 255%N with (N.ones 8); rewrite N.land_ones; apply N.mod_lt; discriminate).
    generalize (A (N.shiftr v 8)), (A v). generalize (N.land (N.shiftr v 8) 255), (N.land v 255). clear.
    induction n as [|n IH]; intros x y Hx Hy; cbn; [split; [reflexivity|constructor]|]. destruct (IH y x Hy Hx) as [L B]. split; [lia|constructor; assumption]. }
  constructor; cbn [toy_signer sg_public sg_secret sg_sign toy p_verify].
  - intros seed. apply D.
  - intros seed. split; [rewrite app_length, !(proj1 (D _ _)); reflexivity|apply bytes_ok_app; split; apply D].
  - intros key m. apply D.
  - intros seed m. apply bytes_eqb_eq. f_equal.
Qed.

(** ** C39 *)

(** Up to 24 days the certificate is valid from now for exactly that many days. *)
Theorem C39_days_partial : forall now days, (now < 2 ^ 63)%N -> (days <= 24)%N ->
  days_to_times false now days = Ok (now, (now + days * day_ms)%N).
Proof. exact (days_short false). Qed.
Print Assumptions C39_days_partial.

(** From 25 days on (of the 65535 the tool accepts) the computation is undefined. *)
Theorem C39_overflow_refuted : forall now days, (24 < days)%N -> days_to_times false now days = UB.
Proof. exact days_long. Qed.
Print Assumptions C39_overflow_refuted.

(** Where integers wrap around, the result is wrong for every number of days from 25 on: the
    certificate is never valid for more than 24.86 days, and one for 30 days has expired before it
    was made. *)
Theorem C39_wrapped_refuted : forall now days, (2 ^ 31 <= now < 2 ^ 63)%N -> (24 < days < 2 ^ 16)%N ->
  exists before, days_to_times true now days = Ok (now, before) /\ (before < now + days * day_ms)%N /\ (before < now + 25 * day_ms)%N /\
    (days = 30%N -> (before < now)%N).
Proof.
  intros now days [Hn Hn'] [Hd Hd']. change (2 ^ 31)%N with 2147483648%N in Hn. change (2 ^ 63)%N with 9223372036854775808%N in Hn'. change (2 ^ 16)%N with 65536%N in Hd'.
  assert (M : exists b, days_to_times true now days = Ok (now, Z.to_N ((Z.of_N now + b) mod 2 ^ 64)) /\ (-2147483648 <= b <= 2147483647)%Z /\ (days = 30%N -> (b < 0)%Z)).
  { unfold days_to_times. assert (I : forall a b, exists v, int_mul true a b = Ok v /\ (-2147483648 <= v <= 2147483647)%Z).
    { intros a b. unfold int_mul. destruct (Z.leb_spec (-2147483648) (a * b)); destruct (Z.leb_spec (a * b) 2147483647); cbn [andb]; eexists; (split; [reflexivity|]); try lia;
        pose proof (Z.mod_pos_bound (a * b + 2147483648) 4294967296 ltac:(lia)); lia. }
    destruct (I (Z.of_N days) 86400%Z) as (v & Ev & Bv). rewrite Ev. cbn [obind]. destruct (I v 1000%Z) as (w & Ew & Bw). rewrite Ew. cbn [obind].
    exists w. split; [reflexivity|]. split; [exact Bw|]. intros ->. vm_compute in Ev. injection Ev as <-. vm_compute in Ew. injection Ew as <-. reflexivity. }
  destruct M as (b & -> & Bb & H30). change (2 ^ 64)%Z with 18446744073709551616%Z. rewrite Z.mod_small by lia.
  eexists. split; [reflexivity|]. unfold day_ms. split; [lia|]. split; [lia|]. intros E. specialize (H30 E). lia.
Qed.
Print Assumptions C39_wrapped_refuted.
Example C39_instance : days_to_times false 1700000000000 24 = Ok (1700000000000%N, 1702073600000%N) /\
  days_to_times false 1700000000000 365 = UB /\ days_to_times true 1700000000000 365 = Ok (1700000000000%N, 1701471228928%N).
Proof. vm_compute. auto. Qed.

(** ** C43: creating *)

(** Given an Ed25519 secret key file and a public key file, the certificate made is the one for
    that key, those times and that level, signed with that key; nothing else changes. *)
Theorem C43_create : forall P G k f certificate public private after before level t key pk,
  signer_ok P G -> files_ok f -> k certificate = Stored ->
  readable f private (file_of ce_ed25519_private_key key) -> length key = 64 -> bytes_ok key ->
  readable f public (file_of (public_entry t) pk) -> length pk = 32 -> bytes_ok pk ->
  (after < 2 ^ 64)%N -> (before < 2 ^ 64)%N -> (level < 2 ^ 8)%N ->
  create_certificate G k f certificate public private (after, before) level =
    Ok (set_file f certificate (chain_file [signed G key (plain_body after before level t pk)]), true).
Proof.
  intros P G k f cp pu pr a b l t key pk S F K R1 L1 B1 R2 L2 B2 Ha Hb Hl.
  rewrite (create_spec P G k f cp pu pr a b l t key pk S F R1); auto; [|eapply readable_seq; eauto|lia].
  unfold file_put. rewrite K, firstn_all2 by lia. reflexivity.
Qed.
Print Assumptions C43_create.

(** It finishes in no other way: when it reports success, the two files were such keys (the secret
    key file may hold more than 64 bytes: the rest is not used). *)
Theorem C43_create_only : forall P G k f certificate public private after before level f',
  signer_ok P G -> files_ok f -> (after < 2 ^ 64)%N -> (before < 2 ^ 64)%N -> (level < 2 ^ 8)%N ->
  create_certificate G k f certificate public private (after, before) level = Ok (f', true) ->
  exists t key pk, readable f private (file_of ce_ed25519_private_key key) /\ 64 <= length key /\
    readable f public (file_of (public_entry t) pk) /\ length pk = 32 /\
    f' = set_file f certificate (chain_file [signed G (firstn 64 key) (plain_body after before level t pk)]).
Proof.
  intros P G k f cp pu pr a b l f' S F Ha Hb Hl H. destruct (create_cases P G k f cp pu pr a b l S F Ha Hb Hl) as [E|(key & Q & R & [[_ E]|(t & pk & R2 & L2 & B2 & Lk & E)])]; rewrite E in H; try discriminate.
  exists t, key, pk. repeat (split; [assumption|]). unfold file_put in H. destruct (k cp); congruence.
Qed.
Print Assumptions C43_create_only.

(** A secret key file with fewer than 64 bytes is not rejected: memory behind it is read. *)
Theorem C43_short_key_refuted : forall P G k f certificate public private after before level t key pk,
  signer_ok P G -> files_ok f -> readable f private (file_of ce_ed25519_private_key key) -> length key < 64 ->
  readable f public (file_of (public_entry t) pk) -> length pk = 32 -> bytes_ok key -> bytes_ok pk ->
  (after < 2 ^ 64)%N -> (before < 2 ^ 64)%N -> (level < 2 ^ 8)%N ->
  create_certificate G k f certificate public private (after, before) level = UB.
Proof.
  intros P G k f cp pu pr a b l t key pk S F R1 L1 R2 L2 B1 B2 Ha Hb Hl.
  assert (Q1 : seq_ok key) by (eapply readable_seq; eauto). assert (Q2 : seq_ok pk) by (eapply readable_seq; eauto).
  unfold create_certificate.
  rewrite (proj2 (read_container_iff f pr {| cf_type := ce_ed25519_private_key; cf_payload := key |} F) (conj Q1 R1)).
  rewrite (proj2 (read_container_iff f pu {| cf_type := public_entry t; cf_payload := pk |} F) (conj Q2 R2)).
  cbn beta iota. rewrite (proj2 (public_type {| cf_type := public_entry t; cf_payload := pk |} t)) by (cbn; auto). cbn beta iota zeta. cbn [fst snd cf_payload].
  change {| cb_valid_after := a; cb_valid_before := b; cb_signing_level := l; cb_key_type := t; cb_public_key := pk; cb_extensions := [] |} with (plain_body a b l t pk).
  rewrite to_buffer_body by (apply plain_body_ok; auto). unfold calc_signature, sign_ed25519. cbn [cf_type cf_payload]. destruct (Nat.ltb_spec (length key) 64); [reflexivity|lia].
Qed.
Print Assumptions C43_short_key_refuted.

(** ** C43: using *)

(** A certificate made with the secret key of [seed] is issued by exactly those certificates of
    that key which cover it. *)
Theorem C43_issued : forall P G seed issuer b x, signer_ok P G -> body_ok b ->
  cb_key_type issuer = pk_Ed25519 -> cb_public_key issuer = sg_public G seed ->
  (issued P issuer (signed G (sg_secret G seed) b) x <-> x = b /\ covered issuer b).
Proof. exact signed_issued. Qed.
Print Assumptions C43_issued.

Lemma anchor_of_file e a : small e -> body_ok a -> env_body e = wire_body a -> read_anchor_cert (chain_file [e]) = Some a.
Proof.
  intros S Ha E. destruct (chain1_ok _ S) as (C & Q & _). unfold read_anchor_cert, chain_file, file_of. rewrite read_wire_container by exact Q. cbn [cf_type cf_payload].
  change (negb (entry_eqb ce_certificate_chain ce_certificate_chain)) with false. cbn iota. rewrite read_wire_chain by exact C. rewrite E, read_wire_body by exact Ha. reflexivity.
Qed.
Lemma presented_iff P S a c : sup_ed25519 S = true -> chain_ok c -> seq_ok (wire_chain c) -> (exists r, chain_verify P S a c = Ok r) ->
  (verify_presented_chain P S a (chain_file c) = Ok (Some (wire_chain c)) <-> exists leaf, chain_certifies P a c leaf).
Proof.
  intros Hs C Q (r & Er). unfold verify_presented_chain, chain_file, file_of. rewrite read_wire_container by exact Q. cbn [cf_type cf_payload].
  change (negb (entry_eqb ce_certificate_chain ce_certificate_chain)) with false. cbn iota. rewrite read_wire_chain by exact C. rewrite Er. cbn [obind].
  destruct r as [leaf|e].
  - split; [|reflexivity]. intros _. exists leaf. apply (chain_verify_certifies P S); auto. apply C.
  - split; [discriminate|]. intros (leaf & H). apply (chain_verify_certifies P S) in H; [congruence|exact Hs|apply C].
Qed.
Lemma verify_pair_defined P S a e : 32 <= length (cb_public_key a) -> exists r, verify_pair P S a e = Ok r.
Proof.
  intros L. unfold verify_pair, verify_ed25519. destruct (try_get_dsa_info S (cb_key_type a)) as [n|] eqn:Ed; [|eauto].
  assert (n = 64) by (destruct (cb_key_type a); cbn in Ed; [|discriminate]; destruct (sup_ed25519 S); congruence). subst n.
  destruct (Nat.eqb_spec 64 (length (env_signature e))) as [El|]; cbn [negb]; [|eauto]. rewrite <- El. destruct (Nat.ltb_spec (length (cb_public_key a)) 32); [lia|].
  change (64 <? 64) with false. cbn [orb obind]. destruct (negb _); [eauto|]. destruct (read_all _ _); [|eauto].
  destruct (_ <? _)%N; [eauto|]. destruct (_ <? _)%N; [eauto|]. destruct (_ <=? _)%N; eauto.
Qed.
Lemma verify_one_defined P S a e : 32 <= length (cb_public_key a) -> exists r, chain_verify P S a [e] = Ok r.
Proof.
  intros L. destruct (verify_pair_defined P S a e L) as ([b|x] & E); unfold chain_verify, verify_loop; rewrite E; cbn [obind]; [|eauto].
  destruct (negb _); [eauto|]. destruct (negb _); eauto.
Qed.
Lemma make_one P S a e c : sup_ed25519 S = true -> small e -> body_ok a -> env_body e = wire_body a -> 32 <= length (cb_public_key a) -> small c ->
  (make_industrial P S (chain_file [e]) (chain_file [c]) = Ok (Some (Industrial a (wire_chain [c]))) <-> exists b, issued P a c b /\ end_entity b) /\
  (make_industrial P S (chain_file [e]) (chain_file [c]) = Ok None <-> ~ exists b, issued P a c b /\ end_entity b).
Proof.
  intros Hs Se Ha Ea La Sc. destruct (chain1_ok _ Sc) as (C & Q & _). pose proof (presented_iff P S a [c] Hs C Q (verify_one_defined P S a c La)) as I.
  unfold make_industrial. rewrite (anchor_of_file e a Se Ha Ea).
  assert (D : verify_presented_chain P S a (chain_file [c]) = Ok (Some (wire_chain [c])) \/ verify_presented_chain P S a (chain_file [c]) = Ok None).
  { unfold verify_presented_chain, chain_file, file_of. rewrite read_wire_container by exact Q. cbn [cf_type cf_payload].
    change (negb (entry_eqb ce_certificate_chain ce_certificate_chain)) with false. cbn iota. rewrite read_wire_chain by exact C.
    destruct (verify_one_defined P S a c La) as ([b|x] & ->); cbn [obind]; auto. }
  assert (J : (exists leaf, chain_certifies P a [c] leaf) <-> exists b, issued P a c b /\ end_entity b) by (split; intros (b & H); exists b; apply single_certifies; exact H).
  destruct D as [D|D]; rewrite D in *; cbn [obind].
  - split; [split; [intros _; apply J, I; reflexivity|reflexivity]|]. split; [discriminate|]. intros N. exfalso. apply N, J, I. reflexivity.
  - split; [split; [discriminate|intros H; apply J, I in H; discriminate]|]. split; [|reflexivity]. intros _ H. apply J, I in H. discriminate.
Qed.

(** A station configured with an authority's certificate and a certificate made with the
    authority's key starts up exactly when the latter is an end-entity certificate the former
    covers, and refuses to start otherwise. *)
Theorem C43_usable : forall P S G root_key seed a b, signer_ok P G -> sup_ed25519 S = true ->
  tool_body a -> cb_key_type a = pk_Ed25519 -> cb_public_key a = sg_public G seed -> tool_body b ->
  let root := signed G root_key a in let mine := signed G (sg_secret G seed) b in
  (make_industrial P S (chain_file [root]) (chain_file [mine]) = Ok (Some (Industrial a (wire_chain [mine]))) <-> end_entity b /\ covered a b) /\
  (make_industrial P S (chain_file [root]) (chain_file [mine]) = Ok None <-> ~ (end_entity b /\ covered a b)).
Proof.
  intros P S G rk seed a b SG Hs Ta Ka Pa Tb root mine.
  assert (Sm : forall key x, tool_body x -> small (signed G key x)).
  { intros key x (af & bf & l & t & pk & -> & A & B & C & L & Bk). apply (signed_small P G key af bf l t pk); auto. }
  destruct (make_one P S a root mine Hs (Sm _ _ Ta) (tool_body_ok _ Ta) eq_refl) as [M1 M2]; [rewrite Pa, (proj1 (sok_public P G SG seed)); lia|apply Sm, Tb|].
  assert (J : (exists x, issued P a mine x /\ end_entity x) <-> end_entity b /\ covered a b).
  { split.
    - intros (x & I & E). apply (signed_issued P G seed a b x SG (tool_body_ok _ Tb) Ka Pa) in I as [-> I]. auto.
    - intros [E I]. exists b. split; [|exact E]. apply (signed_issued P G seed a b b SG (tool_body_ok _ Tb) Ka Pa). auto. }
  rewrite M1, M2, J. split; reflexivity.
Qed.
Print Assumptions C43_usable.

(** The peer takes from it the key it was made for. *)
Theorem C43_peer : forall P S G seed a theirs b, signer_ok P G -> sup_ed25519 S = true ->
  cb_key_type a = pk_Ed25519 -> cb_public_key a = sg_public G seed -> tool_body b -> end_entity b -> covered a b ->
  cert_validate P S (Industrial a theirs) hm_industrial_certificates (wire_chain [signed G (sg_secret G seed) b]) = Ok (inl (cb_public_key b)).
Proof.
  intros P S G seed a theirs b SG Hs Ka Pa Tb E C.
  assert (Sm : small (signed G (sg_secret G seed) b)).
  { destruct Tb as (af & bf & l & t & pk & -> & A & B & C' & L & Bk). apply (signed_small P G _ af bf l t pk); auto. }
  destruct (chain1_ok _ Sm) as (Hc & _). apply takes_key_validate; [exact Hs|]. constructor; [exact Hc|].
  apply single_certifies. split; [|exact E]. apply (signed_issued P G seed a b b SG (tool_body_ok _ Tb) Ka Pa). auto.
Qed.
Print Assumptions C43_peer.

(** ** C43: appending *)

(** Appending reports success exactly when the first file holds a chain of one to five
    certificates, the second a single one, issued by the last of the first file, and that one is an
    end-entity certificate; the output is the chain of all of them. *)
Theorem C43_append : forall P k f first second output f', files_ok f -> k output = Stored ->
  (append_certificate_chains P k f first second output = Ok (f', true) <->
   exists h last_env env issuer leaf, readable f first (chain_file (h ++ [last_env])) /\ chain_ok (h ++ [last_env]) /\ length h <= 4 /\
     readable f second (chain_file [env]) /\ envelope_ok env /\ subject_of last_env issuer /\ issued P issuer env leaf /\ end_entity leaf /\
     f' = set_file f output (chain_file (h ++ [last_env; env]))).
Proof.
  intros P k f p1 p2 o f' F K. split.
  - intros H. destruct (append_cases P k f p1 p2 o F) as [E|(h & le & e & lb & C1 & He & R1 & R2 & Hb & Ew & [[_ E]|(leaf & I & N & L & E)])]; rewrite E in H; try discriminate.
    exists h, le, e, lb, leaf. unfold file_put in H. rewrite K in H. injection H as H. rewrite <- app_assoc in H. repeat (split; [assumption || (split; assumption)|]). symmetry. exact H.
  - intros (h & le & e & lb & leaf & R1 & C1 & L & R2 & He & [Hb Ew] & I & N & ->).
    rewrite (append_spec P k f p1 p2 o h le e lb leaf); auto. unfold file_put. rewrite K, <- app_assoc. reflexivity.
Qed.
Print Assumptions C43_append.

(** The extended chain is certified by every anchor from which the first chain leads to its last
    certificate. *)
Theorem C43_append_extends : forall P anchor chain issuer env leaf,
  issue_path P anchor chain issuer -> issued P issuer env leaf -> end_entity leaf -> chain_certifies P anchor (chain ++ [env]) leaf.
Proof.
  intros P a c i e leaf H I N. split; [destruct c; discriminate|]. split; [|exact N].
  induction H as [x|x env b rest l I' _ IH]; cbn [app]; [econstructor; [exact I|constructor]|econstructor; [exact I'|apply IH; assumption]].
Qed.
Print Assumptions C43_append_extends.

(** ** C43: what the tool can produce *)

Definition no_files : files := fun _ => None.
Lemma no_history P : history P no_files. Proof. intros p d. discriminate. Qed.

(** Starting without files, no sequence of commands has undefined behaviour, whatever fails to be
    written, as long as no certificate is made for more than 24 days. *)
Theorem C43_defined_partial : forall P G l, prims_ok P -> signer_ok P G ->
  Forall (fun kc => command_ok (snd kc) /\ short_term (snd kc)) l -> exists f, run_commands P G no_files l = Ok f.
Proof. intros P G l OP S H. destruct (run_commands_history P G l OP S H _ (no_history P)) as (f & E & _). eauto. Qed.
Print Assumptions C43_defined_partial.

(** No chain file the tool can produce has more than two certificates (stations accept six): an
    authority below an authority below the anchor cannot be used.  In a chain of two the first
    issued the second. *)
Theorem C43_two_levels_refuted : forall P G l f p c, prims_ok P -> signer_ok P G ->
  Forall (fun kc => command_ok (snd kc) /\ short_term (snd kc)) l -> run_commands P G no_files l = Ok f ->
  f p = Some (chain_file c) -> chain_ok c -> seq_ok (wire_chain c) ->
  (exists e, c = [e]) \/ (exists e1 b1 e2 b2, c = [e1; e2] /\ subject_of e1 b1 /\ issued P b1 e2 b2 /\ end_entity b2).
Proof.
  intros P G l f p c OP S H E Ep C Q. destruct (run_commands_history P G l OP S H _ (no_history P)) as (f' & E' & Hh). rewrite E in E'. injection E' as <-.
  assert (M : made P (chain_file c)).
  { apply Hh in Ep as X. destruct X as (full & n & M & Ef). destruct (made_container P full M) as (c' & Hc' & -> & L).
    assert (M' : made P (wire_container {| cf_type := ce_certificate_chain; cf_payload := wire_chain c |})); [|exact M'].
    pose proof (proj1 rlaw_container {| cf_type := ce_certificate_chain; cf_payload := wire_chain c |} (skipn n (wire_container c')) Q) as A.
    change (wire_container {| cf_type := ce_certificate_chain; cf_payload := wire_chain c |}) with (chain_file c) in *. rewrite Ef, firstn_skipn in A.
    pose proof (proj1 rlaw_container c' [] Hc') as B. rewrite app_nil_r in B. rewrite A in B. injection B as B _. rewrite <- B in M. exact M. }
  apply made_chain in M; auto. destruct M as [(e & b & -> & _)|(e1 & b1 & e2 & b2 & -> & S1 & E1 & T1 & S2 & E2 & T2 & I & N)]; [left; eauto|right].
  exists e1, b1, e2, b2. split; [reflexivity|]. split; [split; [apply tool_body_ok, T1|exact E1]|]. auto.
Qed.
Print Assumptions C43_two_levels_refuted.

(** The tool reports success for certificates no chain can contain: a signing key at level 0. *)
Theorem C43_unusable_refuted : forall P G key after before pk, signer_ok P G -> length pk = 32 -> bytes_ok pk ->
  (after < 2 ^ 64)%N -> (before < 2 ^ 64)%N ->
  let e := signed G key (plain_body after before 0 pk_Ed25519 pk) in
  forall anchor chain leaf, chain_certifies P anchor chain leaf -> ~ In e chain.
Proof.
  intros P G key a b pk S L B Ha Hb e anchor chain leaf (_ & H & N) I.
  assert (K : body_ok (plain_body a b 0 pk_Ed25519 pk)) by (apply plain_body_ok; auto; [reflexivity|apply (seq_ok_len _ 32); auto; reflexivity]).
  induction H as [x|x env y rest l I' H IH]; [exact I|]. destruct I as [->|I]; [|apply IH; assumption].
  assert (y = plain_body a b 0 pk_Ed25519 pk) by (destruct (is_body _ _ _ _ I') as [A1 A2]; apply wire_body_inj; auto; exact (eq_sym A2)). subst y. clear IH.
  inversion H as [z|z env' y' rest' l' I2 H2]; subst.
  - destruct N as [_ N]. discriminate.
  - pose proof (is_level _ _ _ _ I2) as Lv. cbn in Lv. lia.
Qed.
Print Assumptions C43_unusable_refuted.

(** ** C43: effects on the files *)

(** A command changes no file but those it is to write. *)
Theorem C43_outputs_only : forall P G k f c f' ok p, run_command P G k f c = Ok (f', ok) -> ~ In p (outputs c) -> f' p = f p.
Proof.
  intros P G k f c f' ok p H N. destruct c as [q|q r|pr pu r|pr pu r|cp pu pr now days level|p1 p2 o]; cbn [run_command outputs] in *.
  - congruence.
  - injection H as H. change f' with (fst (f', ok)). rewrite <- H. apply write_other. intros ->. apply N. left. reflexivity.
  - injection H as H. unfold gen_x25519_key_pair in H. destruct (actions_write k f pr _ _) as [f1 ok1] eqn:E.
    assert (A : f1 p = f p) by (change f1 with (fst (f1, ok1)); rewrite <- E; apply write_other; intros ->; apply N; left; reflexivity).
    destruct ok1; [|congruence]. change f' with (fst (f', ok)). rewrite <- H, write_other, A; [reflexivity|]. intros ->. apply N. right. left. reflexivity.
  - injection H as H. unfold gen_ed25519_key_pair in H. destruct (actions_write k f pr _ _) as [f1 ok1] eqn:E.
    assert (A : f1 p = f p) by (change f1 with (fst (f1, ok1)); rewrite <- E; apply write_other; intros ->; apply N; left; reflexivity).
    destruct ok1; [|congruence]. change f' with (fst (f', ok)). rewrite <- H, write_other, A; [reflexivity|]. intros ->. apply N. right. left. reflexivity.
  - destruct (days_to_times false now days) as [times| |]; cbn [obind] in H; try discriminate. unfold create_certificate in H.
    destruct (read_container f pr) as [x|]; [|congruence]. destruct (read_container f pu) as [y|]; [|congruence]. destruct (get_public_key_type y); [|congruence].
    destruct (to_buffer body_size body_write _); [|congruence]. destruct (calc_signature G _ x) as [[s|]| |]; cbn [obind] in H; try congruence.
    destruct (to_buffer chain_size chain_write _); [|congruence]. unfold file_write in H. destruct (to_buffer container_size _ _) as [d|]; [|congruence].
    destruct (file_put k f cp d) as [f1 ok1] eqn:E. assert (A : f1 p = f p) by (change f1 with (fst (f1, ok1)); rewrite <- E; apply put_other; intros ->; apply N; left; reflexivity).
    destruct ok1; congruence.
  - unfold append_certificate_chains in H. destruct (read_container f p1) as [x|]; [|congruence]. destruct (expect_certificate_chain x) as [cx|]; [|congruence].
    destruct (read_container f p2) as [y|]; [|congruence]. destruct (expect_certificate_chain y) as [cy|]; [|congruence].
    destruct (is_empty cx); [congruence|]. destruct (negb _); [congruence|]. destruct (read_all body_read _); [|congruence].
    destruct (chain_verify _ _ _ _) as [[v|v]| |]; cbn [obind] in H; try congruence. destruct (max_certificates <? _); [congruence|].
    destruct (to_buffer chain_size _ _); [|congruence]. unfold file_write in H. destruct (to_buffer container_size _ _) as [d|]; [|congruence].
    injection H as H. change f' with (fst (f', ok)). rewrite <- H. apply put_other. intros ->. apply N. left. reflexivity.
Qed.
Print Assumptions C43_outputs_only.

(** On a disk that works, a command that reports an error has changed nothing. *)
Theorem C43_failed_partial : forall P G k f c f', prims_ok P -> signer_ok P G -> files_ok f -> works k -> command_ok c -> short_term c ->
  run_command P G k f c = Ok (f', false) -> f' = f.
Proof.
  intros P G k f c f' OP S F W Hc St H. destruct c as [q|q r|pr pu r|pr pu r|cp pu pr now days level|p1 p2 o]; cbn [run_command command_ok short_term] in *.
  - congruence.
  - injection H as H. unfold gen_shared_secret in H. destruct Hc as [L B]. rewrite firstn_all2 in H by lia. rewrite write_ok, put_works in H; auto; [discriminate|]. apply (seq_ok_len _ 32); auto; reflexivity.
  - injection H as H. unfold gen_x25519_key_pair in H. destruct Hc as [L B]. rewrite write_ok, put_works in H; auto; [|apply (seq_ok_len _ 32); auto; reflexivity].
    destruct (ok_dh_public P OP r) as [L2 B2]. rewrite write_ok, put_works in H; auto; [discriminate|apply (seq_ok_len _ 32); auto; reflexivity].
  - injection H as H. unfold gen_ed25519_key_pair in H. destruct (sok_secret P G S r) as [L B]. rewrite write_ok, put_works in H; auto; [|apply (seq_ok_len _ 64); auto; reflexivity].
    destruct (sok_public P G S r) as [L2 B2]. rewrite write_ok, put_works in H; auto; [discriminate|apply (seq_ok_len _ 32); auto; reflexivity].
  - destruct Hc as (Hn & _ & Hl). rewrite days_short in H by assumption. cbn [obind] in H.
    assert (A : (now < 2 ^ 64)%N) by (change (2 ^ 64)%N with 18446744073709551616%N; change (2 ^ 63)%N with 9223372036854775808%N in Hn; lia).
    assert (B : (now + days * day_ms < 2 ^ 64)%N) by (change (2 ^ 64)%N with 18446744073709551616%N; change (2 ^ 63)%N with 9223372036854775808%N in Hn; unfold day_ms; lia).
    destruct (create_cases P G k f cp pu pr now (now + days * day_ms) level S F A B Hl) as [E|(key & Qk & R & [[Lk E]|(t & pk & R2 & L2 & B2 & Lk & E)])]; rewrite E in H; try congruence.
    rewrite put_works in H by exact W. congruence.
  - destruct (append_cases P k f p1 p2 o F) as [E|(h & le & e & lb & _ & _ & _ & _ & _ & _ & [[_ E]|(leaf & _ & _ & _ & E)])]; rewrite E in H; try congruence.
    rewrite put_works in H by exact W. congruence.
Qed.
Print Assumptions C43_failed_partial.

(** Otherwise a failed command can destroy the chain it was to extend, when the result is to
    replace it. *)
Theorem C43_truncated_refuted : forall P f first second h last_env env issuer leaf, files_ok f ->
  readable f first (chain_file (h ++ [last_env])) -> chain_ok (h ++ [last_env]) -> length h <= 4 ->
  readable f second (chain_file [env]) -> envelope_ok env -> subject_of last_env issuer -> issued P issuer env leaf -> end_entity leaf ->
  exists f', append_certificate_chains P (fun _ => Truncated 0) f first second first = Ok (f', false) /\ f' first = Some [].
Proof.
  intros P f p1 p2 h le e lb leaf F R1 C1 L R2 He [Hb Ew] I N. eexists. rewrite (append_spec P _ f p1 p2 p1 h le e lb leaf); auto.
  unfold file_put. split; [reflexivity|]. apply set_same.
Qed.
Print Assumptions C43_truncated_refuted.

(** Key generation on a disk that works stores the pair ... *)
Theorem C43_keys : forall P G k f private public random, prims_ok P -> signer_ok P G -> works k -> length random = 32 -> bytes_ok random -> private <> public ->
  (exists f', run_command P G k f (GenX25519 private public random) = Ok (f', true) /\
     f' private = Some (file_of ce_x25519_private_key random) /\ f' public = Some (file_of ce_x25519_public_key (p_dh_public P random))) /\
  (exists f', run_command P G k f (GenEd25519 private public random) = Ok (f', true) /\
     f' private = Some (file_of ce_ed25519_private_key (sg_secret G random)) /\ f' public = Some (file_of ce_ed25519_public_key (sg_public G random))).
Proof.
  intros P G k f pr pu r OP S W L B Ne. cbn [run_command]. split.
  - unfold gen_x25519_key_pair. rewrite write_ok, put_works; auto; [|apply (seq_ok_len _ 32); auto; reflexivity].
    destruct (ok_dh_public P OP r) as [L2 B2]. rewrite write_ok, put_works; auto; [|apply (seq_ok_len _ 32); auto; reflexivity].
    eexists. split; [reflexivity|]. split; [rewrite set_other by exact Ne; apply set_same|apply set_same].
  - unfold gen_ed25519_key_pair. destruct (sok_secret P G S r) as [L1 B1]. rewrite write_ok, put_works; auto; [|apply (seq_ok_len _ 64); auto; reflexivity].
    destruct (sok_public P G S r) as [L2 B2]. rewrite write_ok, put_works; auto; [|apply (seq_ok_len _ 32); auto; reflexivity].
    eexists. split; [reflexivity|]. split; [rewrite set_other by exact Ne; apply set_same|apply set_same].
Qed.
Print Assumptions C43_keys.

(** ... but given the same path twice it reports success and the secret key is lost. *)
Theorem C43_same_path_refuted : forall P G k f path random, prims_ok P -> signer_ok P G -> works k -> length random = 32 -> bytes_ok random ->
  exists f', run_command P G k f (GenX25519 path path random) = Ok (f', true) /\ f' path = Some (file_of ce_x25519_public_key (p_dh_public P random)).
Proof.
  intros P G k f p r OP S W L B. cbn [run_command]. unfold gen_x25519_key_pair. rewrite write_ok, put_works; auto; [|apply (seq_ok_len _ 32); auto; reflexivity].
  destruct (ok_dh_public P OP r) as [L2 B2]. rewrite write_ok, put_works; auto; [|apply (seq_ok_len _ 32); auto; reflexivity].
  eexists. split; [reflexivity|apply set_same].
Qed.
Print Assumptions C43_same_path_refuted.

(** ** C43: from the keys to a station *)

Lemma readable_set_same f p t d n : length d = n -> n <= 64 -> readable (set_file f p (file_of t d)) p (file_of t d).
Proof.
  intros L H. split; [apply set_same|]. rewrite (file_length t d n L). unfold der_length. destruct (N.ltb_spec (N.of_nat n) 128); [cbn [length]; lia|lia].
Qed.
Lemma readable_set_other f p d q x : q <> p -> readable f q x -> readable (set_file f p d) q x.
Proof. intros H [E L]. split; [rewrite set_other; assumption|exact L]. Qed.
Lemma files_ok_set f p d : files_ok f -> bytes_ok d -> files_ok (set_file f p d).
Proof. intros F B q x. unfold set_file. destruct (N.eqb q p); [congruence|apply F]. Qed.
Lemma file_bytes t d : seq_ok d -> bytes_ok (file_of t d).
Proof. intros H. apply wire_container_bytes. exact H. Qed.

(** Make an authority's keys and a device's keys, certify both with the authority's key, and give
    both certificates to the device: it starts exactly when the authority's level is above 0 and
    its validity covers the device's. *)
Theorem C43_end_to_end : forall P S G k root device t0 days0 level t1 days1, prims_ok P -> signer_ok P G -> sup_ed25519 S = true -> works k ->
  length root = 32 -> bytes_ok root -> length device = 32 -> bytes_ok device ->
  (t0 < 2 ^ 63)%N -> (t1 < 2 ^ 63)%N -> (days0 <= 24)%N -> (days1 <= 24)%N -> (level < 2 ^ 8)%N ->
  exists f anchor_file my_file, run_commands P G no_files
      [(k, GenEd25519 1 2 root); (k, GenX25519 3 4 device); (k, Certify 5 2 1 t0 days0 level); (k, Certify 6 4 1 t1 days1 0)] = Ok f /\
    f 5%N = Some anchor_file /\ f 6%N = Some my_file /\
    ((exists h, make_industrial P S anchor_file my_file = Ok (Some h)) <->
     (0 < level /\ t0 <= t1 /\ t1 + days1 * day_ms <= t0 + days0 * day_ms)%N).
Proof.
  intros P S G k root dev t0 d0 level t1 d1 OP SG Hs W Lr Br Ld Bd H0 H1 D0 D1 Hl.
  destruct (sok_secret P G SG root) as [L1 B1]. destruct (sok_public P G SG root) as [L2 B2]. destruct (ok_dh_public P OP dev) as [L4 B4].
  assert (Q1 : seq_ok (sg_secret G root)) by (apply (seq_ok_len _ 64); auto; reflexivity).
  assert (Q2 : seq_ok (sg_public G root)) by (apply (seq_ok_len _ 32); auto; reflexivity).
  assert (Q3 : seq_ok dev) by (apply (seq_ok_len _ 32); auto; reflexivity).
  assert (Q4 : seq_ok (p_dh_public P dev)) by (apply (seq_ok_len _ 32); auto; reflexivity).
  change (2 ^ 63)%N with 9223372036854775808%N in H0, H1.
  set (f1 := set_file no_files 1 (file_of ce_ed25519_private_key (sg_secret G root))).
  set (f2 := set_file f1 2 (file_of ce_ed25519_public_key (sg_public G root))).
  set (f3 := set_file f2 3 (file_of ce_x25519_private_key dev)).
  set (f4 := set_file f3 4 (file_of ce_x25519_public_key (p_dh_public P dev))).
  assert (F4 : files_ok f4) by (unfold f4, f3, f2, f1; repeat apply files_ok_set; auto using file_bytes; intros p d; discriminate).
  assert (R1 : readable f4 1 (file_of ce_ed25519_private_key (sg_secret G root))).
  { unfold f4, f3, f2. do 3 (apply readable_set_other; [discriminate|]). unfold f1. eapply readable_set_same; [exact L1|lia]. }
  assert (R2 : readable f4 2 (file_of ce_ed25519_public_key (sg_public G root))).
  { unfold f4, f3. do 2 (apply readable_set_other; [discriminate|]). unfold f2. eapply readable_set_same; [exact L2|lia]. }
  assert (R4 : readable f4 4 (file_of ce_x25519_public_key (p_dh_public P dev))).
  { unfold f4. eapply readable_set_same; [exact L4|lia]. }
  set (a := plain_body t0 (t0 + d0 * day_ms) level pk_Ed25519 (sg_public G root)).
  set (b := plain_body t1 (t1 + d1 * day_ms) 0 pk_X25519 (p_dh_public P dev)).
  assert (Ta : tool_body a) by (unfold a, day_ms; repeat eexists; auto; change (2 ^ 64)%N with 18446744073709551616%N; lia).
  assert (Tb : tool_body b) by (unfold b, day_ms; repeat eexists; auto; change (2 ^ 64)%N with 18446744073709551616%N; change (2 ^ 8)%N with 256%N; lia).
  set (f5 := set_file f4 5 (chain_file [signed G (sg_secret G root) a])).
  assert (Sm : forall x, tool_body x -> small (signed G (sg_secret G root) x)).
  { intros x (af & bf & l & t & pk & -> & A & B & C & L & Bk). apply (signed_small P G _ af bf l t pk); auto. }
  destruct (chain1_ok _ (Sm a Ta)) as (_ & Qa & La). destruct (chain1_ok _ (Sm b Tb)) as (_ & Qb & Lb).
  assert (F5 : files_ok f5) by (unfold f5; apply files_ok_set; [exact F4|apply file_bytes, Qa]).
  exists (set_file f5 6 (chain_file [signed G (sg_secret G root) b])), (chain_file [signed G (sg_secret G root) a]), (chain_file [signed G (sg_secret G root) b]).
  split.
  - cbn [run_commands run_command]. unfold gen_ed25519_key_pair. rewrite write_ok, put_works by assumption. rewrite write_ok, put_works by assumption.
    cbn [obind fst]. fold f1 f2. unfold gen_x25519_key_pair. rewrite write_ok, put_works by assumption. rewrite write_ok, put_works by assumption. cbn [obind fst]. fold f3 f4.
    rewrite days_short by (change (2 ^ 63)%N with 9223372036854775808%N; assumption). cbn [obind].
    rewrite (C43_create P G k f4 5 2 1 t0 (t0 + d0 * day_ms) level pk_Ed25519 (sg_secret G root) (sg_public G root)); auto; try (unfold day_ms; change (2 ^ 64)%N with 18446744073709551616%N; lia).
    cbn [obind fst]. fold a f5. rewrite days_short by (change (2 ^ 63)%N with 9223372036854775808%N; assumption). cbn [obind].
    rewrite (C43_create P G k f5 6 4 1 t1 (t1 + d1 * day_ms) 0 pk_X25519 (sg_secret G root) (p_dh_public P dev)); auto; try (unfold day_ms; change (2 ^ 64)%N with 18446744073709551616%N; lia); try reflexivity; unfold f5; apply readable_set_other; auto; discriminate.
  - split; [rewrite set_other by discriminate; apply set_same|]. split; [apply set_same|].
    destruct (C43_usable P S G (sg_secret G root) root a b SG Hs Ta eq_refl eq_refl Tb) as [U1 U2].
    assert (I : (end_entity b /\ covered a b) <-> (0 < level /\ t0 <= t1 /\ t1 + d1 * day_ms <= t0 + d0 * day_ms)%N) by (unfold end_entity, covered, a, b; cbn; intuition).
    rewrite <- I. split.
    + intros (h & E). assert (D : (0 < level \/ level = 0)%N) by lia. destruct (N.le_gt_cases t0 t1); destruct (N.le_gt_cases (t1 + d1 * day_ms) (t0 + d0 * day_ms)); destruct D; try (apply I; lia); exfalso; assert (N : ~ (end_entity b /\ covered a b)) by (rewrite I; lia); apply U2 in N; congruence.
    + intros X. eexists. apply U1, X.
Qed.
Print Assumptions C43_end_to_end.

(** A certificate made later than its authority's for the same number of days is refused. *)
Theorem C43_same_days_refuted : forall P S G root_key seed t0 t1 days level pk, signer_ok P G -> sup_ed25519 S = true ->
  (t0 < t1)%N -> (t1 < 2 ^ 63)%N -> (days <= 24)%N -> (level < 2 ^ 8)%N -> length pk = 32 -> bytes_ok pk ->
  make_industrial P S (chain_file [signed G root_key (plain_body t0 (t0 + days * day_ms) level pk_Ed25519 (sg_public G seed))])
    (chain_file [signed G (sg_secret G seed) (plain_body t1 (t1 + days * day_ms) 0 pk_X25519 pk)]) = Ok None.
Proof.
  intros P S G rk seed t0 t1 d level pk SG Hs Ht H1 Hd Hl L B. change (2 ^ 63)%N with 9223372036854775808%N in H1.
  destruct (sok_public P G SG seed) as [L2 B2].
  apply (C43_usable P S G rk seed _ _ SG Hs); try reflexivity.
  - unfold day_ms. repeat eexists; auto; change (2 ^ 64)%N with 18446744073709551616%N; lia.
  - unfold day_ms. repeat eexists; auto; change (2 ^ 64)%N with 18446744073709551616%N; change (2 ^ 8)%N with 256%N; lia.
  - intros (_ & _ & C & _). cbn in C. lia.
Qed.
Print Assumptions C43_same_days_refuted.

(** A run with the toy primitives: root of level 2, an intermediate authority, a device; the
    intermediate's certificate with the device's appended is accepted under the root, and appending
    a certificate of another authority is refused. *)
Definition ic_run : outcome files := run_commands toy toy_signer no_files
  (map (fun c => (fun _ => Stored, c)) [GenEd25519 1 2 (repeat 1%N 32); GenEd25519 3 4 (repeat 2%N 32); GenX25519 5 6 (repeat 3%N 32);
    Certify 7 2 1 1000 20 2; Certify 8 4 1 2000 10 1; Certify 9 6 3 3000 5 0; Append 8 9 10; Append 7 8 11; Append 10 9 12]%N).
Example C43_instance : exists f a c, ic_run = Ok f /\ f 7%N = Some a /\ f 10%N = Some c /\ f 11%N = None /\ f 12%N = None /\
  exists h, make_industrial toy sodium_supports a c = Ok (Some h).
Proof. destruct ic_run as [f| |] eqn:E; [|exfalso; vm_compute in E; discriminate..]. vm_compute in E. injection E as <-. do 3 eexists. split; [reflexivity|]. split; [reflexivity|]. split; [reflexivity|]. split; [reflexivity|]. split; [reflexivity|]. eexists. vm_compute. reflexivity. Qed.
