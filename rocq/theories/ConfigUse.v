(** * ConfigUse: proofs about the stacks made from a configuration *)
From Coq Require String Ascii.
From Verif Require Import Base BaseFacts Codec CodecSpec CodecFacts Link LinkSpec LinkLayer Primitives Session SessionFacts Handshake HandshakeSpec HandshakeFacts HandshakePair
  Endpoint PairSpec Stack StackSpec Icf IcfSpec IcfFacts Qix Config ConfigSpec ConfigFacts PropHandshake.
Import String.StringSyntax.
#[local] Open Scope string_scope.
#[local] Open Scope nat_scope.

Lemma read_session L M f root r ps p : library_ok L -> files_ok f -> read L M f root = ret (r, ps) -> In p ps -> exists n, says_session L f n p.
Proof.
  intros OL F H I. destruct (proj1 (read_iff L M f root ps OL F) (ex_intro _ r H)) as (ids & _ & (l & _ & S) & _). clear - I S.
  induction S as [|n q l ps S1 S IH]; [destruct I|]. destruct I as [<-|I]; eauto.
Qed.

Lemma number_range L n key high v : number L n key high v -> (Z.of_N v <= high)%Z.
Proof. intros (s & z & _ & _ & H & ->). lia. Qed.
Lemma number_or_range L n key high d v : number_or L n key high d v -> (Z.of_N d <= high)%Z -> (Z.of_N v <= high)%Z.
Proof. intros [H|[_ ->]] D; [eapply number_range; eauto|exact D]. Qed.

Lemma make_handler_ok P S f c h L hs : files_ok f -> says_credentials L f hs c -> make_handler P S c = ret (Some h) ->
  presents_ok h /\ match c with CPreshared _ _ remote => h = Preshared remote | _ => True end.
Proof.
  intros F (_ & C) H. destruct c as [k|s|pu pr re|pu pr an ch]; cbn [make_handler] in H; try discriminate.
  - apply ret_inj in H. injection H as <-. split; [split; [constructor|reflexivity]|reflexivity].
  - split; [|exact I]. apply rbind_iff in H as (x & H & X). apply ret_inj in X. injection X as ->.
    destruct C as (_ & _ & _ & (path & _ & R & L1)). assert (B : bytes_ok ch) by (eapply F; exact R).
    assert (Q : exists an ct, h = Industrial an (cf_payload ct) /\ Codec.read_all container_read ch = inl ct).
    { unfold make_industrial in H. destruct (read_anchor_cert an) as [a|]; [|discriminate]. unfold verify_presented_chain in H.
      destruct (Codec.read_all container_read ch) as [ct|] eqn:Ec; [|discriminate]. destruct (negb _); [discriminate|]. destruct (Codec.read_all chain_read _) as [cc|]; [|discriminate].
      destruct (chain_verify _ _ _ _) as [[?|?]| |]; cbn [obind] in H; try discriminate. unfold ret in H. injection H as <-. eauto. }
    destruct Q as (a & ct & -> & Ec). apply (read_all_iff _ _ _ rlaw_container) in Ec; [|exact B]. destruct Ec as [Q _]. exact Q.
Qed.

Lemma handler_some P S c h suite : make_handler P S c = ret h -> forall hs, make_initiator suite c h = Some hs ->
  match c with CSecret k => hs = ISharedSecret suite k | CQkd _ => hs = IQkd suite
  | CPreshared _ s _ | CCertificates _ s _ _ => exists g, h = Some g /\ hs = IPublicKey suite s g end.
Proof. intros H hs E. destruct c, h; cbn in *; try discriminate; injection E as <-; eauto. Qed.
Lemma handler_some_r P S c h : make_handler P S c = ret h -> forall hs, make_responder c h = Some hs ->
  match c with CSecret k => hs = RSharedSecret k | CQkd _ => hs = RQkd
  | CPreshared _ s _ | CCertificates _ s _ _ => exists g, h = Some g /\ hs = RPublicKey s g end.
Proof. intros H hs E. destruct c, h; cbn in *; try discriminate; injection E as <-; eauto. Qed.

(** What a created stack is *)
Definition is_stack (P : prims) (S : supports) (a : option addresses) (payload ttl : N) (C : econf) : Prop :=
  c_env C = {| e_prims := P; e_kind := match a with Some a => FLink a | None => FRaw end; e_max_payload := 4092; e_ttl_pad_ms := ttl |} /\
  c_supports C = S /\ c_payload_size C = N.to_nat payload /\ c_via_stack C = true.
Lemma create_initiator P S a g suite c C : create_stack P S {| fa_addresses := a; fa_role := FInitiator g suite c |} = ret C ->
  exists h hs, make_handler P S c = ret h /\ make_initiator suite c h = Some hs /\ initiator_constructible S hs = true /\
    c_role C = Initiator {| ic_handshake := hs; ic_limits := ig_limits g; ic_nonce_trigger := ig_nonce_trigger g |} /\ is_stack P S a (ig_max_payload g) (ig_ttl_pad_ms g) C.
Proof.
  unfold create_stack. cbn [fa_role fa_addresses]. intros H. apply rbind_iff in H as (h & H1 & H). destruct (make_initiator suite c h) as [hs|] eqn:E; [|discriminate].
  destruct (initiator_constructible S hs) eqn:K; [|discriminate]. apply ret_inj in H. subst C. exists h, hs. repeat split; auto.
Qed.
Lemma create_responder P S a g c C : create_stack P S {| fa_addresses := a; fa_role := FResponder g c |} = ret C ->
  exists h hs, make_handler P S c = ret h /\ make_responder c h = Some hs /\ c_role C = Responder hs /\ is_stack P S a (rg_max_payload g) (rg_ttl_pad_ms g) C.
Proof.
  unfold create_stack. cbn [fa_role fa_addresses]. intros H. apply rbind_iff in H as (h & H1 & H). destruct (make_responder c h) as [hs|] eqn:E; [|discriminate].
  apply ret_inj in H. subst C. exists h, hs. repeat split; auto.
Qed.
Lemma is_stack_of P S a payload ttl C : is_stack P S (Some a) payload ttl C -> stack_of C a.
Proof. intros (E & Hs & Hp & Hv). destruct C as [env sup r ps via]. cbn in *. subst. exists P, ttl, S, r, (N.to_nat payload). reflexivity. Qed.

Lemma says_link_range L n a : says_link L n (Some a) -> (a_source a < 65536)%N /\ (a_destination a < 65536)%N.
Proof. intros (l & s & _ & _ & _ & d & _ & A & B). apply number_range in A, B. lia. Qed.

Lemma usable_stack L f n p P S C : files_ok f -> says_session L f n p -> create_stack P S (pl_factory p) = ret C ->
  conf_typed C /\ (e_max_payload (c_env C) < 65536)%N /\ c_via_stack C = true /\
  match c_role C with
  | Initiator c => limits_ok (ic_limits c) /\ initiator_ok (ic_handshake c) /\ initiator_constructible S (ic_handshake c) = true
  | Responder h => responder_ok h
  end /\
  match fa_addresses (pl_factory p) with
  | Some a => stack_of C a /\ (a_source a < 65536)%N /\ (a_destination a < 65536)%N
  | None => e_kind (c_env C) = FRaw /\ exists a b c d, pl_transport p = Udp a b c d
  end.
Proof.
  intros F (_ & _ & _ & (K & sec & _ & R) & _ & T) H. destruct (pl_factory p) as [a role]. cbn [fa_addresses fa_role] in *.
  assert (X : match a with Some a => (a_source a < 65536)%N /\ (a_destination a < 65536)%N | None => exists a b c d, pl_transport p = Udp a b c d end).
  { destruct a as [a|]; [eapply says_link_range; eauto|]. destruct (pl_transport p) as [|x1 x2 x3 x4]; [destruct T; discriminate|eauto]. }
  destruct R as (hs & se & _ & _ & R). destruct role as [g suite c|g c].
  - destruct R as (_ & G & Cr & _). apply create_initiator in H as (h & hd & H1 & H2 & H3 & Hr & I). unfold conf_typed. rewrite Hr. cbn [ic_limits ic_handshake].
    destruct G as (_ & _ & G1 & G2 & _). apply number_or_range in G1; [|lia]. apply number_or_range in G2; [|lia].
    assert (LO : limits_ok (ig_limits g)) by (split; cbn; lia). assert (IO : initiator_ok hd).
    { pose proof (handler_some P S c h suite H1 hd H2) as Y. destruct c; try (subst hd; exact Logic.I); destruct Y as (gd & -> & ->); cbn; eapply make_handler_ok; eauto. }
    split; [lia|]. pose proof I as (E & _ & _ & V). rewrite E. cbn. split; [reflexivity|]. split; [exact V|]. split; [auto|].
    destruct a as [a|]; [split; [eapply is_stack_of; eauto|exact X]|split; [reflexivity|exact X]].
  - destruct R as (_ & G & Cr). apply create_responder in H as (h & hd & H1 & H2 & Hr & I). unfold conf_typed. rewrite Hr.
    assert (RO : responder_ok hd).
    { pose proof (handler_some_r P S c h H1 hd H2) as Y. destruct c; try (subst hd; exact Logic.I); destruct Y as (gd & -> & ->); cbn; eapply make_handler_ok; eauto. }
    split; [exact Logic.I|]. pose proof I as (E & _ & _ & V). rewrite E. cbn. split; [reflexivity|]. split; [exact V|]. split; [auto|].
    destruct a as [a|]; [split; [eapply is_stack_of; eauto|exact X]|split; [reflexivity|exact X]].
Qed.

(** ** Two stacks *)
Lemma anchor_read file a : anchor_in file a -> read_anchor_cert file = Some a.
Proof.
  intros (e & -> & C & Q & E & Ha). unfold read_anchor_cert, chain_file, file_of. rewrite read_wire_container by exact Q. cbn [cf_type cf_payload].
  change (negb (entry_eqb ce_certificate_chain ce_certificate_chain)) with false. cbn iota. rewrite read_wire_chain by exact C. rewrite E, read_wire_body by exact Ha. reflexivity.
Qed.
Lemma industrial_of P S af cf a c h : anchor_in af a -> chain_in cf c -> make_industrial P S af cf = Ok (Some h) -> h = Industrial a (wire_chain c).
Proof.
  intros A (-> & C & Q) H. unfold make_industrial in H. rewrite (anchor_read _ _ A) in H. unfold verify_presented_chain, chain_file, file_of in H.
  rewrite read_wire_container in H by exact Q. cbn [cf_type cf_payload] in H. change (negb (entry_eqb ce_certificate_chain ce_certificate_chain)) with false in H. cbn iota in H.
  rewrite read_wire_chain in H by exact C. destruct (chain_verify _ _ _ _) as [[?|?]| |]; cbn [obind] in H; try discriminate. injection H as <-. reflexivity.
Qed.

Definition qkd_ready (ia : ianswers) (ans : answers) : Prop := exists id key, ia_key ia = Some (id, key) /\ (id < 2 ^ 64)%N /\ ans_lookup ans id = Some key.
Lemma suits_configured P S S' ia ans suite ci cr hi hr gi gr : suits P (qkd_ready ia ans) ci cr ->
  make_handler P S ci = ret gi -> make_initiator suite ci gi = Some hi -> make_handler P S' cr = ret gr -> make_responder cr gr = Some hr ->
  configured P ia ans hi hr.
Proof.
  intros HS H1 H2 H3 H4. pose proof (handler_some _ _ _ _ _ H1 _ H2) as X. pose proof (handler_some_r _ _ _ _ H3 _ H4) as Y. clear H2 H4.
  destruct ci as [k|q|pu pr re|pu pr an ch], cr as [k'|q'|pu' pr' re'|pu' pr' an' ch']; cbn in HS; try contradiction.
  - subst. constructor.
  - subst. destruct HS as (id & key & A & B & C). econstructor; eauto.
  - destruct X as (g & -> & ->), Y as (g' & -> & ->), HS as [-> ->]. cbn in H1, H3. apply ret_inj in H1, H3. injection H1 as <-. injection H3 as <-. constructor; constructor.
  - destruct X as (g & -> & ->), Y as (g' & -> & ->). destruct HS as ((c1 & a2 & l1 & C1 & A2 & V1 & E1) & (c2 & a1 & l2 & C2 & A1 & V2 & E2)).
    cbn [make_handler] in H1, H3. apply rbind_iff in H1 as (x & H1 & X). apply ret_inj in X. injection X as ->. apply rbind_iff in H3 as (y & H3 & Y). apply ret_inj in Y. injection Y as ->.
    rewrite (industrial_of _ _ _ _ _ _ _ A1 C1 H1), (industrial_of _ _ _ _ _ _ _ A2 C2 H3). constructor; [reflexivity| |]; cbn [cert_data]; [rewrite <- E1|rewrite <- E2]; constructor; auto; [apply C1|apply C2].
Qed.

Lemma der_small v : (v < 128)%N -> length (der_length v) = 1.
Proof. intros H. unfold der_length. destruct (N.ltb_spec v 128); [reflexivity|lia]. Qed.
Lemma der_at_most3 v : (v < 65536)%N -> length (der_length v) <= 3.
Proof.
  intros H. unfold der_length. destruct (N.ltb_spec v 128); cbn [length]; [lia|]. rewrite be_bytes_length.
  assert (N.log2 v / 8 <= 1)%N; [|lia]. apply N.lt_succ_r. apply N.div_lt_upper_bound; [lia|]. change (8 * N.succ 1)%N with 16%N. apply N.log2_lt_pow2; [lia|exact H].
Qed.
Lemma der_three v : (256 <= v < 65536)%N -> length (der_length v) = 3.
Proof.
  intros H. unfold der_length. destruct (N.ltb_spec v 128); cbn [length]; [lia|]. rewrite be_bytes_length.
  assert (8 <= N.log2 v < 16)%N. { split; [change 8%N with (N.log2 256); apply N.log2_le_mono; lia|apply N.log2_lt_pow2; [lia|apply H]]. }
  assert (N.log2 v / 8 = 1)%N; [|lia]. symmetry. apply (N.div_unique _ 8 1 (N.log2 v - 8)); lia.
Qed.
Lemma request_length h l e d : length e <= 32 -> (N.of_nat (length d) < 65536)%N -> length (wire_request (make_request h l e d)) <= 17 + 33 + (3 + length d).
Proof.
  intros He Hd. unfold wire_request, wire_seq, wire_version, wire_spec, wire_constraints, make_request. cbn [rq_version rq_spec rq_constraints rq_mode rq_mode_ephemeral rq_mode_data].
  rewrite !app_length, !be_bytes_length, (der_small (N.of_nat (length e))) by lia. cbn [length]. pose proof (der_at_most3 _ Hd). lia.
Qed.
Lemma reply_length E h a : prims_ok (e_prims E) -> length (ans_random a) = 32 -> (N.of_nat (length (rp_mode_data (the_reply E h a))) < 65536)%N ->
  length (wire_reply (the_reply E h a)) <= 5 + 33 + (3 + length (rp_mode_data (the_reply E h a))).
Proof.
  intros HP Ha Hd. assert (He : length (rp_mode_ephemeral (the_reply E h a)) <= 32).
  { unfold the_reply. cbn. destruct h; cbn [length]; [lia|lia|]. rewrite (proj1 (ok_dh_public _ HP _)). lia. }
  unfold wire_reply, wire_seq, wire_version. rewrite !app_length, !be_bytes_length, (der_small (N.of_nat (length (rp_mode_ephemeral _)))) by lia. cbn [length]. pose proof (der_at_most3 _ Hd). lia.
Qed.
Lemma initialized P h ia ans hr i : prims_ok P -> ianswers_ok ia -> configured P ia ans h hr ->
  exists e d i1, initialize_new_handshake P h ia i = (Some (e, d), i1) /\ length e <= 32 /\
    match h with IPublicKey _ _ c => d = cert_data c | _ => length d <= 8 end.
Proof.
  intros HP [R _] C. destruct C as [suite key|suite id key E1 E2 E3|suite si ci sr cr E1 E2 E3]; cbn [initialize_new_handshake].
  - do 3 eexists. split; [reflexivity|]. cbn. lia.
  - rewrite E1. do 3 eexists. split; [reflexivity|]. rewrite be_bytes_length. cbn. lia.
  - do 3 eexists. split; [reflexivity|]. rewrite (proj1 (ok_dh_public _ HP _)). split; [lia|reflexivity].
Qed.

Lemma short_data P S L f hs c h : files_ok f -> says_credentials L f hs c -> make_handler P S c = ret h -> short_chain c -> match h with Some g => length (cert_data g) <= 4039 | None => True end.
Proof.
  intros F Cr H SC. destruct h as [g|]; [|exact I]. destruct c as [k|q|pu pr re|pu pr an ch]; cbn [make_handler] in H; try discriminate.
  - apply ret_inj in H. injection H as <-. cbn. lia.
  - apply rbind_iff in H as (x & H & X). apply ret_inj in X. injection X as ->. destruct Cr as (_ & _ & _ & _ & (path & _ & R & L1)).
    assert (B : bytes_ok ch) by (eapply F; exact R). cbn in SC. unfold make_industrial in H. destruct (read_anchor_cert an) as [a|]; [|discriminate]. unfold verify_presented_chain in H.
    destruct (Codec.read_all container_read ch) as [ct|] eqn:Ec; [|discriminate]. destruct (entry_eqb (cf_type ct) ce_certificate_chain) eqn:Et; [|discriminate]. cbn [negb] in H.
    destruct (Codec.read_all chain_read _) as [cc|] eqn:Ech; [|discriminate]. destruct (chain_verify _ _ _ _) as [[?|?]| |]; cbn [obind] in H; try discriminate.
    unfold ret in H. injection H as <-. cbn [cert_data]. apply (read_all_iff _ _ _ rlaw_container) in Ec; [|exact B]. destruct Ec as [Q Ec]. apply chain_read_wire in Ech as [Hc Ew]; [|apply Q].
    rewrite Ew. apply SC. unfold chain_in. rewrite <- Ew. split; [|split; [exact Hc|exact Q]]. unfold chain_file, file_of. rewrite <- Ew, Ec. apply entry_eqb_iff in Et. rewrite <- Et. destruct ct; reflexivity.
Qed.
Lemma dh_all P hi hr a b : (forall x y, dh_defined P x y) -> dh_works P hi hr a b.
Proof. intros H. destruct hi, hr; cbn; auto 10. Qed.

Lemma pair_works P S L1 f1 n1 p1 g suite ci C1 L2 f2 n2 p2 g2 cr C2 ia ans t0 t1 t2 :
  prims_ok P -> sup_ed25519 S = true -> (forall x y, dh_defined P x y) -> files_ok f1 -> files_ok f2 ->
  says_session L1 f1 n1 p1 -> fa_role (pl_factory p1) = FInitiator g suite ci -> create_stack P S (pl_factory p1) = ret C1 -> short_chain ci ->
  says_session L2 f2 n2 p2 -> fa_role (pl_factory p2) = FResponder g2 cr -> create_stack P S (pl_factory p2) = ret C2 -> short_chain cr ->
  ianswers_ok ia -> answers_ok ans -> suits P (qkd_ready ia ans) ci cr -> (t0 <= t2)%Z ->
  exists hi hr request reply si sr, c_role C1 = Initiator {| ic_handshake := hi; ic_limits := ig_limits g; ic_nonce_trigger := ig_nonce_trigger g |} /\ c_role C2 = Responder hr /\
    exchange (c_env C1) (c_env C2) S S hi hr (ig_limits g) ia ans t0 t1 t2 request reply si sr /\ matching si sr /\
    s_crypto_mode sr = sp_crypto_mode suite /\ p_max_nonce (s_param sr) = l_max_nonce (ig_limits g) /\ p_max_time (s_param sr) = (Z.of_N (l_max_time_ms (ig_limits g)) * 1000000)%Z.
Proof.
  intros HP HS HD F1 F2 S1 R1 K1 Sh1 S2 R2 K2 Sh2 Hia Hans HSu Ht.
  pose proof (usable_stack _ _ _ _ _ _ _ F1 S1 K1) as (_ & M1 & _ & U1 & _). pose proof (usable_stack _ _ _ _ _ _ _ F2 S2 K2) as (_ & M2 & _ & U2 & _).
  assert (Cr1 : exists h, says_credentials L1 f1 h ci).
  { destruct S1 as (_ & _ & _ & (_ & sec & _ & hh & ss & _ & _ & X) & _). rewrite R1 in X. destruct X as (_ & _ & X & _). eauto. }
  assert (Cr2 : exists h, says_credentials L2 f2 h cr).
  { destruct S2 as (_ & _ & _ & (_ & sec & _ & hh & ss & _ & _ & X) & _). rewrite R2 in X. destruct X as (_ & _ & X). eauto. }
  destruct Cr1 as (h1 & Cr1), Cr2 as (h2 & Cr2).
  destruct (pl_factory p1) as [a1 ro1], (pl_factory p2) as [a2 ro2]. cbn [fa_role] in *. subst ro1 ro2.
  apply create_initiator in K1 as (gi & hi & H1 & H2 & HC & Q1 & E1). apply create_responder in K2 as (gr & hr & H3 & H4 & Q2 & E2).
  pose proof (suits_configured _ _ _ _ _ _ _ _ _ _ _ _ HSu H1 H2 H3 H4) as CF.
  pose proof (short_data _ _ _ _ _ _ _ F1 Cr1 H1 Sh1) as D1. pose proof (short_data _ _ _ _ _ _ _ F2 Cr2 H3 Sh2) as D2.
  rewrite Q1 in U1. rewrite Q2 in U2. cbn [ic_handshake ic_limits] in U1. destruct U1 as (LO & IO & _).
  destruct E1 as (E1 & _), E2 as (E2 & _).
  destruct (initialized P hi ia ans hr new_ihs HP Hia CF) as (e & d & i1 & X & Le & Ld).
  assert (Ld' : length d <= 4039).
  { pose proof (handler_some _ _ _ _ _ H1 _ H2) as Y. destruct hi as [s k|s|s st c]; try lia. subst d. destruct ci; try discriminate; destruct Y as (gg & -> & [= -> -> ->]); exact D1. }
  assert (Lr : length (rp_mode_data (the_reply (c_env C2) hr ans)) <= 4039).
  { pose proof (handler_some_r _ _ _ _ H3 _ H4) as Y. cbn. destruct hr as [k| |st c]; cbn; try lia. destruct cr; try discriminate; destruct Y as (gg & -> & [= -> ->]); exact D2. }
  assert (P1 : e_prims (c_env C1) = P) by (rewrite E1; reflexivity). assert (P2 : e_prims (c_env C2) = P) by (rewrite E2; reflexivity).
  destruct (C22_completes (c_env C1) (c_env C2) S S hi hr (ig_limits g) ia ans t0 t1 t2 e d new_ihs i1) as (si & sr & EX); auto; rewrite ?P1, ?P2; auto.
  - apply dh_all, HD.
  - unfold fits. rewrite E1. cbn [e_max_payload]. pose proof (request_length hi (ig_limits g) e d Le ltac:(lia)). lia.
  - unfold fits. pose proof (reply_length (c_env C2) hr ans) as RL. rewrite P2 in RL. specialize (RL HP (proj1 Hans) ltac:(lia)). rewrite E2 in *. cbn [e_max_payload]. lia.
  - destruct (C22_key_agreement (c_env C1) (c_env C2) S S hi hr (ig_limits g) ia ans t0 t1 t2 _ _ si sr ltac:(rewrite P1; exact HP) ltac:(congruence) M1 M2 IO U2 LO Hia Hans ltac:(rewrite P1; exact CF) EX) as (MA & _ & A2 & A3 & A4 & _).
    exists hi, hr. do 4 eexists. split; [exact Q1|]. split; [exact Q2|]. split; [exact EX|]. split; [exact MA|]. split; [|split; [exact A3|exact A4]].
    rewrite A2. pose proof (handler_some _ _ _ _ _ H1 _ H2) as Y. destruct ci; try (destruct Y as (? & _ & ->)); try subst hi; reflexivity.
Qed.
