(** * HandshakePair: both sides together, uniqueness of decisions, absence of undefined behaviour *)
From Verif Require Import Base BaseFacts Codec CodecSpec CodecFacts Link LinkSpec LinkFacts LinkLayer Primitives
  Session SessionSpec SessionFacts SessionMain Handshake HandshakeSpec HandshakeFacts HandshakeMain.

(** ** Decisions are unique *)
Lemma chain_walk_unique P S : forall c a r r', chain_walk P S a c r -> chain_walk P S a c r' -> r = r'.
Proof.
  induction c as [|x c IH]; intros a r r' H H'; inversion H; subst; inversion H'; subst.
  - match goal with A : first_failing _ ?u, B : first_failing _ ?v |- _ => rewrite (ff_unique _ _ _ A B) end. reflexivity.
  - match goal with A : first_failing _ ?u, B : first_failing _ ?v |- _ => pose proof (ff_unique _ _ _ A B) as X; injection X as -> end. reflexivity.
  - match goal with A : first_failing _ ?u, B : first_failing _ ?v |- _ => pose proof (ff_unique _ _ _ A B) as X; discriminate X end.
  - match goal with A : first_failing _ ?u, B : first_failing _ ?v |- _ => pose proof (ff_unique _ _ _ A B) as X; discriminate X end.
  - match goal with A : subject_of x ?u, B : subject_of x ?v |- _ => pose proof (subject_unique _ _ _ A B); subst end. eauto.
Qed.
Lemma chain_ok_nil : chain_ok [].
Proof. split; [constructor|cbn; lia]. Qed.

Lemma issue_path_walk P S : sup_ed25519 S = true -> forall c a b, Forall envelope_ok c -> issue_path P a c b -> end_entity b -> chain_walk P S a c (inl b).
Proof.
  intros Hs c a b Hc Hp He. destruct c as [|x c].
  - inversion Hp; subst. pose proof (end_check_walk P S b) as W. rewrite (proj2 (end_check_inl (inl b) b)) in W; auto.
  - apply chain_verify_walk; [discriminate|exact Hc|]. apply chain_verify_certifies; [exact Hs|exact Hc|]. split; [discriminate|auto].
Qed.
Lemma chain_ok_envelopes c : chain_ok c -> Forall envelope_ok c.
Proof. intros H. apply H. Qed.

Lemma cert_rejects_unique P S h mode data e e' : cert_rejects P S h mode data e -> cert_rejects P S h mode data e' -> e = e'.
Proof.
  intros H H'. destruct H as [h mode data Hm|key data Hd|anchor mine data Hf|anchor mine data He|anchor mine c e Hc Hn Hw];
    inversion H'; subst; try reflexivity; try (cbn in *; congruence).
  - exfalso. apply (Hf [] chain_ok_nil). reflexivity.
  - exfalso. eapply Hf; [|reflexivity]. assumption.
  - exfalso. match goal with X : forall c, chain_ok c -> wire_chain [] <> wire_chain c |- _ => apply (X [] chain_ok_nil eq_refl) end.
  - exfalso. match goal with X : wire_chain ?c = wire_chain [] |- _ => apply wire_chain_inj in X; [contradiction|assumption|apply chain_ok_nil] end.
  - exfalso. match goal with X : forall c, chain_ok c -> wire_chain ?d <> wire_chain c |- _ => apply (X _ Hc eq_refl) end.
  - exfalso. match goal with X : wire_chain c = wire_chain [] |- _ => apply wire_chain_inj in X; [contradiction|assumption|apply chain_ok_nil] end.
  - match goal with X : wire_chain ?c0 = wire_chain c |- _ => apply wire_chain_inj in X; [|assumption|assumption]; subst end.
    match goal with X : chain_walk P S anchor c (inr e') |- _ => pose proof (chain_walk_unique _ _ _ _ _ _ Hw X) as Y; congruence end.
Qed.
Lemma cert_rejects_takes P S h data e key : sup_ed25519 S = true -> cert_rejects P S h (cert_mode h) data e -> takes_key P h data key -> False.
Proof.
  intros Hs H T. destruct T as [k|anchor mine c leaf Hc (Hn & Hp & He)].
  - inversion H; subst; congruence.
  - inversion H; subst; try congruence.
    + match goal with X : forall c0, _ -> wire_chain c <> _ |- _ => apply (X c Hc eq_refl) end.
    + match goal with X : wire_chain c = wire_chain [] |- _ => apply wire_chain_inj in X; [contradiction|assumption|apply chain_ok_nil] end.
    + match goal with X : wire_chain _ = wire_chain c |- _ => apply wire_chain_inj in X; [|assumption|assumption]; subst end.
      match goal with X : chain_walk P S anchor c (inr e) |- _ =>
        pose proof (chain_walk_unique _ _ _ _ _ _ X (issue_path_walk P S Hs c anchor leaf (chain_ok_envelopes _ Hc) Hp He)) as Y; discriminate Y end.
Qed.

Lemma bytes_case bytes : (exists m, request_ok m /\ bytes = wire_request m) \/ (forall m, request_ok m -> bytes <> wire_request m).
Proof.
  assert (D : forall x, {byte_ok x} + {~ byte_ok x}) by (intros x; unfold byte_ok; destruct (N.ltb x 256) eqn:B; [left; apply N.ltb_lt, B|right; apply N.ltb_nlt, B]).
  destruct (Forall_dec byte_ok D bytes) as [Hb|Hb].
  - destruct (request_read bytes) as [m|e] eqn:Er.
    + left. exists m. apply request_read_wire in Er; auto.
    + right. intros m Hm ->. assert (X : request_read (wire_request m) = inl m) by (apply request_read_wire; auto). congruence.
  - right. intros m Hm ->. apply Hb. apply wire_request_bytes, Hm.
Qed.
Lemma decision_inv E S h ans m r : request_ok m -> decision E S h ans (wire_request m) r ->
  (major_version (rq_version m) <> 0%N /\ r = Some he_unsupported_version) \/
  (major_version (rq_version m) = 0%N /\
    ((first_failing (mode_checks E S h ans m) r /\ (r = None -> forall s c, h <> RPublicKey s c)) \/
     (exists s c e, h = RPublicKey s c /\ r = Some e /\ first_failing (mode_checks E S h ans m) None /\ cert_rejects (e_prims E) S c (rq_mode m) (rq_mode_data m) e) \/
     (exists s c remote, h = RPublicKey s c /\ first_failing (mode_checks E S h ans m) None /\ rq_mode m = cert_mode c /\
        takes_key (e_prims E) c (rq_mode_data m) remote /\ first_failing (late_checks E c ans h s m remote) r))).
Proof.
  intros Hm H. remember (wire_request m) as b eqn:Eb. destruct H as [b Hb|n Hn Hv|n r Hn Hv F X|n s c e Hn Hv Hh F X|n s c remote r Hn Hv Hh F M T X].
  - exfalso. exact (Hb m Hm Eb).
  - apply wire_request_inj in Eb; auto. subst n. auto.
  - apply wire_request_inj in Eb; auto. subst n. auto 6.
  - apply wire_request_inj in Eb; auto. subst n. right. split; [assumption|]. right. left. exists s, c, e. auto.
  - apply wire_request_inj in Eb; auto. subst n. right. split; [assumption|]. right. right. exists s, c, remote. auto.
Qed.
Lemma decision_unique E S h ans bytes r r' : sup_ed25519 S = true -> decision E S h ans bytes r -> decision E S h ans bytes r' -> r = r'.
Proof.
  intros Hs H H'. destruct (bytes_case bytes) as [(m & Hm & ->)|Hno].
  2:{ inversion H; inversion H'; subst; try reflexivity; exfalso; eapply Hno; eauto. }
  apply decision_inv in H; [|exact Hm]. apply decision_inv in H'; [|exact Hm].
  destruct H as [[Hv ->]|[Hv H]], H' as [[Hv' ->]|[Hv' H']]; try reflexivity; try contradiction.
  destruct H as [[F X]|[(s & c & e & -> & -> & F & X)|(s & c & k & -> & F & M & T & X)]], H' as [[F' X']|[(s' & c' & e' & E1 & -> & F' & X')|(s' & c' & k' & E1 & F' & M' & T' & X')]];
    try (injection E1 as <- <-); try (pose proof (ff_unique _ _ _ F F') as Y).
  - exact Y.
  - subst. exfalso. eapply X; reflexivity.
  - subst. exfalso. eapply X; reflexivity.
  - subst. exfalso. eapply X'; reflexivity.
  - f_equal. eapply cert_rejects_unique; eassumption.
  - exfalso. rewrite M' in X. eapply cert_rejects_takes; eassumption.
  - subst. exfalso. eapply X'; reflexivity.
  - exfalso. rewrite M in X'. eapply cert_rejects_takes; eassumption.
  - pose proof (takes_key_unique _ _ _ _ _ T T'). subst. eapply ff_unique; eassumption.
Qed.

(** ** Both sides *)
Lemma make_request_ok P h l ia i0 me md i1 : prims_ok P -> initiator_ok h -> limits_ok l -> ianswers_ok ia ->
  initialize_new_handshake P h ia i0 = (Some (me, md), i1) -> request_ok (make_request h l me md).
Proof.
  intros HP Hh [L1 L2] [A1 A2] H. assert (Z : seq_ok []) by (split; [constructor|cbn; lia]).
  assert (R : seq_ok (ia_random ia)) by (apply (small_seq _ 32 A2 A1); lia).
  assert (X : seq_ok me /\ seq_ok md).
  { destruct h as [suite key|suite|suite s c]; cbn [initialize_new_handshake] in H.
    - injection H as <- <- _. auto.
    - destruct (ia_key ia) as [[id key]|]; [|discriminate]. assert (Y : me = [] /\ md = be_bytes 8 id) by (split; congruence). destruct Y as [-> ->]. split; [exact Z|].
      apply (small_seq _ 8); [apply be_bytes_ok|apply be_bytes_length|lia].
    - injection H as <- <- _. destruct (ok_dh_public _ HP (ia_random ia)) as [L B]. split; [apply (small_seq _ 32 B L); lia|exact Hh]. }
  unfold request_ok, make_request. cbn. unfold version_ok, constraints_ok. cbn. repeat split; try apply X; try lia.
Qed.

Lemma frame_write2_ok E w bytes f b : wlaw bytes w -> (e_max_payload E < 65536)%N -> frame_write2 E w = Some (f, b) ->
  b = bytes /\ f = frame_of (e_kind E) bytes /\ fits E (length bytes).
Proof.
  intros Hw Hm. rewrite (frame_write2_fits E w bytes Hw Hm). destruct (N.leb_spec (N.of_nat (length bytes)) (e_max_payload E)) as [X|X]; [|discriminate].
  intros H. injection H as <- <-. auto.
Qed.

Lemma wire_error_reply e m : wire_error e <> wire_reply m.
Proof. unfold wire_error, wire_reply. cbn [app]. discriminate. Qed.

Lemma firstn_public P a : prims_ok P -> firstn 32 (p_dh_public P a) = p_dh_public P a.
Proof. intros HP. apply firstn_all2. rewrite (proj1 (ok_dh_public _ HP a)). lia. Qed.

Lemma materials P hi hr ia ans i0 me md i1 request t0 rq rp ikm_i ikm_r : prims_ok P -> configured P ia ans hi hr ->
  initialize_new_handshake P hi ia i0 = (Some (me, md), i1) ->
  rq_mode_ephemeral rq = me -> rq_mode_data rq = md ->
  rp_mode_ephemeral rp = match hr with RSharedSecret _ => ans_random ans | RQkd => [] | RPublicKey _ _ => p_dh_public P (ans_random ans) end ->
  rp_mode_data rp = match hr with RPublicKey _ c => cert_data c | _ => [] end ->
  initiator_material P (finalize_request_tx P request t0 i1) rp hi ikm_i -> responder_material P ans rq hr ikm_r -> ikm_i = ikm_r.
Proof.
  intros HP HC HI Eme Emd Erpe Erpd Hi Hr. destruct HC as [suite key|suite id key K1 K2 K3|suite si ci sr cr Hmode Ti Tr].
  - cbn in HI. injection HI as <- <- <-. inversion Hi; subst. inversion Hr; subst. cbn [finalize_request_tx i_secret]. congruence.
  - cbn [initialize_new_handshake] in HI. rewrite K1 in HI. assert (Y : md = be_bytes 8 id /\ i_qkd_key i1 = Some key) by (split; [congruence|injection HI as _ _ <-; reflexivity]).
    destruct Y as [Y1 Y2]. inversion Hi; subst. inversion Hr; subst. cbn [finalize_request_tx i_qkd_key] in *.
    match goal with X : ans_lookup ans _ = Some ikm_r |- _ => rewrite Y1, be_value_be_bytes, N.mod_small in X by (change (256 ^ N.of_nat 8)%N with (2 ^ 64)%N; exact K2) end. congruence.
  - cbn in HI. injection HI as <- <- <-. inversion Hi; subst. inversion Hr; subst. cbn [finalize_request_tx i_secret] in *.
    rewrite Erpe, Erpd in *. rewrite Eme, Emd in *.
    match goal with X : takes_key P ci _ ?k |- _ => pose proof (takes_key_unique _ _ _ _ _ Tr X); subst k end.
    match goal with X : takes_key P cr _ ?k |- _ => pose proof (takes_key_unique _ _ _ _ _ Ti X); subst k end.
    rewrite !(firstn_public P _ HP) in *.
    repeat match goal with A : p_dh P ?x (p_dh_public P ?y) = Some ?u, B : p_dh P ?y (p_dh_public P ?x) = Some ?v |- _ =>
      pose proof (ok_dh_agree _ HP _ _ _ _ A B); subst; clear A B end. reflexivity.
Qed.

Lemma okm_length P R A ikm : prims_ok P -> length (firstn 32 (okm P R A ikm)) = 32 /\ length (skipn 32 (okm P R A ikm)) = 32.
Proof.
  intros HP. unfold okm. destruct (hkdf_rfc P (transcript_hash P R A) [ikm] HP) as (K & L1 & L2). cbn [concat] in K. rewrite app_nil_r in K. rewrite <- K.
  rewrite firstn_length, skipn_length, app_length, L1, L2. split; reflexivity.
Qed.

Lemma exchange_sides Ei Er Si Sr hi hr l ia ans t0 t1 t2 request reply si sr :
  prims_ok (e_prims Ei) -> e_prims Er = e_prims Ei -> (e_max_payload Ei < 65536)%N -> (e_max_payload Er < 65536)%N ->
  initiator_ok hi -> responder_ok hr -> limits_ok l -> ianswers_ok ia -> answers_ok ans ->
  exchange Ei Er Si Sr hi hr l ia ans t0 t1 t2 request reply si sr -> configured (e_prims Ei) ia ans hi hr ->
  exists ikm, let K := okm (e_prims Ei) request reply ikm in
    session_for si (get_crypto_spec hi) (t2 - (t2 - t0) / 2)%Z (l_max_nonce l) (l_max_time_ms l) (skipn 32 K) (firstn 32 K) /\
    session_for sr (get_crypto_spec hi) t1 (l_max_nonce l) (l_max_time_ms l) (firstn 32 K) (skipn 32 K) /\ (t0 <= t2)%Z.
Proof.
  intros HP HE Mi Mr Hi Hr Hl Hia Ha X HC.
  destruct X as [i0 i1 i2 me md rf pending rp s0 X1 X2 X3 X4 X5].
  pose proof (make_request_ok _ _ _ _ _ _ _ _ HP Hi Hl Hia X1) as RQ.
  pose proof (frame_write2_ok _ _ _ _ _ (wlaw_request _ RQ) Mi X2) as (-> & _ & _).
  assert (Bq : bytes_ok (wire_request (make_request hi l me md))) by apply wire_request_bytes, RQ.
  pose proof X3 as R3. apply respond_spec in R3; auto; [|rewrite HE; exact HP].
  destruct R3 as [(e & D & [O|[_ O]] & _)|(D & m & f & O & Hm & Em & (Ef & ikm & RM & SR))].
  - exfalso. injection O as O. apply frame_of_inj in O. rewrite O in X4.
    apply reply_read_wire in X4; [|apply wire_error_bytes]. destruct X4 as [_ X4]. exact (wire_error_reply _ _ X4).
  - discriminate.
  - apply wire_request_inj in Em; auto. subst m. injection O as O. rewrite <- O in Ef. apply frame_of_inj in Ef.
    assert (RO : reply_ok (the_reply Er hr ans)) by (apply the_reply_ok; auto; rewrite HE; exact HP).
    subst reply. apply reply_read_wire in X4; [|apply wire_reply_bytes, RO]. destruct X4 as [RO' X4].
    assert (Q : rp = the_reply Er hr ans).
    { assert (A : reply_read (wire_reply rp) = inl rp) by (apply reply_read_wire; [apply wire_reply_bytes, RO'|auto]).
      assert (B : reply_read (wire_reply rp) = inl (the_reply Er hr ans)) by (apply reply_read_wire; [apply wire_reply_bytes, RO'|auto]). congruence. }
    subst rp. eapply initialize_session_spec in X5; [|exact HP|exact RO|cbn [finalize_request_tx i_hash concat]; rewrite app_nil_r; reflexivity].
    destruct X5 as (ikm' & IM & T & SI). rewrite HE in RM, SR.
    assert (Eikm : ikm' = ikm) by (eapply materials; try eassumption; cbn; reflexivity || (rewrite HE; reflexivity)). subst ikm'.
    exists ikm. cbn zeta. cbn [finalize_request_tx i_time] in *. split; [exact SI|]. split; [exact SR|exact T].
Qed.

Lemma finish_total P m now salt ikm f s : prims_ok P -> exists s', responder_finish P m now salt ikm f s = Ok (inl f, s').
Proof.
  intros HP. unfold responder_finish. destruct (hkdf P salt ikm) as [k1 k2]. destruct (initialize _ _ _ _ _) as [[ok s'] st]. eauto.
Qed.
Lemma ifinish_total P h i l now salt ikm s : prims_ok P -> (i_time i <= now)%Z -> exists i' s', initiator_finish P h i l now salt ikm s = Ok (true, i', s').
Proof.
  intros HP Ht. unfold initiator_finish. pose proof (hkdf_rfc P salt ikm HP) as (_ & L1 & L2). destruct (hkdf P salt ikm) as [k1 k2]. cbn [fst snd] in *.
  destruct (Z.ltb_spec now (i_time i)); [lia|].
  assert (V : keys_valid {| k_rx := k2; k_tx := k1 |} = true) by (unfold keys_valid; cbn; rewrite L1, L2; reflexivity).
  unfold initialize. rewrite V. cbn [negb]. eauto.
Qed.

(** What both backends must support for the suite of the initiator. *)
Lemma constructible_common S h : initiator_constructible S h = true -> configure_common S (get_crypto_spec h) = None.
Proof.
  assert (W : forall s e, configure_common S (with_ephemeral s e) = configure_common S s) by (intros s e; reflexivity).
  destruct h as [s k|s|s st c]; cbn [initiator_constructible get_crypto_spec]; rewrite ?W; destruct (configure_common S s); try discriminate; reflexivity.
Qed.
Lemma constructible_dh S s st c : initiator_constructible S (IPublicKey s st c) = true -> configure_dh S (sp_ephemeral s) = None.
Proof. cbn [initiator_constructible]. destruct (configure_common S s); [discriminate|]. destruct (configure_dh S (sp_ephemeral s)); [discriminate|reflexivity]. Qed.

Lemma dh_x25519_public P a b : prims_ok P -> dh_x25519 P a (p_dh_public P b) = Ok (p_dh P a (p_dh_public P b)).
Proof.
  intros HP. unfold dh_x25519. rewrite (proj1 (ok_dh_public _ HP b)). cbn [Nat.ltb Nat.leb]. rewrite (firstn_public P b HP). reflexivity.
Qed.

Lemma exchange_completes Ei Er Si Sr hi hr l ia ans t0 t1 t2 me md i0 i1 pending s0 :
  prims_ok (e_prims Ei) -> e_prims Er = e_prims Ei -> (e_max_payload Ei < 65536)%N -> (e_max_payload Er < 65536)%N ->
  initiator_ok hi -> responder_ok hr -> limits_ok l -> ianswers_ok ia -> answers_ok ans ->
  configured (e_prims Ei) ia ans hi hr -> dh_works (e_prims Ei) hi hr (ia_random ia) (ans_random ans) ->
  initiator_constructible Sr hi = true -> sup_ed25519 Si = true -> sup_ed25519 Sr = true ->
  initialize_new_handshake (e_prims Ei) hi ia i0 = (Some (me, md), i1) ->
  fits Ei (length (wire_request (make_request hi l me md))) -> fits Er (length (wire_reply (the_reply Er hr ans))) -> (t0 <= t2)%Z ->
  let request := wire_request (make_request hi l me md) in let reply := wire_reply (the_reply Er hr ans) in
  exists sr i2 si, respond_bytes Er Sr hr ans request t1 pending = Ok (Some (frame_of (e_kind Er) reply), sr) /\
    reply_read reply = inl (the_reply Er hr ans) /\
    initialize_session (e_prims Ei) Si hi (finalize_request_tx (e_prims Ei) request t0 i1) (the_reply Er hr ans) reply l t2 s0 = Ok (true, i2, si).
Proof.
  intros HP HE Mi Mr Hi Hr Hl Hia Ha HC HD HS Ed1 Ed2 X1 F1 F2 Ht request reply.
  pose proof (make_request_ok _ _ _ _ _ _ _ _ HP Hi Hl Hia X1) as RQ.
  assert (HPr : prims_ok (e_prims Er)) by (rewrite HE; exact HP).
  assert (RO : reply_ok (the_reply Er hr ans)) by (apply the_reply_ok; auto).
  pose proof (frame_write2_fits Er _ _ (wlaw_reply _ RO) Mr) as FW.
  destruct (N.leb_spec (N.of_nat (length (wire_reply (the_reply Er hr ans)))) (e_max_payload Er)) as [_|X]; [|unfold fits in F2; lia].
  fold reply in FW.
  assert (RR : request_read request = inl (make_request hi l me md)) by (apply request_read_wire; [apply wire_request_bytes, RQ|auto]).
  assert (RP : reply_read reply = inl (the_reply Er hr ans)) by (apply reply_read_wire; [apply wire_reply_bytes, RO|auto]).
  pose proof (constructible_common _ _ HS) as CC.
  enough (exists sr, process Er Sr hr ans (make_request hi l me md) request t1 pending = Ok (inl (frame_of (e_kind Er) reply), sr)) as [sr P1].
  enough (exists i2 si, initialize_session (e_prims Ei) Si hi (finalize_request_tx (e_prims Ei) request t0 i1) (the_reply Er hr ans) reply l t2 s0 = Ok (true, i2, si)) as (i2 & si & P2).
  { exists sr, i2, si. split; [|auto]. unfold respond_bytes. rewrite RR. unfold respond. cbn [make_request rq_version]. cbn [version_get major_version N.eqb negb].
    fold (make_request hi l me md). rewrite P1. reflexivity. }
  - destruct Hia as [A1 A2], Ha as [B1 B2]. destruct HC as [suite key|suite id key K1 K2 K3|suite si ci sr' cr Hmode Ti Tr].
    + cbn [initialize_session the_reply rp_mode_ephemeral rp_mode_data is_empty negb]. rewrite B1. cbn [Nat.eqb negb]. apply ifinish_total; assumption.
    + cbn [initialize_new_handshake] in X1. rewrite K1 in X1. assert (Y : i_qkd_key i1 = Some key) by (injection X1 as _ _ <-; reflexivity).
      cbn [initialize_session the_reply rp_mode_ephemeral rp_mode_data is_empty negb finalize_request_tx i_qkd_key]. rewrite Y. apply ifinish_total; assumption.
    + cbn [initialize_new_handshake] in X1. assert (Y : i_secret i1 = ia_random ia) by (injection X1 as _ _ <-; reflexivity).
      cbn [initialize_session the_reply rp_mode_ephemeral rp_mode_data]. rewrite (takes_key_validate _ _ _ _ _ Ed1 Tr). cbn [obind].
      unfold triple_dh. rewrite HE, !dh_x25519_public by exact HP. cbn [finalize_request_tx i_secret]. rewrite Y.
      destruct HD as ((a & D1) & _ & _ & (b & D2) & _ & (d & D3)). rewrite D1. cbn [obind]. rewrite D3. cbn [obind]. rewrite D2. cbn [obind].
      apply ifinish_total; assumption.
  - destruct Hia as [A1 A2], Ha as [B1 B2]. destruct HC as [suite key|suite id key K1 K2 K3|suite si ci sr cr Hmode Ti Tr].
    + cbn [initialize_new_handshake] in X1. injection X1 as <- <- _. unfold process.
      cbn [make_request rq_mode_ephemeral rq_mode_data rq_spec is_empty negb]. rewrite A1. cbn [Nat.eqb negb]. rewrite CC.
      change (reply_write {| rp_version := version_get; rp_mode_ephemeral := ans_random ans; rp_mode_data := [] |})
        with (reply_write (the_reply Er (RSharedSecret key) ans)). rewrite FW. apply finish_total. exact HPr.
    + cbn [initialize_new_handshake] in X1. rewrite K1 in X1. assert (Y : me = [] /\ md = be_bytes 8 id) by (split; congruence). destruct Y as [-> ->].
      unfold process. cbn [make_request rq_mode_ephemeral rq_mode_data rq_spec is_empty negb]. rewrite CC. unfold read_key_id. rewrite be_bytes_length. cbn [Nat.eqb].
      rewrite be_value_be_bytes, N.mod_small by (change (256 ^ N.of_nat 8)%N with (2 ^ 64)%N; exact K2). rewrite K3.
      change (reply_write {| rp_version := version_get; rp_mode_ephemeral := []; rp_mode_data := [] |})
        with (reply_write (the_reply Er RQkd ans)). rewrite FW. apply finish_total. exact HPr.
    + cbn [initialize_new_handshake] in X1. injection X1 as <- <- _. unfold process.
      cbn [make_request rq_mode_ephemeral rq_mode_data rq_spec rq_mode]. rewrite CC. cbn [get_crypto_spec]. rewrite (constructible_dh _ _ _ _ HS).
      rewrite (proj1 (ok_dh_public _ HP _)). cbn [Nat.eqb negb get_handshake_mode]. rewrite Hmode, HE, (takes_key_validate _ _ _ _ _ Ed2 Ti). cbn [obind].
      rewrite Ed2. cbn [negb]. rewrite <- HE.
      change (reply_write {| rp_version := version_get; rp_mode_ephemeral := p_dh_public (e_prims Er) (ans_random ans); rp_mode_data := cert_data cr |})
        with (reply_write (the_reply Er (RPublicKey sr cr) ans)). rewrite FW.
      unfold triple_dh. rewrite HE, !dh_x25519_public by exact HP.
      destruct HD as (_ & (a & D1) & (b & D2) & _ & (d & D3) & _). rewrite D1. cbn [obind]. rewrite D2. cbn [obind]. rewrite D3. cbn [obind].
      apply finish_total. exact HP.
Qed.

(** ** Transcript binding *)
Lemma binding P R A R' A' ikm ikm' : prims_ok P ->
  no_collision (p_sha256 P) (hash_inputs P R A ++ hash_inputs P R' A') ->
  no_collision (fun x => p_hmac P (fst x) (snd x)) (mac_inputs P R A ikm ++ mac_inputs P R' A' ikm') ->
  firstn 32 (okm P R A ikm) = firstn 32 (okm P R' A' ikm') -> R = R' /\ A = A' /\ ikm = ikm'.
Proof.
  intros HP NS NM H. unfold okm in H.
  assert (F : forall r a k, firstn 32 (rfc_hkdf P (transcript_hash P r a) k [] 64) = p_hmac P (p_hmac P (transcript_hash P r a) k) [1%N]).
  { intros r a k. destruct (hkdf_rfc P (transcript_hash P r a) [k] HP) as (K & L1 & L2). cbn [concat] in K. rewrite app_nil_r in K. rewrite <- K.
    rewrite (firstn_app_len 32 _ _ L1). unfold hkdf. cbn [concat]. rewrite !app_nil_r. reflexivity. }
  rewrite !F in H.
  assert (E1 : (p_hmac P (transcript_hash P R A) ikm, [1%N]) = (p_hmac P (transcript_hash P R' A') ikm', [1%N])).
  { apply NM; [cbn; auto|cbn; auto|exact H]. }
  injection E1 as E1.
  assert (E2 : (transcript_hash P R A, ikm) = (transcript_hash P R' A', ikm')) by (apply NM; [cbn; auto|cbn; auto|exact E1]).
  injection E2 as E2 E3. assert (E4 : p_sha256 P R ++ A = p_sha256 P R' ++ A') by (apply NS; [cbn; auto|cbn; auto|exact E2]).
  apply app_same_length in E4 as [E4 E5]; [|rewrite (proj1 (ok_sha256 _ HP R)), (proj1 (ok_sha256 _ HP R')); reflexivity].
  split; [apply NS; [cbn; auto|cbn; auto|exact E4]|auto].
Qed.

(** ** No undefined behaviour *)
Lemma verify_pair_safe P S a env : envelope_ok env -> 32 <= length (cb_public_key a) -> exists r, verify_pair P S a env = Ok r.
Proof.
  intros He Hk. unfold verify_pair. destruct (try_get_dsa_info S (cb_key_type a)) as [n|] eqn:En; [|eauto].
  assert (n = 64) by (unfold try_get_dsa_info in En; destruct (cb_key_type a); [destruct (sup_ed25519 S); congruence|discriminate]). subst n.
  destruct (Nat.eqb_spec 64 (length (env_signature env))) as [L|L]; cbn [negb]; [|eauto].
  unfold verify_ed25519. rewrite <- L. destruct (Nat.ltb_spec (length (cb_public_key a)) 32); [lia|]. cbn [Nat.ltb Nat.leb orb obind].
  destruct (negb _); [eauto|]. destruct (read_all body_read (env_body env)); [|eauto]. destruct (_ <? _)%N; [eauto|]. destruct (_ <? _)%N; [eauto|]. destruct (_ <=? _)%N; eauto.
Qed.
Lemma verify_loop_safe P S : forall c a, Forall envelope_ok c -> (forall chain b, issue_path P a chain b -> 32 <= length (cb_public_key b)) ->
  exists r, verify_loop P S a c = Ok r.
Proof.
  induction c as [|x c IH]; intros a Hc H; cbn [verify_loop]; [eauto|]. inversion Hc; subst.
  destruct (verify_pair_safe P S a x) as [[b|e] V]; [assumption|exact (H [] a (path_nil P a))| |]; rewrite V; cbn [obind]; [|eauto].
  apply IH; [assumption|]. intros chain d Hp. apply (H (x :: chain)). eapply path_cons; [|exact Hp].
  apply verify_pair_spec in V; [|assumption]. apply V.
Qed.
Lemma cert_validate_safe P S h mode data : bytes_ok data -> long_keys P h -> exists r, cert_validate P S h mode data = Ok r.
Proof.
  intros Hb H. destruct h as [key|anchor mine]; cbn [cert_validate].
  - destruct (negb _); [eauto|]. destruct (negb _); eauto.
  - destruct (negb _); [eauto|]. destruct (read_all chain_read data) as [c|e] eqn:Er; [|eauto].
    apply chain_read_wire in Er as [Hc _]; [|exact Hb]. destruct c as [|x c]; [cbn; eauto|].
    rewrite chain_verify_eq by discriminate. destruct (verify_loop_safe P S (x :: c) anchor (chain_ok_envelopes _ Hc) H) as [r ->]. cbn [obind].
    destruct (end_check r); eauto.
Qed.
Lemma takes_long P h data key : long_keys P h -> takes_key P h data key -> 32 <= length key.
Proof. intros H T. destruct T as [k|anchor mine c leaf Hc (Hn & Hp & He)]; cbn in H; [exact H|]. eapply H; eauto. Qed.
Lemma triple_dh_safe P s e rs re : 32 <= length rs -> 32 <= length re -> exists r, triple_dh P s e rs re = Ok r.
Proof.
  intros H1 H2. unfold triple_dh, dh_x25519. destruct (Nat.ltb_spec (length re) 32); [lia|]. destruct (Nat.ltb_spec (length rs) 32); [lia|]. cbn [obind].
  destruct (p_dh P e (firstn 32 re)); [|eauto]. destruct (p_dh P e (firstn 32 rs)); [|eauto]. destruct (p_dh P s (firstn 32 re)); eauto.
Qed.
Lemma finish_safe P m now salt ikm f s : exists r, responder_finish P m now salt ikm f s = Ok r.
Proof. unfold responder_finish. destruct (hkdf P salt ikm) as [k1 k2]. destruct (initialize _ _ _ _ _) as [[ok s'] st]. eauto. Qed.
Lemma ifinish_safe P h i l now salt ikm s : exists r, initiator_finish P h i l now salt ikm s = Ok r.
Proof. unfold initiator_finish. destruct (hkdf P salt ikm) as [k1 k2]. destruct (_ <? _)%Z; [eauto|]. destruct (initialize _ _ _ _ _) as [[ok s'] st]. eauto. Qed.

Lemma respond_safe E S h ans bytes now s : sup_ed25519 S = true -> bytes_ok bytes ->
  (forall st c, h = RPublicKey st c -> long_keys (e_prims E) c) -> exists r, respond_bytes E S h ans bytes now s = Ok r.
Proof.
  intros Hs Hb Hk. unfold respond_bytes. destruct (request_read bytes) as [m|e] eqn:Er; [|eauto]. apply request_read_wire in Er as [Hm _]; [|exact Hb].
  unfold respond. destruct (negb _); [eauto|].
  enough (exists r, process E S h ans m bytes now s = Ok r) as [[[f|e] s'] ->]; cbn [obind]; eauto.
  destruct h as [key| |st c]; cbn [process].
  - destruct (negb _); [eauto|]. destruct (negb _); [eauto|]. destruct (configure_common _ _); [eauto|].
    destruct (frame_write2 _ _) as [[f w]|]; [apply finish_safe|eauto].
  - destruct (negb _); [eauto|]. destruct (configure_common _ _); [eauto|]. destruct (read_key_id _); [|eauto]. destruct (ans_lookup _ _); [|eauto].
    destruct (frame_write2 _ _) as [[f w]|]; [apply finish_safe|eauto].
  - destruct (configure_common _ _); [eauto|]. destruct (configure_dh _ _); [eauto|].
    destruct (Nat.eqb_spec (length (rq_mode_ephemeral m)) 32) as [L|L]; cbn [negb]; [|eauto].
    assert (Bd : bytes_ok (rq_mode_data m)) by apply Hm.
    destruct (cert_validate_safe (e_prims E) S c (rq_mode m) (rq_mode_data m) Bd (Hk _ _ eq_refl)) as [v Ev]. rewrite Ev. cbn [obind].
    destruct v as [remote|e]; [|eauto]. rewrite Hs. cbn [negb]. destruct (frame_write2 _ _) as [[f w]|]; [|eauto].
    apply cert_validate_spec in Ev as [_ T]; [|exact Bd].
    destruct (triple_dh_safe (e_prims E) st (ans_random ans) remote (rq_mode_ephemeral m)) as [t ->]; [eapply takes_long; eauto|lia|]. cbn [obind].
    destruct t as [[[a b] d]|]; [apply finish_safe|eauto].
Qed.
Lemma initialize_session_safe P S h i m bytes l now s : bytes_ok (rp_mode_data m) ->
  (forall suite st c, h = IPublicKey suite st c -> long_keys P c /\ 32 <= length (rp_mode_ephemeral m)) ->
  exists r, initialize_session P S h i m bytes l now s = Ok r.
Proof.
  intros Hb Hk. destruct h as [suite key|suite|suite st c]; cbn [initialize_session].
  - destruct (negb _); [eauto|]. destruct (negb _); [eauto|]. apply ifinish_safe.
  - destruct (i_qkd_key i); [|eauto]. destruct (negb _); [eauto|]. destruct (negb _); [eauto|]. apply ifinish_safe.
  - destruct (Hk _ _ _ eq_refl) as [H1 H2]. destruct (cert_validate_safe P S c (cert_mode c) (rp_mode_data m) Hb H1) as [v Ev]. rewrite Ev. cbn [obind].
    destruct v as [remote|e]; [|eauto]. apply cert_validate_spec in Ev as [_ T]; [|exact Hb].
    destruct (triple_dh_safe P st (i_secret i) remote (rp_mode_ephemeral m)) as [t ->]; [eapply takes_long; eauto|exact H2|]. cbn [obind].
    destruct t as [[[a b] d]|]; [apply ifinish_safe|eauto].
Qed.
(** A reply with a short ephemeral key makes the initiator read out of bounds. *)
Lemma short_ephemeral P S suite st c i m bytes l now s key : sup_ed25519 S = true -> takes_key P c (rp_mode_data m) key ->
  length (rp_mode_ephemeral m) < 32 -> initialize_session P S (IPublicKey suite st c) i m bytes l now s = UB.
Proof.
  intros Hs T L. cbn [initialize_session]. rewrite (takes_key_validate _ _ _ _ _ Hs T). cbn [obind]. unfold triple_dh, dh_x25519.
  destruct (Nat.ltb_spec (length (rp_mode_ephemeral m)) 32); [reflexivity|lia].
Qed.

(** ** Consequences of a path *)
Lemma issue_path_bounds P : forall c a b, issue_path P a c b ->
  (cb_valid_after a <= cb_valid_after b)%N /\ (cb_valid_before b <= cb_valid_before a)%N /\
  (cb_signing_level b + N.of_nat (length c) <= cb_signing_level a)%N /\ (c <> [] -> cb_key_type a = pk_Ed25519).
Proof.
  intros c a b H. induction H as [a|a env b rest leaf I _ IH].
  - cbn. repeat split; try lia. congruence.
  - destruct I as [[K _] _ _ [N1 N2] Lv]. destruct IH as (I1 & I2 & I3 & _). cbn [length]. repeat split; try lia. auto.
Qed.
Lemma respond_time E S h ans bytes now now' s s' out out' p p' : respond_bytes E S h ans bytes now s = Ok (out, p) ->
  respond_bytes E S h ans bytes now' s' = Ok (out', p') -> out = out'.
Proof.
  unfold respond_bytes. destruct (request_read bytes) as [m|e]; [|congruence]. unfold respond. destruct (negb _); [congruence|].
  assert (F : forall salt ikm f, exists p1 p2, responder_finish (e_prims E) m now salt ikm f s = Ok (inl f, p1) /\ responder_finish (e_prims E) m now' salt ikm f s' = Ok (inl f, p2)).
  { intros salt ikm f. unfold responder_finish. destruct (hkdf _ _ _) as [k1 k2]. destruct (initialize s _ _ _ _) as [[? ?] ?]. destruct (initialize s' _ _ _ _) as [[? ?] ?]. eauto. }
  enough (G : forall r q r' q', process E S h ans m bytes now s = Ok (r, q) -> process E S h ans m bytes now' s' = Ok (r', q') -> r = r').
  { destruct (process E S h ans m bytes now s) as [[r q]| |]; cbn [obind]; try discriminate.
    destruct (process E S h ans m bytes now' s') as [[r' q']| |]; cbn [obind]; try discriminate.
    rewrite (G _ _ _ _ eq_refl eq_refl). destruct r'; congruence. }
  intros r q r' q'. destruct h as [key| |st c]; cbn [process].
  - destruct (negb _); [congruence|]. destruct (negb _); [congruence|]. destruct (configure_common _ _); [congruence|].
    destruct (frame_write2 _ _) as [[f w]|]; [|congruence].
    match goal with |- responder_finish _ _ _ ?salt ?ikm _ _ = _ -> _ => destruct (F salt ikm f) as (p1 & p2 & -> & ->); congruence end.
  - destruct (negb _); [congruence|]. destruct (configure_common _ _); [congruence|]. destruct (read_key_id _); [|congruence]. destruct (ans_lookup _ _); [|congruence].
    destruct (frame_write2 _ _) as [[f w]|]; [|congruence].
    match goal with |- responder_finish _ _ _ ?salt ?ikm _ _ = _ -> _ => destruct (F salt ikm f) as (p1 & p2 & -> & ->); congruence end.
  - destruct (configure_common _ _); [congruence|]. destruct (configure_dh _ _); [congruence|]. destruct (negb _); [congruence|].
    destruct (cert_validate _ _ _ _ _) as [[remote|e]| |]; cbn [obind]; try congruence. destruct (negb _); [congruence|].
    destruct (frame_write2 _ _) as [[f w]|]; [|congruence].
    destruct (triple_dh _ _ _ _ _) as [[[[a b] d]|]| |]; cbn [obind]; try congruence.
    match goal with |- responder_finish _ _ _ ?salt ?ikm _ _ = _ -> _ => destruct (F salt ikm f) as (p1 & p2 & -> & ->); congruence end.
Qed.
