(** * HandshakeMain: the responder's decision, key agreement and transcript binding *)
From Verif Require Import Base BaseFacts Codec CodecSpec CodecFacts Link LinkSpec LinkFacts LinkLayer Primitives
  Session SessionSpec SessionFacts SessionMain Handshake HandshakeSpec HandshakeFacts.

Lemma ff_app {X} (l1 l2 : list (Prop * X)) r : first_failing l1 None -> first_failing l2 r -> first_failing (l1 ++ l2) r.
Proof. intros H1 H2. remember None as o eqn:Eo. induction H1; [exact H2|discriminate|]. cbn. apply ff_later; auto. Qed.
Lemma ff_app_some {X} (l1 l2 : list (Prop * X)) e : first_failing l1 (Some e) -> first_failing (l1 ++ l2) (Some e).
Proof. intros H1. remember (Some e) as o eqn:Eo. induction H1; [discriminate|cbn; injection Eo as ->; apply ff_here; assumption|cbn; apply ff_later; auto]. Qed.
Lemma ff_unique {X} (l : list (Prop * X)) r r' : first_failing l r -> first_failing l r' -> r = r'.
Proof. intros H. revert r'. induction H; intros r' H'; inversion H'; subst; try reflexivity; try contradiction. auto. Qed.

Lemma small_seq l n : bytes_ok l -> length l = n -> (N.of_nat n < 2 ^ 32)%N -> seq_ok l.
Proof. intros H <- Hn. split; assumption. Qed.
Lemma the_reply_ok E h ans : prims_ok (e_prims E) -> answers_ok ans -> responder_ok h -> reply_ok (the_reply E h ans).
Proof.
  intros HP [A1 A2] Hh. assert (Z : seq_ok []) by (split; [constructor|cbn; lia]).
  unfold the_reply, reply_ok. cbn [rp_version rp_mode_ephemeral rp_mode_data].
  split; [unfold version_ok; cbn; lia|].
  destruct h as [key| |s c]; cbn.
  - split; [apply (small_seq _ 32 A2 A1); lia|exact Z].
  - split; exact Z.
  - destruct (ok_dh_public _ HP (ans_random ans)) as [L B]. split; [apply (small_seq _ 32 B L); lia|exact Hh].
Qed.

Lemma configure_common_spec S m : first_failing (algorithm_checks S m) (configure_common S (rq_spec m)).
Proof.
  unfold algorithm_checks, configure_common, configure_handshake, configure_session.
  destruct (sp_hash (rq_spec m)), (sp_kdf (rq_spec m)). destruct (sup_sha256 S) eqn:E1; cbn [negb].
  - do 2 (apply ff_later; [discriminate|]). destruct (sp_crypto_mode (rq_spec m)).
    + apply ff_later; [discriminate|apply ff_none].
    + destruct (sup_gcm S); [apply ff_later; [discriminate|apply ff_none]|apply ff_here; reflexivity].
  - apply ff_here. reflexivity.
Qed.
Lemma configure_dh_spec S e : match configure_dh S e with
  | None => e = he_x25519 /\ sup_x25519 S = true
  | Some x => x = he_unsupported_handshake_ephemeral /\ ~ (e = he_x25519 /\ sup_x25519 S = true) end.
Proof. unfold configure_dh. destruct e, (sup_x25519 S) eqn:Es; cbn [negb]; try (split; [reflexivity|intros [X Y]; discriminate]). auto. Qed.

Lemma initialize_keys s nm cm p k : keys_valid k = true -> exists s', initialize s nm cm p k = (true, s', [st_init]) /\
  s_valid s' = true /\ s_rx_nonce s' = 0%N /\ s_tx_nonce s' = 0%N /\ s_nonce_mode s' = nm /\ s_crypto_mode s' = cm /\ s_param s' = p /\ s_keys s' = k.
Proof. intros H. unfold initialize. rewrite H. cbn [negb]. eexists. split; [reflexivity|]. cbn. auto 10. Qed.

Lemma finish_spec P msg now request reply ikm frame s r s' : prims_ok P ->
  responder_finish P msg now (hasher_compute P request reply) ikm frame s = Ok (r, s') ->
  r = inl frame /\ session_for s' (rq_spec msg) now (sc_max_nonce (rq_constraints msg)) (sc_max_session_duration (rq_constraints msg))
     (firstn 32 (okm P request reply (concat ikm))) (skipn 32 (okm P request reply (concat ikm))).
Proof.
  intros HP. unfold responder_finish. rewrite hasher_transcript.
  destruct (hkdf_rfc P (transcript_hash P request reply) ikm HP) as (K & L1 & L2).
  destruct (hkdf P (transcript_hash P request reply) ikm) as [k1 k2]. cbn [fst snd] in *.
  assert (V : keys_valid {| k_rx := k1; k_tx := k2 |} = true) by (unfold keys_valid; cbn; rewrite L1, L2; reflexivity).
  destruct (initialize_keys s (sp_nonce_mode (rq_spec msg)) (sp_crypto_mode (rq_spec msg)) (responder_param now (rq_constraints msg)) _ V) as (s1 & E1 & A1 & A2 & A3 & A4 & A5 & A6 & A7).
  rewrite E1. intros H. injection H as <- <-. split; [reflexivity|].
  unfold session_for, okm. rewrite A1, A2, A3, A4, A5, A6, A7, <- K. unfold responder_param. cbn [p_start p_max_nonce p_max_time k_rx k_tx ms].
  rewrite (firstn_app_len 32 k1 k2 L1), (skipn_app_len 32 k1 k2 L1). unfold ms. auto 12.
Qed.

Lemma dh_some P a b r : dh_x25519 P a b = Ok r -> 32 <= length b /\ r = p_dh P a (firstn 32 b).
Proof. unfold dh_x25519. destruct (Nat.ltb_spec (length b) 32); [discriminate|]. intros H0. injection H0 as <-. auto. Qed.

Lemma triple_dh_spec P s e rs re r : triple_dh P s e rs re = Ok r ->
  32 <= length re /\
  (r = None /\ (p_dh P e (firstn 32 re) = None \/ (exists a, p_dh P e (firstn 32 re) = Some a) /\ p_dh P e (firstn 32 rs) = None \/
     (exists a, p_dh P e (firstn 32 re) = Some a) /\ (exists b, p_dh P e (firstn 32 rs) = Some b) /\ p_dh P s (firstn 32 re) = None)
   \/ exists a b d, r = Some (a, b, d) /\ 32 <= length rs /\ p_dh P e (firstn 32 re) = Some a /\ p_dh P e (firstn 32 rs) = Some b /\ p_dh P s (firstn 32 re) = Some d).
Proof.
  unfold triple_dh. destruct (dh_x25519 P e re) as [r1| |] eqn:E1; cbn [obind]; try discriminate. apply dh_some in E1 as [L1 ->].
  split; [exact L1|]. destruct (p_dh P e (firstn 32 re)) as [a|] eqn:D1; [|left; split; [congruence|auto]].
  destruct (dh_x25519 P e rs) as [r2| |] eqn:E2; cbn [obind] in *; try discriminate. apply dh_some in E2 as [L2 ->].
  destruct (p_dh P e (firstn 32 rs)) as [b|] eqn:D2; [|left; split; [congruence|eauto]].
  destruct (dh_x25519 P s re) as [r3| |] eqn:E3; cbn [obind] in *; try discriminate. apply dh_some in E3 as [L3 ->].
  destruct (p_dh P s (firstn 32 re)) as [d|] eqn:D3; [|left; split; [congruence|eauto 8]].
  right. exists a, b, d. injection H as <-. auto.
Qed.

Lemma process_spec E S h ans m now s r s' : prims_ok (e_prims E) -> (e_max_payload E < 65536)%N -> answers_ok ans -> responder_ok h ->
  request_ok m -> major_version (rq_version m) = 0%N ->
  process E S h ans m (wire_request m) now s = Ok (r, s') ->
  match r with
  | inr e => decision E S h ans (wire_request m) (Some e) /\ s' = s
  | inl f => decision E S h ans (wire_request m) None /\ responded E h ans m (wire_request m) now f s'
  end.
Proof.
  intros HP Hm Ha Hh Hr Hv. pose proof (configure_common_spec S m) as CC.
  pose proof (the_reply_ok E h ans HP Ha Hh) as RO. pose proof (frame_write2_fits E _ _ (wlaw_reply _ RO) Hm) as FW.
  assert (FAIL : forall e, first_failing (mode_checks E S h ans m) (Some e) -> decision E S h ans (wire_request m) (Some e)).
  { intros e F. apply dec_mode; auto. discriminate. }
  destruct h as [key| |st c]; cbn [process].
  - destruct (Nat.eqb_spec (length (rq_mode_ephemeral m)) 32) as [L|L]; cbn [negb].
    2:{ intros H. injection H as <- <-. split; [|reflexivity]. apply FAIL. apply ff_here. exact L. }
    destruct (is_empty (rq_mode_data m)) eqn:Ee; cbn [negb].
    2:{ intros H. injection H as <- <-. split; [|reflexivity]. apply FAIL. apply ff_later; [lia|]. apply ff_here. intros X. rewrite X in Ee. discriminate. }
    apply is_empty_spec in Ee.
    destruct (configure_common S (rq_spec m)) as [e|].
    { intros H. injection H as <- <-. split; [|reflexivity]. apply FAIL. apply ff_later; [lia|]. apply ff_later; [congruence|]. apply ff_app_some. exact CC. }
    change (reply_write {| rp_version := version_get; rp_mode_ephemeral := ans_random ans; rp_mode_data := [] |})
      with (reply_write (the_reply E (RSharedSecret key) ans)). rewrite FW.
    destruct (N.leb_spec (N.of_nat (length (wire_reply (the_reply E (RSharedSecret key) ans)))) (e_max_payload E)) as [F|F].
    2:{ intros H. injection H as <- <-. split; [|reflexivity]. apply FAIL. apply ff_later; [lia|]. apply ff_later; [congruence|]. apply ff_app; [exact CC|].
        apply ff_here. unfold fits. lia. }
    intros H. apply finish_spec in H as [-> H]; [|exact HP]. split; [|split; [reflexivity|]].
    + apply dec_mode; auto; [|discriminate]. apply ff_later; [lia|]. apply ff_later; [congruence|]. apply ff_app; [exact CC|].
      apply ff_later; [unfold fits; lia|apply ff_none].
    + exists (key ++ rq_mode_ephemeral m ++ ans_random ans). split; [constructor|]. cbn [concat] in H. rewrite app_nil_r in H. exact H.
  - destruct (is_empty (rq_mode_ephemeral m)) eqn:Ee; cbn [negb].
    2:{ intros H. injection H as <- <-. split; [|reflexivity]. apply FAIL. apply ff_here. intros X. rewrite X in Ee. discriminate. }
    apply is_empty_spec in Ee.
    destruct (configure_common S (rq_spec m)) as [e|].
    { intros H. injection H as <- <-. split; [|reflexivity]. apply FAIL. apply ff_later; [congruence|]. apply ff_app_some. exact CC. }
    assert (AL : forall l r, first_failing l r -> first_failing ([(rq_mode_ephemeral m <> [], he_bad_message_format)] ++ algorithm_checks S m ++ l) r).
    { intros l r0 F. apply ff_later; [congruence|]. apply ff_app; [exact CC|exact F]. }
    unfold read_key_id. destruct (Nat.eqb_spec (length (rq_mode_data m)) 8) as [L|L].
    2:{ intros H. injection H as <- <-. split; [|reflexivity]. apply FAIL. apply AL. apply ff_here. exact L. }
    destruct (ans_lookup ans (be_value (rq_mode_data m))) as [key|] eqn:El.
    2:{ intros H. injection H as <- <-. split; [|reflexivity]. apply FAIL. apply AL. apply ff_later; [lia|]. apply ff_here. exact El. }
    change (reply_write {| rp_version := version_get; rp_mode_ephemeral := []; rp_mode_data := [] |})
      with (reply_write (the_reply E RQkd ans)). rewrite FW.
    destruct (N.leb_spec (N.of_nat (length (wire_reply (the_reply E RQkd ans)))) (e_max_payload E)) as [F|F].
    2:{ intros H. injection H as <- <-. split; [|reflexivity]. apply FAIL. apply AL. apply ff_later; [lia|]. apply ff_later; [congruence|]. apply ff_here. unfold fits. lia. }
    intros H. apply finish_spec in H as [-> H]; [|exact HP]. split; [|split; [reflexivity|]].
    + apply dec_mode; auto; [|discriminate]. apply AL. apply ff_later; [lia|]. apply ff_later; [congruence|]. apply ff_later; [unfold fits; lia|apply ff_none].
    + exists key. split; [constructor; exact El|]. cbn [concat] in H. rewrite app_nil_r in H. exact H.
  - destruct (configure_common S (rq_spec m)) as [e|].
    { intros H. injection H as <- <-. split; [|reflexivity]. apply FAIL. apply ff_app_some. exact CC. }
    pose proof (configure_dh_spec S (sp_ephemeral (rq_spec m))) as CD. destruct (configure_dh S (sp_ephemeral (rq_spec m))) as [e|].
    { intros H. injection H as <- <-. split; [|reflexivity]. destruct CD as [-> CD]. apply FAIL. apply ff_app; [exact CC|]. apply ff_here. exact CD. }
    destruct (Nat.eqb_spec (length (rq_mode_ephemeral m)) 32) as [L|L]; cbn [negb].
    2:{ intros H. injection H as <- <-. split; [|reflexivity]. apply FAIL. apply ff_app; [exact CC|]. apply ff_later; [tauto|]. apply ff_here. exact L. }
    assert (MC : first_failing (mode_checks E S (RPublicKey st c) ans m) None).
    { apply ff_app; [exact CC|]. apply ff_later; [tauto|]. apply ff_later; [lia|]. apply ff_none. }
    destruct (cert_validate (e_prims E) S c (rq_mode m) (rq_mode_data m)) as [v| |] eqn:Ev; cbn [obind]; try discriminate.
    apply cert_validate_spec in Ev; [|apply Hr]. destruct v as [remote|e].
    2:{ intros H. injection H as <- <-. split; [|reflexivity]. eapply dec_certificate; eauto. }
    destruct Ev as [Hmode TK]. destruct (sup_ed25519 S); cbn [negb]; [|discriminate].
    change (reply_write {| rp_version := version_get; rp_mode_ephemeral := p_dh_public (e_prims E) (ans_random ans); rp_mode_data := cert_data c |})
      with (reply_write (the_reply E (RPublicKey st c) ans)). rewrite FW.
    assert (LATE : forall r, first_failing (late_checks E c ans (RPublicKey st c) st m remote) r -> decision E S (RPublicKey st c) ans (wire_request m) r).
    { intros r0 F. eapply dec_certified; eauto. }
    destruct (N.leb_spec (N.of_nat (length (wire_reply (the_reply E (RPublicKey st c) ans)))) (e_max_payload E)) as [F|F].
    2:{ intros H. injection H as <- <-. split; [|reflexivity]. apply LATE. apply ff_here. unfold fits. lia. }
    destruct (triple_dh (e_prims E) st (ans_random ans) remote (rq_mode_ephemeral m)) as [t| |] eqn:Et; cbn [obind]; try discriminate.
    apply triple_dh_spec in Et as [_ Et]. rewrite (firstn_all2 (rq_mode_ephemeral m)) in Et by lia.
    assert (NF : ~ ~ fits E (length (wire_reply (the_reply E (RPublicKey st c) ans)))) by (unfold fits; lia).
    destruct Et as [[-> Et]|(a & b & d & -> & Lr & D1 & D2 & D3)].
    { intros H. injection H as <- <-. split; [|reflexivity]. apply LATE. apply ff_later; [exact NF|].
      destruct Et as [Et|[[[a Da] Et]|[[a Da] [[b Db] Et]]]].
      - apply ff_here. exact Et.
      - apply ff_later; [congruence|]. apply ff_here. exact Et.
      - apply ff_later; [congruence|]. apply ff_later; [congruence|]. apply ff_here. exact Et. }
    intros H. apply finish_spec in H as [-> H]; [|exact HP]. split; [|split; [reflexivity|]].
    + apply LATE. apply ff_later; [exact NF|]. do 3 (apply ff_later; [congruence|]). apply ff_none.
    + exists (a ++ b ++ d). split; [econstructor; eauto|]. cbn [concat] in H. rewrite app_nil_r in H. exact H.
Qed.

Lemma request_read_wire inp m : bytes_ok inp -> (request_read inp = inl m <-> request_ok m /\ inp = wire_request m).
Proof. exact (read_message_iff request_handshake_begin _ _ _ rlaw_request_fields inp m). Qed.
Lemma reply_read_wire inp m : bytes_ok inp -> (reply_read inp = inl m <-> reply_ok m /\ inp = wire_reply m).
Proof. exact (read_message_iff reply_handshake_begin _ _ _ rlaw_reply_fields inp m). Qed.
Lemma wire_request_inj m m' : request_ok m -> request_ok m' -> wire_request m = wire_request m' -> m = m'.
Proof.
  intros H H' E. assert (A : request_read (wire_request m) = inl m) by (apply request_read_wire; [apply wire_request_bytes, H|auto]).
  assert (B : request_read (wire_request m) = inl m') by (apply request_read_wire; [apply wire_request_bytes, H|auto]). congruence.
Qed.

Lemma respond_spec E S h ans bytes now s out s' : prims_ok (e_prims E) -> (e_max_payload E < 65536)%N -> answers_ok ans -> responder_ok h ->
  bytes_ok bytes -> respond_bytes E S h ans bytes now s = Ok (out, s') ->
  (exists e, decision E S h ans bytes (Some e) /\ error_reply E e out /\ s' = s) \/
  (decision E S h ans bytes None /\ exists m f, out = Some f /\ request_ok m /\ bytes = wire_request m /\ responded E h ans m bytes now f s').
Proof.
  intros HP Hm Ha Hh Hb. unfold respond_bytes. destruct (request_read bytes) as [m|pe] eqn:Er.
  - apply request_read_wire in Er as [Hr ->]; [|exact Hb]. unfold respond. change (major_version version_get) with 0%N.
    destruct (N.eqb_spec (major_version (rq_version m)) 0) as [V|V]; cbn [negb].
    + destruct (process E S h ans m (wire_request m) now s) as [[r s1]| |] eqn:Ep; cbn [obind]; try discriminate.
      apply process_spec in Ep; auto. destruct r as [f|e]; intros H; injection H as <- <-.
      * right. destruct Ep as [D R]. split; [exact D|]. exists m, f. auto.
      * left. exists e. destruct Ep as [D ->]. split; [exact D|]. split; [apply error_frame_spec, Hm|reflexivity].
    + intros H. injection H as <- <-. left. exists he_unsupported_version. split; [apply dec_version; assumption|].
      split; [apply error_frame_spec, Hm|reflexivity].
  - intros H. injection H as <- <-. left. exists he_bad_message_format. split; [|split; [apply error_frame_spec, Hm|reflexivity]].
    apply dec_malformed. intros m Hr ->. assert (X : request_read (wire_request m) = inl m) by (apply request_read_wire; auto). congruence.
Qed.

(** ** The initiator *)
Lemma ifinish_spec P h i l now request reply ikm s ok i' s' : prims_ok P -> i_hash i = p_sha256 P request ->
  initiator_finish P h i l now (p_sha256 P (concat [i_hash i; reply])) ikm s = Ok (ok, i', s') ->
  if ok then (i_time i <= now)%Z /\ session_for s' (get_crypto_spec h) (now - (now - i_time i) / 2)%Z (l_max_nonce l) (l_max_time_ms l)
     (skipn 32 (okm P request reply (concat ikm))) (firstn 32 (okm P request reply (concat ikm)))
  else (now < i_time i)%Z /\ s' = s.
Proof.
  intros HP Hi. unfold initiator_finish. assert (T : p_sha256 P (concat [i_hash i; reply]) = transcript_hash P request reply).
  { unfold transcript_hash. cbn [concat]. rewrite Hi, app_nil_r. reflexivity. }
  rewrite T. destruct (hkdf_rfc P (transcript_hash P request reply) ikm HP) as (K & L1 & L2).
  destruct (hkdf P (transcript_hash P request reply) ikm) as [k1 k2]. cbn [fst snd] in *.
  destruct (Z.ltb_spec now (i_time i)) as [X|X].
  { intros H. injection H as <- <- <-. auto. }
  assert (V : keys_valid {| k_rx := k2; k_tx := k1 |} = true) by (unfold keys_valid; cbn; rewrite L1, L2; reflexivity).
  set (p := {| p_start := (now - (now - i_time i) / 2)%Z; p_max_nonce := l_max_nonce l; p_max_time := ms (l_max_time_ms l) |}).
  destruct (initialize_keys s (sp_nonce_mode (get_crypto_spec h)) (sp_crypto_mode (get_crypto_spec h)) p _ V) as (s1 & E1 & A1 & A2 & A3 & A4 & A5 & A6 & A7).
  rewrite E1. intros H. injection H as <- <- <-. split; [exact X|].
  unfold session_for, okm. rewrite A1, A2, A3, A4, A5, A6, A7, <- K. unfold p, ms. cbn [p_start p_max_nonce p_max_time k_rx k_tx].
  rewrite (firstn_app_len 32 k1 k2 L1), (skipn_app_len 32 k1 k2 L1). auto 12.
Qed.

Lemma initialize_session_spec P S h i m l now s ok i' s' request : prims_ok P -> reply_ok m -> i_hash i = p_sha256 P request ->
  initialize_session P S h i m (wire_reply m) l now s = Ok (ok, i', s') ->
  if ok then exists ikm, initiator_material P i m h ikm /\ (i_time i <= now)%Z /\
    session_for s' (get_crypto_spec h) (now - (now - i_time i) / 2)%Z (l_max_nonce l) (l_max_time_ms l)
      (skipn 32 (okm P request (wire_reply m) ikm)) (firstn 32 (okm P request (wire_reply m) ikm))
  else s' = s.
Proof.
  intros HP Hr Hi. destruct h as [suite key|suite|suite st c]; cbn [initialize_session].
  - destruct (negb (_ =? _)); [intros H; injection H as <- <- <-; reflexivity|].
    destruct (negb (is_empty _)); [intros H; injection H as <- <- <-; reflexivity|].
    intros H. eapply ifinish_spec in H; [|exact HP|exact Hi]. destruct ok; [|apply H].
    exists (key ++ i_secret i ++ rp_mode_ephemeral m). split; [constructor|]. cbn [concat] in H. rewrite app_nil_r in H. exact H.
  - destruct (i_qkd_key i) as [key|] eqn:Ek; [|intros H; injection H as <- <- <-; reflexivity].
    destruct (negb (is_empty _)); [intros H; injection H as <- <- <-; reflexivity|].
    destruct (negb (is_empty _)); [intros H; injection H as <- <- <-; reflexivity|].
    intros H. eapply ifinish_spec in H; [|exact HP|exact Hi]. destruct ok; [|apply H].
    exists key. split; [constructor; exact Ek|]. cbn [concat] in H. rewrite app_nil_r in H. exact H.
  - destruct (cert_validate P S c (cert_mode c) (rp_mode_data m)) as [v| |] eqn:Ev; cbn [obind]; try discriminate.
    apply cert_validate_spec in Ev; [|apply Hr]. destruct v as [remote|e]; [|intros H; injection H as <- <- <-; reflexivity].
    destruct Ev as [_ TK].
    destruct (triple_dh P st (i_secret i) remote (rp_mode_ephemeral m)) as [t| |] eqn:Et; cbn [obind]; try discriminate.
    apply triple_dh_spec in Et as [_ Et]. destruct Et as [[-> Et]|(a & b & d & -> & Lr & D1 & D2 & D3)]; [intros H; injection H as <- <- <-; reflexivity|].
    intros H. eapply ifinish_spec in H; [|exact HP|exact Hi]. destruct ok; [|apply H].
    exists (a ++ d ++ b). split; [econstructor; eauto|]. cbn [concat] in H. rewrite app_nil_r in H. exact H.
Qed.
