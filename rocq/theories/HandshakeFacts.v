(** * HandshakeFacts: proofs about key derivation, certificate chains and handshakes *)
From Verif Require Import Base BaseFacts Codec CodecSpec CodecFacts Link LinkSpec LinkFacts LinkLayer Primitives
  Session SessionSpec SessionFacts SessionMain Handshake HandshakeSpec.

(** ** Key derivation *)
Lemma hkdf_rfc P salt ikm : prims_ok P ->
  fst (hkdf P salt ikm) ++ snd (hkdf P salt ikm) = rfc_hkdf P salt (concat ikm) [] 64 /\
  length (fst (hkdf P salt ikm)) = 32 /\ length (snd (hkdf P salt ikm)) = 32.
Proof.
  intros HP. unfold hkdf, rfc_hkdf, rfc_expand, rfc_extract. cbn [fst snd concat app].
  change ((64 + 31) / 32) with 2. cbn [seq map concat rfc_T app N.of_nat]. rewrite !app_nil_r. cbn [app].
  pose proof (proj1 (ok_hmac P HP (p_hmac P salt (concat ikm)) [1%N])) as L1.
  pose proof (proj1 (ok_hmac P HP (p_hmac P salt (concat ikm)) (p_hmac P (p_hmac P salt (concat ikm)) [1%N] ++ [2%N]))) as L2.
  cbn [Pos.of_succ_nat Pos.succ] in *.
  split; [|split; [exact L1|exact L2]].
  symmetry. apply firstn_all2. rewrite app_length, L1, L2. lia.
Qed.
Lemma hasher_transcript P a b : hasher_compute P a b = transcript_hash P a b.
Proof. unfold hasher_compute, transcript_hash. cbn [concat app]. rewrite !app_nil_r. reflexivity. Qed.

(** ** Certificate chains *)
Lemma body_read_wire inp b : bytes_ok inp -> (read_all body_read inp = inl b <-> body_ok b /\ inp = wire_body b).
Proof. exact (read_all_iff _ _ _ rlaw_body inp b). Qed.
Lemma wire_body_inj b b' : body_ok b -> body_ok b' -> wire_body b = wire_body b' -> b = b'.
Proof.
  intros H H' E. assert (A : read_all body_read (wire_body b) = inl b) by (apply body_read_wire; [apply wire_body_bytes, H|auto]).
  assert (B : read_all body_read (wire_body b) = inl b') by (apply body_read_wire; [apply wire_body_bytes, H|auto]). congruence.
Qed.
Lemma subject_unique env b b' : subject_of env b -> subject_of env b' -> b = b'.
Proof. intros [H E] [H' E']. apply wire_body_inj; auto. congruence. Qed.

Lemma verify_pair_spec P S issuer env r : envelope_ok env -> verify_pair P S issuer env = Ok r ->
  match r with
  | inr e => first_failing (pair_checks P S issuer env) (Some e)
  | inl b => first_failing (pair_checks P S issuer env) None /\ subject_of env b /\ issued P issuer env b
  end.
Proof.
  intros [_ [Hb _]]. unfold verify_pair, pair_checks.
  destruct (try_get_dsa_info S (cb_key_type issuer)) as [n|] eqn:Ed.
  2:{ intros H. injection H as <-. apply ff_here. intros [A B]. rewrite A in Ed. cbn in Ed. rewrite B in Ed. discriminate. }
  unfold try_get_dsa_info in Ed. destruct (cb_key_type issuer) eqn:Et; [|discriminate].
  destruct (sup_ed25519 S) eqn:Es; [|discriminate]. injection Ed as <-.
  assert (K1 : ~ ~ (pk_Ed25519 = pk_Ed25519 /\ true = true)) by tauto.
  destruct (Nat.eqb_spec 64 (length (env_signature env))) as [El|El]; cbn [negb].
  2:{ intros H. injection H as <-. apply ff_later; [exact K1|]. apply ff_here. auto. }
  assert (K2 : ~ length (env_signature env) <> 64) by (intros X; apply X; auto).
  unfold verify_ed25519. replace (length (env_signature env) <? 64) with false by (symmetry; apply Nat.ltb_ge; lia). cbn [orb].
  destruct (Nat.ltb_spec (length (cb_public_key issuer)) 32) as [Ek|Ek]; [discriminate|]. cbn [obind].
  rewrite (firstn_all2 (env_signature env)) by lia.
  destruct (p_verify P (env_body env) (env_signature env) (firstn 32 (cb_public_key issuer))) eqn:Ev; cbn [negb].
  2:{ intros H. injection H as <-. do 2 (apply ff_later; [assumption|]). apply ff_here. reflexivity. }
  assert (K3 : ~ true = false) by discriminate.
  destruct (read_all body_read (env_body env)) as [b|pe] eqn:Er.
  2:{ intros H. injection H as <-. do 3 (apply ff_later; [assumption|]). apply ff_here.
      intros b [B1 B2]. assert (X : read_all body_read (env_body env) = inl b) by (apply body_read_wire; auto). congruence. }
  apply body_read_wire in Er as [B1 B2]; [|exact Hb].
  assert (Sb : subject_of env b) by (split; assumption).
  assert (K4 : ~ forall b, ~ subject_of env b) by (intros X; exact (X b Sb)).
  destruct (N.ltb_spec (cb_valid_after b) (cb_valid_after issuer)) as [C1|C1].
  { intros H. injection H as <-. do 4 (apply ff_later; [assumption|]). apply ff_here. eauto. }
  assert (K5 : ~ exists b, subject_of env b /\ (cb_valid_after b < cb_valid_after issuer)%N).
  { intros (b' & Sb' & X). rewrite (subject_unique _ _ _ Sb' Sb) in X. lia. }
  destruct (N.ltb_spec (cb_valid_before issuer) (cb_valid_before b)) as [C2|C2].
  { intros H. injection H as <-. do 5 (apply ff_later; [assumption|]). apply ff_here. eauto. }
  assert (K6 : ~ exists b, subject_of env b /\ (cb_valid_before issuer < cb_valid_before b)%N).
  { intros (b' & Sb' & X). rewrite (subject_unique _ _ _ Sb' Sb) in X. lia. }
  destruct (N.leb_spec (cb_signing_level issuer) (cb_signing_level b)) as [C3|C3].
  { intros H. injection H as <-. do 6 (apply ff_later; [assumption|]). apply ff_here. eauto. }
  assert (K7 : ~ exists b, subject_of env b /\ (cb_signing_level issuer <= cb_signing_level b)%N).
  { intros (b' & Sb' & X). rewrite (subject_unique _ _ _ Sb' Sb) in X. lia. }
  intros H. injection H as <-. split; [|split; [exact Sb|]].
  - do 7 (apply ff_later; [assumption|]). apply ff_none.
  - constructor; auto.
Qed.

Lemma issued_verify_pair P S issuer env b : envelope_ok env -> sup_ed25519 S = true -> issued P issuer env b -> verify_pair P S issuer env = Ok (inl b).
Proof.
  intros [_ [Hb _]] Hs [[A1 A2] [B1 B2] [C1 C2] [D1 D2] F]. unfold verify_pair. rewrite A1. cbn [try_get_dsa_info]. rewrite Hs, B1. cbn [Nat.eqb negb].
  change (negb (64 =? 64)) with false. cbn iota. unfold verify_ed25519. rewrite B1, Nat.ltb_irrefl. cbn [orb].
  destruct (Nat.ltb_spec (length (cb_public_key issuer)) 32) as [X|X]; [lia|]. cbn [obind].
  rewrite (firstn_all2 (env_signature env)) by lia. rewrite B2. cbn [negb].
  rewrite (proj2 (body_read_wire (env_body env) b Hb)) by auto.
  destruct (N.ltb_spec (cb_valid_after b) (cb_valid_after issuer)); [lia|].
  destruct (N.ltb_spec (cb_valid_before issuer) (cb_valid_before b)); [lia|].
  destruct (N.leb_spec (cb_signing_level issuer) (cb_signing_level b)); [lia|]. reflexivity.
Qed.

Definition end_check (r : CertificateBody + HandshakeError) : CertificateBody + HandshakeError :=
  match r with
  | inr e => inr e
  | inl parent => if negb (cb_signing_level parent =? 0)%N then inr he_bad_certificate_chain
                  else if negb (is_dh_key (cb_key_type parent)) then inr he_bad_certificate_chain else inl parent
  end.
Lemma chain_verify_eq P S a c : c <> [] -> chain_verify P S a c = let* r := verify_loop P S a c in Ok (end_check r).
Proof.
  intros H. destruct c as [|x c]; [congruence|]. unfold chain_verify. destruct (verify_loop P S a (x :: c)) as [[b|e]| |]; cbn [obind end_check]; try reflexivity.
  destruct (negb _); [reflexivity|]. destruct (negb _); reflexivity.
Qed.
Lemma end_check_walk P S a : chain_walk P S a [] (end_check (inl a)).
Proof.
  cbn [end_check]. destruct (N.eqb_spec (cb_signing_level a) 0) as [H|H]; cbn [negb].
  - destruct (cb_key_type a) eqn:Et; cbn [is_dh_key negb].
    + apply (walk_end P S a (Some he_bad_certificate_chain)). apply ff_later; [lia|]. apply ff_here. congruence.
    + apply (walk_end P S a None). apply ff_later; [lia|]. apply ff_later; [congruence|]. apply ff_none.
  - apply (walk_end P S a (Some he_bad_certificate_chain)). apply ff_here. exact H.
Qed.
Lemma verify_loop_walk P S : forall c a r, Forall envelope_ok c -> verify_loop P S a c = Ok r -> chain_walk P S a c (end_check r).
Proof.
  induction c as [|x c IH]; intros a r Hc H; cbn [verify_loop] in H.
  - injection H as <-. apply end_check_walk.
  - apply Forall_cons_iff in Hc as [Hx Hc]. destruct (verify_pair P S a x) as [v| |] eqn:Ev; cbn [obind] in H; try discriminate.
    apply verify_pair_spec in Ev; [|exact Hx]. destruct v as [b|e].
    + destruct Ev as (F & Sb & I). eapply walk_next; [exact F|exact Sb|]. apply IH; assumption.
    + injection H as <-. apply walk_stop. exact Ev.
Qed.
Lemma chain_verify_walk P S a c r : c <> [] -> Forall envelope_ok c -> chain_verify P S a c = Ok r -> chain_walk P S a c r.
Proof.
  intros Hn Hc. rewrite (chain_verify_eq _ _ _ _ Hn). destruct (verify_loop P S a c) as [v| |] eqn:E; cbn [obind]; try discriminate.
  intros H. injection H as <-. apply verify_loop_walk; assumption.
Qed.
Lemma verify_loop_path P S : sup_ed25519 S = true -> forall c a b, Forall envelope_ok c ->
  (verify_loop P S a c = Ok (inl b) <-> issue_path P a c b).
Proof.
  intros Hs. induction c as [|x c IH]; intros a b Hc; cbn [verify_loop].
  - split; [intros H; injection H as <-; constructor|intros H; inversion H; reflexivity].
  - apply Forall_cons_iff in Hc as [Hx Hc]. split.
    + destruct (verify_pair P S a x) as [v| |] eqn:Ev; cbn [obind]; try discriminate.
      apply verify_pair_spec in Ev; [|exact Hx]. destruct v as [d|e]; [|discriminate].
      intros H. apply IH in H; [|exact Hc]. destruct Ev as (_ & _ & I). econstructor; eassumption.
    + intros H. inversion H as [|a' e d rest leaf I Pth]; subst. rewrite (issued_verify_pair _ _ _ _ _ Hx Hs I). cbn [obind]. apply IH; assumption.
Qed.
Lemma verify_pair_sup P S a x b : verify_pair P S a x = Ok (inl b) -> sup_ed25519 S = true.
Proof.
  unfold verify_pair, try_get_dsa_info. destruct (cb_key_type a); [|discriminate]. destruct (sup_ed25519 S); [reflexivity|discriminate].
Qed.
Lemma end_check_inl r b : end_check r = inl b <-> r = inl b /\ end_entity b.
Proof.
  unfold end_check, end_entity. destruct r as [a|e]; [|split; [discriminate|intros [? _]; discriminate]].
  destruct (N.eqb_spec (cb_signing_level a) 0) as [H|H]; cbn [negb].
  - destruct (cb_key_type a) eqn:Et; cbn [is_dh_key negb]; split; try discriminate.
    + intros [X [_ Y]]. injection X as <-. congruence.
    + intros X. injection X as <-. auto.
    + intros [X _]. exact X.
  - split; [discriminate|]. intros [X [Y _]]. injection X as <-. congruence.
Qed.
Lemma chain_verify_certifies P S a c b : sup_ed25519 S = true -> Forall envelope_ok c ->
  (chain_verify P S a c = Ok (inl b) <-> chain_certifies P a c b).
Proof.
  intros Hs Hc. unfold chain_certifies. destruct c as [|x c].
  { cbn. split; [discriminate|intros [X _]; congruence]. }
  rewrite chain_verify_eq by discriminate. rewrite <- (verify_loop_path P S Hs) by exact Hc.
  destruct (verify_loop P S a (x :: c)) as [v| |]; cbn [obind]; [|split; [discriminate|intros (_ & X & _); discriminate]..].
  split.
  - intros H. assert (E : end_check v = inl b) by congruence. apply end_check_inl in E as [-> E]. split; [discriminate|auto].
  - intros (_ & H & E). assert (v = inl b) as -> by congruence. do 1 f_equal. apply end_check_inl. auto.
Qed.
Lemma chain_verify_sup P S a c b : chain_verify P S a c = Ok (inl b) -> sup_ed25519 S = true.
Proof.
  destruct c as [|x c]; [discriminate|]. rewrite chain_verify_eq by discriminate. cbn [verify_loop].
  destruct (verify_pair P S a x) as [[d|e]| |] eqn:Ev; cbn [obind]; try discriminate.
  intros _. exact (verify_pair_sup _ _ _ _ _ Ev).
Qed.

Lemma chain_read_wire inp c : bytes_ok inp -> (read_all chain_read inp = inl c <-> chain_ok c /\ inp = wire_chain c).
Proof. exact (read_all_iff _ _ _ rlaw_chain inp c). Qed.
Lemma wire_chain_inj c c' : chain_ok c -> chain_ok c' -> wire_chain c = wire_chain c' -> c = c'.
Proof.
  intros H H' E. assert (A : read_all chain_read (wire_chain c) = inl c) by (apply chain_read_wire; [apply wire_chain_bytes, H|auto]).
  assert (B : read_all chain_read (wire_chain c) = inl c') by (apply chain_read_wire; [apply wire_chain_bytes, H|auto]). congruence.
Qed.
Lemma mode_eqb_spec a b : mode_eqb a b = true <-> a = b.
Proof. destruct a, b; cbn; split; congruence. Qed.
Lemma is_empty_spec {A} (l : list A) : is_empty l = true <-> l = [].
Proof. destruct l; cbn; split; congruence. Qed.

Lemma cert_validate_spec P S h mode data r : bytes_ok data -> cert_validate P S h mode data = Ok r ->
  match r with
  | inl key => mode = cert_mode h /\ takes_key P h data key
  | inr e => cert_rejects P S h mode data e
  end.
Proof.
  intros Hd. destruct h as [key|anchor mine]; cbn [cert_validate].
  - destruct (mode_eqb mode hm_public_keys) eqn:Em; cbn [negb].
    2:{ intros H. injection H as <-. apply rej_mode. cbn. intros ->. discriminate. }
    apply mode_eqb_spec in Em as ->. destruct (is_empty data) eqn:Ee; cbn [negb].
    + apply is_empty_spec in Ee as ->. intros H. injection H as <-. split; [reflexivity|constructor].
    + intros H. injection H as <-. apply rej_data. intros ->. discriminate.
  - destruct (mode_eqb mode hm_industrial_certificates) eqn:Em; cbn [negb].
    2:{ intros H. injection H as <-. apply rej_mode. cbn. intros ->. discriminate. }
    apply mode_eqb_spec in Em as ->. destruct (read_all chain_read data) as [c|pe] eqn:Er.
    + apply chain_read_wire in Er as [Hc ->]; [|exact Hd].
      destruct (chain_verify P S anchor c) as [v| |] eqn:Ev; cbn [obind]; try discriminate.
      destruct v as [b|e]; intros H; injection H as <-.
      * split; [reflexivity|]. apply takes_certified; [exact Hc|].
        apply (chain_verify_certifies P S); [exact (chain_verify_sup _ _ _ _ _ Ev)|apply Hc|exact Ev].
      * destruct c as [|x c].
        { cbn in Ev. injection Ev as <-. apply rej_empty. reflexivity. }
        apply rej_chain; [exact Hc|discriminate|]. apply chain_verify_walk; [discriminate|apply Hc|exact Ev].
    + intros H. injection H as <-. apply rej_format. intros c Hc ->.
      assert (X : read_all chain_read (wire_chain c) = inl c) by (apply chain_read_wire; auto). congruence.
Qed.
Lemma takes_key_validate P S h data key : sup_ed25519 S = true -> takes_key P h data key -> cert_validate P S h (cert_mode h) data = Ok (inl key).
Proof.
  intros Hs H. destruct H as [k|anchor mine c leaf Hc HC].
  - reflexivity.
  - cbn [cert_validate cert_mode]. change (mode_eqb hm_industrial_certificates hm_industrial_certificates) with true. cbn [negb].
    rewrite (proj2 (chain_read_wire (wire_chain c) c (wire_chain_bytes c Hc))) by auto.
    rewrite (proj2 (chain_verify_certifies P S anchor c leaf Hs (proj1 Hc)) HC). reflexivity.
Qed.
Lemma takes_key_unique P h data k k' : takes_key P h data k -> takes_key P h data k' -> k = k'.
Proof.
  intros H H'. pose proof (takes_key_validate P sodium_supports h data k eq_refl H) as A.
  pose proof (takes_key_validate P sodium_supports h data k' eq_refl H') as B. congruence.
Qed.

(** ** Frames *)
Lemma frame_write2_fst E w : option_map fst (frame_write2 E w) = frame_write E w.
Proof. reflexivity. Qed.
Lemma frame_write2_fits E w bytes : wlaw bytes w -> (e_max_payload E < 65536)%N ->
  frame_write2 E w = if (N.of_nat (length bytes) <=? e_max_payload E)%N then Some (frame_of (e_kind E) bytes, bytes) else None.
Proof.
  intros Hw Hm. assert (A : forall f b, frame_write2 E w = Some (f, b) -> b = bytes).
  { unfold frame_write2, link_frame_write, raw_frame_write. intros f b. destruct (e_kind E).
    - rewrite Hw. destruct (_ <=? _); [|discriminate]. destruct (_ <? 4); [discriminate|]. destruct (_ <? _)%N; [discriminate|]. congruence.
    - rewrite Hw. destruct (_ <=? _); [|discriminate]. congruence. }
  destruct (N.leb_spec (N.of_nat (length bytes)) (e_max_payload E)) as [H|H].
  - pose proof (frame_write_fits E w bytes Hw ltac:(lia)) as F. rewrite <- frame_write2_fst in F.
    rewrite (proj2 (N.leb_le _ _) H) in F. destruct (frame_write2 E w) as [[f b]|]; [|discriminate].
    cbn in F. rewrite (A f b eq_refl) in *. congruence.
  - destruct (frame_write2 E w) as [[f b]|] eqn:Ef; [|reflexivity]. exfalso. pose proof (A f b eq_refl) as ->.
    unfold frame_write2, link_frame_write, raw_frame_write in Ef. destruct (e_kind E).
    + rewrite Hw in Ef. unfold min_frame_size, header_total_size in Ef.
      destruct (Nat.leb_spec (length bytes) (16 + N.to_nat (e_max_payload E) - 12)) as [X|X]; [|discriminate].
      destruct (Nat.ltb_spec (16 + N.to_nat (e_max_payload E) - 12 - length bytes) 4) as [Y|Y]; [discriminate|lia].
    + rewrite Hw in Ef. destruct (Nat.leb_spec (length bytes) (N.to_nat (e_max_payload E))) as [X|X]; [lia|discriminate].
Qed.
Lemma error_frame_spec E e : (e_max_payload E < 65536)%N -> error_reply E e (error_frame E e).
Proof.
  intros Hm. unfold error_reply, error_frame, fits.
  rewrite (frame_write2_fits E _ _ (wlaw_error {| re_version := version_get; re_error := e |}) Hm).
  rewrite error_size_ok. change (N.of_nat (error_size _)) with 6%N. change (N.of_nat 6) with 6%N.
  destruct (N.leb_spec 6 (e_max_payload E)) as [H|H]; [left; reflexivity|right; split; [lia|reflexivity]].
Qed.
