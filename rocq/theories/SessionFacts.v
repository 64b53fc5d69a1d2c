(** * SessionFacts: proofs about sessions *)
From Verif Require Import Base BaseFacts Codec CodecSpec CodecFacts Crc Link LinkSpec LinkFacts LinkMain LinkLayer Primitives Session SessionSpec.
Ltac Zify.zify_post_hook ::= Z.div_mod_to_equations.

Lemma bytes_eqb_refl l : bytes_eqb l l = true.
Proof. induction l as [|x l IH]; [reflexivity|]. cbn. now rewrite N.eqb_refl, IH. Qed.
Lemma bytes_eqb_eq a : forall b, bytes_eqb a b = true <-> a = b.
Proof.
  induction a as [|x a IH]; intros [|y b]; cbn; split; intros H; try reflexivity; try discriminate.
  - apply andb_true_iff in H as [H1 H2]. apply N.eqb_eq in H1. apply IH in H2. congruence.
  - injection H as -> ->. rewrite N.eqb_refl. cbn. apply IH. reflexivity.
Qed.
Lemma secure_equals_spec a b : secure_equals a b = true <-> a = b.
Proof.
  unfold secure_equals. destruct (Nat.eqb_spec (length a) (length b)) as [E|E]; [apply bytes_eqb_eq|].
  split; [discriminate|intros ->; congruence].
Qed.

Lemma Forall_firstn' {A} (Q : A -> Prop) n l : Forall Q l -> Forall Q (firstn n l).
Proof. intros H. rewrite <- (firstn_skipn n l) in H. apply Forall_app in H. apply H. Qed.

Lemma wlaw_seq' s : (N.of_nat (length s) < 2 ^ 32)%N -> wlaw (wire_seq s) (seq_write s).
Proof. intros H. apply wlaw_app; [apply wlaw_vlength; exact H|apply wlaw_raw]. Qed.
Lemma wlaw_session_data' m : (N.of_nat (length (sd_user_data m)) < 2 ^ 32)%N ->
  (N.of_nat (length (sd_auth_tag m)) < 2 ^ 32)%N -> wlaw (wire_session_data m) (session_data_write m).
Proof.
  intros H1 H2. apply (wlaw_message session_data).
  apply wlaw_app; [apply wlaw_metadata|]. apply wlaw_app; [apply wlaw_seq'; exact H1|].
  eapply wlaw_eq; [|apply wlaw_app; [apply wlaw_seq'; exact H2|apply wlaw_nil]]. apply app_nil_r.
Qed.

Lemma metadata_bytes_wire m : metadata_bytes m = wire_metadata m.
Proof.
  unfold metadata_bytes. pose proof (wlaw_metadata m 6) as H.
  assert (L : length (wire_metadata m) = 6) by (unfold wire_metadata; now rewrite app_length, !be_bytes_length).
  rewrite H, L. reflexivity.
Qed.

Lemma frame_write_spec E w frame bytes : wlaw bytes w -> frame_write E w = Some frame -> frame = frame_of (e_kind E) bytes.
Proof.
  intros Hw H. unfold frame_write in H. destruct (e_kind E) as [a|]; cbn [frame_of].
  - destruct (link_frame_write _ _ _ _) as [[f b]|] eqn:El; [|discriminate]. cbn in H. injection H as <-.
    destruct (link_write_bytes _ _ _ _ _ _ El) as (H1 & _ & _). rewrite H1. f_equal. f_equal.
    unfold link_frame_write in El. rewrite Hw in El. destruct (_ <=? _); [|discriminate].
    destruct (_ <? 4); [discriminate|]. destruct (_ <? _)%N; [discriminate|]. injection El as _ <-. reflexivity.
  - unfold raw_frame_write in H. rewrite Hw in H. destruct (_ <=? _); [|discriminate]. cbn in H. injection H as <-. reflexivity.
Qed.

Lemma calc_tx_length total cap : let n := calc_user_data_tx_length total cap 1024 in
  (n <= total /\ n <= cap /\ n <= 1024)%N /\ (n = total \/ n = cap \/ n = 1024)%N.
Proof. unfold calc_user_data_tx_length, u16, trunc. change (2 ^ 16)%N with 65536%N. lia. Qed.

(** What a successful write of the session mode produces. *)
Lemma mode_write_spec P mode key md clear cap r rest : prims_ok P ->
  mode_write P mode key md clear cap = Ok (r, rest) ->
  (exists e, r = inr e /\ rest = clear) \/
  (exists m, r = inl m /\ length key = 32 /\ 0 < cap /\ sd_metadata m = md /\
    let n := N.to_nat (calc_user_data_tx_length (N.of_nat (length clear)) (N.of_nat cap) 1024) in
    rest = skipn n clear /\ length (sd_user_data m) = n /\ length (sd_auth_tag m) = 16 /\
    (bytes_ok clear -> bytes_ok (sd_user_data m) /\ bytes_ok (sd_auth_tag m)) /\
    forall cap', n <= cap' -> (N.of_nat cap' < 65536)%N -> mode_read P mode key m cap' = Ok (inl (firstn n clear))).
Proof.
  intros HP. unfold mode_write.
  destruct (Nat.eqb_spec (length key) symmetric_key_length) as [Hk|Hk]; cbn [negb]; [|intros H; injection H as <- <-; eauto].
  destruct (Nat.eqb_spec cap 0) as [Hc|Hc]; [intros H; injection H as <- <-; eauto|].
  set (n := N.to_nat (calc_user_data_tx_length (N.of_nat (length clear)) (N.of_nat cap) 1024)).
  pose proof (calc_tx_length (N.of_nat (length clear)) (N.of_nat cap)) as Hn. cbn zeta in Hn.
  assert (Hn1 : n <= length clear /\ n <= cap /\ n <= 1024) by (unfold n; lia). clear Hn.
  assert (Ln : length (firstn n clear) = n) by (rewrite firstn_length; lia).
  unfold aead_encrypt. destruct mode.
  - destruct (N.ltb_spec 65535 (N.of_nat (length (firstn n clear)))) as [X|X]; [lia|]. cbn [obind].
    intros H. injection H as <- <-. right. eexists. split; [reflexivity|]. split; [exact Hk|]. split; [lia|]. split; [reflexivity|].
    cbn zeta. split; [reflexivity|]. cbn [sd_user_data sd_auth_tag]. split; [exact Ln|].
    split; [change (length (firstn trunc16 (p_hmac P key (mac_input (metadata_bytes md) (firstn n clear)))) = 16); rewrite firstn_length, (proj1 (ok_hmac _ HP _ _)); reflexivity|].
    split.
    { intros Hb. split; [apply Forall_firstn', Hb|].
      change (Forall byte_ok (firstn trunc16 (p_hmac P key (mac_input (metadata_bytes md) (firstn n clear))))). apply Forall_firstn'. exact (proj2 (ok_hmac _ HP _ _)). }
    intros cap' H1 H2. unfold mode_read. rewrite Hk. cbn [Nat.eqb symmetric_key_length negb]. unfold aead_decrypt.
    destruct (N.ltb_spec 65535 (N.of_nat cap')) as [Y|Y]; [lia|]. cbn [sd_metadata sd_user_data sd_auth_tag].
    assert (S : forall x, secure_equals x x = true) by (intros x; apply secure_equals_spec; reflexivity). rewrite S. reflexivity.
  - destruct (Nat.ltb_spec cap (length (firstn n clear))) as [X|X]; [lia|]. cbn [obind].
    set (gk := am_nonce md). pose proof (ok_gcm_length _ HP key (gcm_nonce gk) (metadata_bytes md) (firstn n clear)) as L1.
    pose proof (ok_gcm_tag _ HP key (gcm_nonce gk) (metadata_bytes md) (firstn n clear)) as L2.
    pose proof (ok_gcm_bytes _ HP key (gcm_nonce gk) (metadata_bytes md) (firstn n clear)) as L4.
    pose proof (ok_gcm_inverse _ HP key (gcm_nonce gk) (metadata_bytes md) (firstn n clear)) as L3.
    destruct (p_gcm_encrypt P key (gcm_nonce gk) (metadata_bytes md) (firstn n clear)) as [ct tag]. cbn [fst snd] in *.
    intros H. injection H as <- <-. right. eexists. split; [reflexivity|]. split; [exact Hk|]. split; [lia|]. split; [reflexivity|].
    cbn zeta. split; [reflexivity|]. cbn [sd_user_data sd_auth_tag]. split; [lia|]. split; [exact L2|].
    split; [intros Hb; apply L4; apply Forall_firstn', Hb|].
    intros cap' H1 H2. unfold mode_read. rewrite Hk. cbn [Nat.eqb symmetric_key_length negb]. unfold aead_decrypt.
    cbn [sd_metadata sd_user_data sd_auth_tag]. unfold aes_gcm_tag_length.
    destruct (Nat.ltb_spec (length tag) 16) as [Y|Y]; [lia|]. destruct (Nat.ltb_spec cap' (length ct)) as [Z|Z]; [lia|]. cbn [orb].
    rewrite firstn_all2 by lia. fold gk. rewrite L3. reflexivity.
Qed.

(** No undefined behaviour when formatting. *)
Lemma mode_write_safe P mode key md clear cap : exists r, mode_write P mode key md clear cap = Ok r.
Proof.
  unfold mode_write. destruct (negb _); [eauto|]. destruct (cap =? 0); [eauto|].
  set (n := N.to_nat (calc_user_data_tx_length (N.of_nat (length clear)) (N.of_nat cap) 1024)).
  pose proof (calc_tx_length (N.of_nat (length clear)) (N.of_nat cap)) as Hn. cbn zeta in Hn.
  assert (Ln : length (firstn n clear) <= cap) by (rewrite firstn_length; unfold n; lia).
  unfold aead_encrypt. destruct mode.
  - destruct (_ <? _)%N; cbn [obind]; eauto.
  - destruct (Nat.ltb_spec cap (length (firstn n clear))); [lia|]. cbn [obind]. destruct (p_gcm_encrypt _ _ _ _ _). eauto.
Qed.

(** Formatting: all that is known about the result. *)
Definition tx_n (E : senv) (clear : list N) : nat :=
  N.to_nat (calc_user_data_tx_length (N.of_nat (length clear)) (N.of_nat (encrypt_cap E)) 1024).

Record format_facts (E : senv) (s : session) (now : Z) (clear frame rest : list N) (s' : session) : Prop := {
  ff_valid : s_valid s = true;
  ff_start : (p_start (s_param s) <= now)%Z;
  ff_time : (now - p_start (s_param s) + ms (e_ttl_pad_ms E) <= p_max_time (s_param s))%Z;
  ff_cap : 0 < encrypt_cap E;
  ff_rest : rest = skipn (tx_n E clear) clear;
  ff_session : s' = set_tx_nonce s (nonce_increment (s_tx_nonce s));
  ff_msg : exists m, frame = frame_of (e_kind E) (wire_session_data m) /\
     sd_metadata m = {| am_nonce := s_tx_nonce s;
                        am_valid_until_ms := u32 (to_ms (now - p_start (s_param s) + ms (e_ttl_pad_ms E))) |} /\
     length (sd_user_data m) = tx_n E clear /\ length (sd_auth_tag m) = 16 /\
     (bytes_ok clear -> bytes_ok (sd_user_data m) /\ bytes_ok (sd_auth_tag m)) /\
     forall cap', tx_n E clear <= cap' -> (N.of_nat cap' < 65536)%N ->
       mode_read (e_prims E) (s_crypto_mode s) (k_tx (s_keys s)) m cap' = Ok (inl (firstn (tx_n E clear) clear)) }.

Lemma tx_n_le E clear : tx_n E clear <= length clear /\ tx_n E clear <= 1024 /\
  (clear <> [] -> 0 < encrypt_cap E -> 0 < tx_n E clear).
Proof.
  unfold tx_n. pose proof (calc_tx_length (N.of_nat (length clear)) (N.of_nat (encrypt_cap E))) as H. cbn zeta in H.
  repeat split; try lia. intros Hne Hc. destruct clear; [congruence|]. cbn [length] in *. lia.
Qed.

Lemma format_spec E s now clear r rest s' : prims_ok (e_prims E) ->
  format_no_nonce_check E s now clear = Ok (r, rest, s') ->
  (exists e, r = inr e /\ s' = s) \/ (exists frame, r = inl frame /\ format_facts E s now clear frame rest s').
Proof.
  intros HP. unfold format_no_nonce_check.
  destruct (s_valid s) eqn:Hv; cbn [negb]; [|intros H; injection H as <- _ <-; eauto].
  destruct (Z.ltb_spec now (p_start (s_param s))) as [H1|H1]; [intros H; injection H as <- _ <-; eauto|].
  destruct (Z.ltb_spec (p_max_time (s_param s)) (now - p_start (s_param s))) as [H2|H2]; [intros H; injection H as <- _ <-; eauto|].
  destruct (Z.ltb_spec (p_max_time (s_param s) - (now - p_start (s_param s))) (ms (e_ttl_pad_ms E))) as [H3|H3]; [intros H; injection H as <- _ <-; eauto|].
  match goal with |- context [mode_write ?p ?m ?k ?md ?c ?cp] => destruct (mode_write p m k md c cp) as [[r0 rest0]| |] eqn:Ew end; cbn [obind]; try discriminate.
  destruct (mode_write_spec _ _ _ _ _ _ _ _ HP Ew) as [(e & -> & ->)|(m & -> & Hk & Hc & Hmd & Hn)].
  { intros H. injection H as <- _ <-. eauto. }
  fold (tx_n E clear) in Hn. cbn zeta in Hn. destruct Hn as (-> & Hu & Ht & Hb & Hr).
  destruct (frame_write E (session_data_write m)) as [frame|] eqn:Ef; intros H; injection H as <- <- <-; [|eauto].
  right. exists frame. split; [reflexivity|]. pose proof (tx_n_le E clear) as (L1 & L2 & _).
  constructor; auto; [lia|]. exists m. split; [|auto].
  apply (frame_write_spec E (session_data_write m)); [|exact Ef]. apply wlaw_session_data'; lia.
Qed.
Lemma format_safe E s now clear : exists r, format_no_nonce_check E s now clear = Ok r.
Proof.
  unfold format_no_nonce_check. destruct (negb _); [eauto|]. destruct (_ <? _)%Z; [eauto|]. destruct (_ <? _)%Z; [eauto|].
  destruct (_ <? _)%Z; [eauto|].
  match goal with |- context [mode_write ?p ?m ?k ?md ?c ?cp] => destruct (mode_write_safe p m k md c cp) as [[r rest] ->] end.
  cbn [obind]. destruct r; [|eauto]. destruct (frame_write _ _); eauto.
Qed.

(** Validation. *)
Record validate_facts (E : senv) (verify : N -> N -> bool) (s : session) (msg : SessionData) (now : Z) (cap : nat)
   (payload : list N) (s' : session) : Prop := {
  vf_valid : s_valid s = true;
  vf_read : mode_read (e_prims E) (s_crypto_mode s) (k_rx (s_keys s)) msg cap = Ok (inl payload);
  vf_start : (p_start (s_param s) <= now)%Z;
  vf_time : (now - p_start (s_param s) <= p_max_time (s_param s))%Z;
  vf_ttl : (now - p_start (s_param s) <= ms (am_valid_until_ms (sd_metadata msg)))%Z;
  vf_max : (am_nonce (sd_metadata msg) <= p_max_nonce (s_param s))%N;
  vf_nonce : verify (s_rx_nonce s) (am_nonce (sd_metadata msg)) = true;
  vf_session : s' = set_rx_nonce s (am_nonce (sd_metadata msg)) }.

Lemma validate_spec E verify s msg now cap r s' st : validate_with E verify s msg now cap = Ok (r, s', st) ->
  (exists e, r = inr e /\ s' = s /\ e <> e_empty_user_data) \/
  (exists p, r = inl p /\ validate_facts E verify s msg now cap p s').
Proof.
  unfold validate_with. destruct (s_valid s) eqn:Hv; cbn [negb]; [|intros H; injection H as <- <- _; left; eexists; repeat split; discriminate].
  destruct (mode_read _ _ _ _ _) as [[payload|e]| |] eqn:Er; cbn [obind]; try discriminate.
  2:{ intros H. injection H as <- <- _. left. exists e. repeat split. intros ->.
      unfold mode_read in Er. destruct (negb _); [discriminate|]. unfold aead_decrypt in Er.
      destruct (s_crypto_mode s).
      - destruct (_ <? _)%N; [discriminate|]. destruct (secure_equals _ _); discriminate.
      - destruct (_ || _); [discriminate|]. destruct (p_gcm_decrypt _ _ _ _ _ _); discriminate. }
  destruct (Z.ltb_spec now (p_start (s_param s))) as [H1|H1]; [intros H; injection H as <- <- _; left; eexists; repeat split; discriminate|].
  destruct (Z.ltb_spec (p_max_time (s_param s)) (now - p_start (s_param s))) as [H2|H2]; [intros H; injection H as <- <- _; left; eexists; repeat split; discriminate|].
  destruct (Z.ltb_spec (ms (am_valid_until_ms (sd_metadata msg))) (now - p_start (s_param s))) as [H3|H3]; [intros H; injection H as <- <- _; left; eexists; repeat split; discriminate|].
  destruct (N.ltb_spec (p_max_nonce (s_param s)) (am_nonce (sd_metadata msg))) as [H4|H4]; [intros H; injection H as <- <- _; left; eexists; repeat split; discriminate|].
  destruct (verify (s_rx_nonce s) (am_nonce (sd_metadata msg))) eqn:Hn; cbn [negb]; intros H; injection H as <- <- _.
  - right. exists payload. split; [reflexivity|]. constructor; auto.
  - left. eexists. repeat split. discriminate.
Qed.

Lemma verify_nonce_above m last new : verify_nonce m last new = true -> (last < new)%N.
Proof.
  destruct m; cbn.
  - unfold verify_strict_increment. destruct (N.eqb_spec last 65535); [discriminate|]. rewrite N.eqb_eq. lia.
  - unfold verify_greater_than_last. rewrite N.ltb_lt. auto.
Qed.
Lemma verify_strict_next last new : verify_nonce strict_increment last new = true -> new = (last + 1)%N.
Proof. cbn. unfold verify_strict_increment. destruct (N.eqb_spec last 65535); [discriminate|]. now rewrite N.eqb_eq. Qed.

Definition same_but_nonces (s s' : session) : Prop :=
  s_valid s' = s_valid s /\ s_keys s' = s_keys s /\ s_nonce_mode s' = s_nonce_mode s /\
  s_crypto_mode s' = s_crypto_mode s /\ s_param s' = s_param s.
Lemma same_refl s : same_but_nonces s s. Proof. repeat split. Qed.
Lemma same_trans a b c : same_but_nonces a b -> same_but_nonces b c -> same_but_nonces a c.
Proof. intros (?&?&?&?&?) (?&?&?&?&?). repeat split; congruence. Qed.

(** One step of a history. *)
Inductive step_facts (E : senv) (cap : nat) (s : session) : sop -> session -> sevent -> Prop :=
| sf_auth m now p s' : validate_facts E equal_to_zero s m now cap p s' ->
    step_facts E cap s (SValidateAuth m now) s' (EvAuth m p now)
| sf_data m now p s' : validate_facts E (verify_nonce (s_nonce_mode s)) s m now cap p s' -> p <> [] ->
    step_facts E cap s (SValidateData m now) s' (EvData m p now)
| sf_empty m now s' : validate_facts E (verify_nonce (s_nonce_mode s)) s m now cap [] s' ->
    step_facts E cap s (SValidateData m now) s' (EvRejected m e_empty_user_data now)
| sf_rej_auth m now e : e <> e_empty_user_data -> step_facts E cap s (SValidateAuth m now) s (EvRejected m e now)
| sf_rej_data m now e : e <> e_empty_user_data -> step_facts E cap s (SValidateData m now) s (EvRejected m e now)
| sf_fauth clear now f rest s' : format_facts E s now clear f rest s' -> s_tx_nonce s = 0%N ->
    step_facts E cap s (SFormatAuth clear now) s' (EvSent f clear rest now)
| sf_fdata clear now f rest s' : format_facts E s now clear f rest s' -> (s_tx_nonce s < p_max_nonce (s_param s))%N ->
    step_facts E cap s (SFormatData clear now) s' (EvSent f clear rest now)
| sf_nauth clear now e rest : step_facts E cap s (SFormatAuth clear now) s (EvNotSent e clear rest now)
| sf_ndata clear now e rest : step_facts E cap s (SFormatData clear now) s (EvNotSent e clear rest now).

Lemma sstep_spec E cap s o s' e : prims_ok (e_prims E) -> sstep E cap s o = Ok (s', e) -> step_facts E cap s o s' e.
Proof.
  intros HP. destruct o as [m now|m now|clear now|clear now]; cbn [sstep].
  - unfold validate_session_auth. destruct (validate_with _ _ _ _ _ _) as [[[r s1] st]| |] eqn:Ev; cbn [obind]; try discriminate.
    intros H. injection H as <- <-.
    destruct (validate_spec _ _ _ _ _ _ _ _ _ Ev) as [(e0 & -> & -> & He)|(p & -> & F)]; [constructor; exact He|constructor; exact F].
  - unfold validate_session_data. destruct (validate_with _ _ _ _ _ _) as [[[r s1] st]| |] eqn:Ev; cbn [obind]; try discriminate.
    destruct (validate_spec _ _ _ _ _ _ _ _ _ Ev) as [(e0 & -> & -> & He)|(p & -> & F)].
    + cbn [obind]. intros H. injection H as <- <-. constructor. exact He.
    + destruct p as [|x p]; cbn [length Nat.eqb obind]; intros H; injection H as <- <-; constructor; auto; discriminate.
  - unfold format_session_auth. destruct (N.eqb_spec (s_tx_nonce s) 0) as [H0|H0]; cbn [negb obind].
    + destruct (format_no_nonce_check _ _ _ _) as [[[r rest] s1]| |] eqn:Ef; cbn [obind]; try discriminate.
      intros H. injection H as <- <-.
      destruct (format_spec _ _ _ _ _ _ _ HP Ef) as [(e0 & -> & ->)|(f & -> & F)]; constructor; auto.
    + intros H. injection H as <- <-. constructor.
  - unfold format_session_data. destruct (N.leb_spec (p_max_nonce (s_param s)) (s_tx_nonce s)) as [H0|H0]; cbn [obind].
    + intros H. injection H as <- <-. constructor.
    + destruct (format_no_nonce_check _ _ _ _) as [[[r rest] s1]| |] eqn:Ef; cbn [obind]; try discriminate.
      intros H. injection H as <- <-.
      destruct (format_spec _ _ _ _ _ _ _ HP Ef) as [(e0 & -> & ->)|(f & -> & F)]; constructor; auto.
Qed.
Lemma step_same E cap s o s' e : step_facts E cap s o s' e -> same_but_nonces s s'.
Proof.
  intros H. destruct H; try apply same_refl;
    match goal with F : validate_facts _ _ _ _ _ _ _ _ |- _ => rewrite (vf_session _ _ _ _ _ _ _ _ F) | F : format_facts _ _ _ _ _ _ _ |- _ => rewrite (ff_session _ _ _ _ _ _ _ F) end;
    repeat split.
Qed.

Lemma srun_cons_inv E cap s o ops s' es : srun E cap s (o :: ops) = Ok (s', es) ->
  exists s1 e es', sstep E cap s o = Ok (s1, e) /\ srun E cap s1 ops = Ok (s', es') /\ es = e :: es'.
Proof.
  cbn [srun]. destruct (sstep E cap s o) as [[s1 e]| |]; cbn [obind]; try discriminate.
  destruct (srun E cap s1 ops) as [[s2 es2]| |] eqn:E2; cbn [obind]; try discriminate.
  intros H. injection H as <- <-. exists s1, e, es2. rewrite E2. auto.
Qed.

Lemma run_same E cap : prims_ok (e_prims E) -> forall ops s s' es, srun E cap s ops = Ok (s', es) -> same_but_nonces s s'.
Proof.
  intros HP. induction ops as [|o ops IH]; intros s s' es H; [injection H as <- _; apply same_refl|].
  apply srun_cons_inv in H as (s1 & e & es' & H1 & H2 & _). apply (same_trans _ s1); [|exact (IH _ _ _ H2)].
  exact (step_same _ _ _ _ _ _ (sstep_spec _ _ _ _ _ _ HP H1)).
Qed.

(** ** C14 *)
Lemma rx_run E cap : prims_ok (e_prims E) -> forall ops s s' es, srun E cap s ops = Ok (s', es) ->
  above (s_rx_nonce s) (data_nonces es) /\
  (s_nonce_mode s = strict_increment -> consecutive (s_rx_nonce s) (data_nonces es)) /\
  Forall (fun n => n <= p_max_nonce (s_param s))%N (data_nonces es) /\
  Forall (fun n => n = 0)%N (auth_nonces es).
Proof.
  intros HP. induction ops as [|o ops IH]; intros s s' es H; [injection H as _ <-; cbn; auto|].
  apply srun_cons_inv in H as (s1 & e & es' & H1 & H2 & ->).
  apply sstep_spec in H1; [|exact HP]. pose proof (step_same _ _ _ _ _ _ H1) as (S1 & S2 & S3 & S4 & S5).
  destruct (IH _ _ _ H2) as (I1 & I2 & I3 & I4). rewrite S3 in I2. rewrite S5 in I3.
  assert (Data : forall m p now, validate_facts E (verify_nonce (s_nonce_mode s)) s m now cap p s1 ->
    above (s_rx_nonce s) (am_nonce (sd_metadata m) :: data_nonces es') /\
    (s_nonce_mode s = strict_increment -> consecutive (s_rx_nonce s) (am_nonce (sd_metadata m) :: data_nonces es')) /\
    Forall (fun n => n <= p_max_nonce (s_param s))%N (am_nonce (sd_metadata m) :: data_nonces es')).
  { intros m p now F. pose proof (vf_session _ _ _ _ _ _ _ _ F) as ->. cbn [set_rx_nonce s_rx_nonce] in *.
    pose proof (vf_nonce _ _ _ _ _ _ _ _ F) as V. split; [|split].
    - cbn. split; [exact (verify_nonce_above _ _ _ V)|exact I1].
    - intros Hm. cbn. split; [|auto]. rewrite Hm in V. exact (verify_strict_next _ _ V).
    - constructor; [exact (vf_max _ _ _ _ _ _ _ _ F)|exact I3]. }
  destruct H1 as [m now p s1 F|m now p s1 F Hp|m now s1 F|m now e He|m now e He|clear now f rest s1 F Hz|clear now f rest s1 F Hz|clear now e rest|clear now e rest];
    unfold data_nonces, auth_nonces in *; cbn [flat_map app].
  - pose proof (vf_session _ _ _ _ _ _ _ _ F) as ->. cbn [set_rx_nonce s_rx_nonce] in *.
    pose proof (vf_nonce _ _ _ _ _ _ _ _ F) as V. unfold equal_to_zero in V. apply andb_true_iff in V as [V1 V2].
    apply N.eqb_eq in V1, V2. rewrite V1, V2 in *. auto.
  - destruct (Data m p now F) as (A & B & C). auto.
  - destruct (Data m [] now F) as (A & B & C). auto.
  - destruct e; try congruence; auto.
  - destruct e; try congruence; auto.
  - pose proof (ff_session _ _ _ _ _ _ _ F) as ->. auto.
  - pose proof (ff_session _ _ _ _ _ _ _ F) as ->. auto.
  - auto.
  - auto.
Qed.

(** ** C15 *)
Lemma nth_seq_N n k : map N.of_nat (seq n (S k)) = N.of_nat n :: map N.of_nat (seq (S n) k).
Proof. reflexivity. Qed.

Definition sent_as (E : senv) (s : session) (frame : list N) (n : N) (clear : list N) (now : Z) : Prop :=
  exists m, frame = frame_of (e_kind E) (wire_session_data m) /\ sd_metadata m =
    {| am_nonce := n; am_valid_until_ms := u32 (to_ms (now - p_start (s_param s) + ms (e_ttl_pad_ms E))) |}.

Lemma tx_run E cap : prims_ok (e_prims E) -> forall ops s s' es, srun E cap s ops = Ok (s', es) ->
  Forall sop_bytes ops ->
  (p_max_nonce (s_param s) < 65536)%N -> (s_tx_nonce s <= N.max 1 (p_max_nonce (s_param s)))%N ->
  s_tx_nonce s' = (s_tx_nonce s + N.of_nat (length (sent_frames es)))%N /\
  (s_tx_nonce s' <= N.max 1 (p_max_nonce (s_param s)))%N /\
  exists log, sent_log E s es log /\
    map (fun mc => am_nonce (fst mc)) log = map (fun i => (s_tx_nonce s + N.of_nat i)%N) (seq 0 (length log)) /\
    map snd log = sent_chunks es.
Proof.
  intros HP. induction ops as [|o ops IH]; intros s s' es H Hops Hm Ht.
  { injection H as <- <-. cbn. split; [lia|]. split; [exact Ht|]. exists []. split; [constructor|auto]. }
  apply srun_cons_inv in H as (s1 & e & es' & H1 & H2 & ->). apply Forall_cons_iff in Hops as [Ho Hops].
  apply sstep_spec in H1; [|exact HP]. pose proof (step_same _ _ _ _ _ _ H1) as (S1 & S2 & S3 & S4 & S5).
  assert (NoSend : s_tx_nonce s1 = s_tx_nonce s -> sent_frames (e :: es') = sent_frames es' -> sent_chunks (e :: es') = sent_chunks es' ->
    s_tx_nonce s' = (s_tx_nonce s + N.of_nat (length (sent_frames (e :: es'))))%N /\
    (s_tx_nonce s' <= N.max 1 (p_max_nonce (s_param s)))%N /\
    exists log, sent_log E s (e :: es') log /\
    map (fun mc => am_nonce (fst mc)) log = map (fun i => (s_tx_nonce s + N.of_nat i)%N) (seq 0 (length log)) /\
    map snd log = sent_chunks (e :: es')).
  { intros A B C. rewrite B, C. rewrite <- S5 in Hm, Ht |- *. rewrite <- A in Ht |- *.
    destruct (IH _ _ _ H2 Hops Hm Ht) as (I1 & I2 & log & I3 & I4 & I5). split; [exact I1|]. split; [exact I2|].
    exists log. split; [|auto]. unfold sent_log in *. rewrite S2, S4 in I3. rewrite B. exact I3. }
  assert (Send : forall clear now f rest, format_facts E s now clear f rest s1 -> (s_tx_nonce s = 0 \/ s_tx_nonce s < p_max_nonce (s_param s))%N ->
     e = EvSent f clear rest now -> bytes_ok clear ->
    s_tx_nonce s' = (s_tx_nonce s + N.of_nat (length (sent_frames (e :: es'))))%N /\
    (s_tx_nonce s' <= N.max 1 (p_max_nonce (s_param s)))%N /\
    exists log, sent_log E s (e :: es') log /\
    map (fun mc => am_nonce (fst mc)) log = map (fun i => (s_tx_nonce s + N.of_nat i)%N) (seq 0 (length log)) /\
    map snd log = sent_chunks (e :: es')).
  { intros clear now f rest F Hn -> Hcb. pose proof (ff_session _ _ _ _ _ _ _ F) as E1.
    assert (Hinc : s_tx_nonce s1 = (s_tx_nonce s + 1)%N).
    { rewrite E1. cbn [set_tx_nonce s_tx_nonce]. unfold nonce_increment, u16, trunc. change (2 ^ 16)%N with 65536%N. lia. }
    assert (Hlt : (s_tx_nonce s < 65536)%N) by lia. rewrite <- S5 in Hm.
    destruct (IH _ _ _ H2 Hops Hm) as (I1 & I2 & log & I3 & I4 & I5); [rewrite Hinc, S5; lia|]. rewrite S5 in I2.
    unfold sent_frames, sent_chunks in *. cbn [flat_map app length].
    split; [rewrite I1, Hinc; lia|]. split; [exact I2|].
    destruct (ff_msg _ _ _ _ _ _ _ F) as (m & M1 & M2 & M3 & M4 & M6 & M5).
    pose proof (tx_n_le E clear) as (L1 & L2 & _).
    exists ((sd_metadata m, firstn (tx_n E clear) clear) :: log). split; [|split].
    - unfold sent_log in *. cbn [sent_frames flat_map app]. constructor.
      + cbn [fst snd]. exists m. destruct (M6 Hcb) as [M7 M8]. split; [|split; [reflexivity|split; [exact M1|split; [lia|]]]].
        * split; [|split; split; [exact M7|lia|exact M8|lia]]. rewrite M2. split; cbn [am_nonce am_valid_until_ms]; [change (2 ^ 16)%N with 65536%N; lia|].
          unfold u32, trunc. apply N.mod_lt. discriminate.
        * intros cap' C1 C2. apply M5; [lia|exact C2].
      + rewrite S2, S4 in I3. exact I3.
    - cbn [map length seq fst]. rewrite M2. cbn [am_nonce]. f_equal; [cbn; lia|].
      rewrite I4, <- seq_shift, map_map. apply map_ext. intros i. rewrite Hinc. lia.
    - cbn [map snd]. rewrite I5. f_equal. rewrite (ff_rest _ _ _ _ _ _ _ F), skipn_length. f_equal. lia. }
  destruct H1 as [m now p s1 F|m now p s1 F Hp|m now s1 F|m now e He|m now e He|clear now f rest s1 F Hz|clear now f rest s1 F Hz|clear now e rest|clear now e rest].
  - apply NoSend; try reflexivity. rewrite (vf_session _ _ _ _ _ _ _ _ F). reflexivity.
  - apply NoSend; try reflexivity. rewrite (vf_session _ _ _ _ _ _ _ _ F). reflexivity.
  - apply NoSend; try reflexivity. rewrite (vf_session _ _ _ _ _ _ _ _ F). reflexivity.
  - apply NoSend; reflexivity.
  - apply NoSend; reflexivity.
  - eapply Send; [exact F| |reflexivity|exact Ho]. auto.
  - eapply Send; [exact F| |reflexivity|exact Ho]. auto.
  - apply NoSend; reflexivity.
  - apply NoSend; reflexivity.
Qed.
