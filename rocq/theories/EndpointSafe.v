(** * EndpointSafe: no undefined behaviour *)
From Verif Require Import Base BaseFacts Codec CodecSpec CodecFacts Link LinkLayer Primitives Session SessionSpec SessionFacts SessionMain Handshake HandshakeSpec HandshakeFacts HandshakeMain HandshakePair
  Endpoint EndpointSpec EndpointFacts EndpointMain EndpointRx PairSpec LinkLayerSpec LinkLayerFacts Stack StackSpec StackFacts SafeSpec.

Lemma validate_with_safe E f s m now cap : (s_crypto_mode s = aes_256_gcm -> 16 <= length (sd_auth_tag m) /\ length (sd_user_data m) <= cap) ->
  exists r, validate_with E f s m now cap = Ok r.
Proof.
  intros H. unfold validate_with. destruct (negb _); [eauto|].
  assert (Y : exists r, mode_read (e_prims E) (s_crypto_mode s) (k_rx (s_keys s)) m cap = Ok r).
  { unfold mode_read. destruct (negb _); [eauto|]. unfold aead_decrypt, aes_gcm_tag_length. destruct (s_crypto_mode s).
    - destruct (_ <? _)%N; [eauto|]. destruct (secure_equals _ _); eauto.
    - destruct (H eq_refl) as [H1 H2]. rewrite (proj2 (Nat.ltb_ge _ _)) by lia. rewrite (proj2 (Nat.ltb_ge _ _)) by lia. cbn [orb].
      destruct (p_gcm_decrypt _ _ _ _ _ _); eauto. }
  destruct Y as [r ->]. cbn [obind]. destruct r; [|eauto]. do 5 (destruct (_ : bool); [eauto|]). eauto.
Qed.
Lemma validate_data_safe E s m now cap : (s_crypto_mode s = aes_256_gcm -> 16 <= length (sd_auth_tag m) /\ length (sd_user_data m) <= cap) ->
  exists r, validate_session_data E s m now cap = Ok r.
Proof.
  intros H. unfold validate_session_data. destruct (validate_with_safe E (verify_nonce (s_nonce_mode s)) s m now cap H) as [[[r s'] st] ->]. cbn [obind].
  destruct r; [|eauto]. destruct (length l =? 0); eauto.
Qed.
Lemma format_auth_safe E s now clear : exists r, format_session_auth E s now clear = Ok r.
Proof. unfold format_session_auth. destruct (negb _); [eauto|apply format_safe]. Qed.
Lemma format_data_safe E s now clear : exists r, format_session_data E s now clear = Ok r.
Proof. unfold format_session_data. destruct (_ <=? _)%N; [eauto|apply format_safe]. Qed.
Lemma transmit_safe C s sess inp : exists r, transmit_session_auth C s sess inp = Ok r.
Proof. unfold transmit_session_auth. destruct (format_auth_safe (c_env C) sess (in_now2 inp) (ep_remainder s)) as [[[r rest] sess'] ->]. cbn [obind]. destruct r; eauto. Qed.
Lemma reply_error_safe C s e inp : exists r, reply_error C s e inp = Ok r.
Proof. unfold reply_error. destruct (error_frame (c_env C) e); eauto. Qed.
Lemma process_safe E S h ans m bytes now s : sup_ed25519 S = true -> bytes_ok bytes -> request_read bytes = inl m -> (major_version (rq_version m) =? major_version version_get)%N = true ->
  (forall st c, h = RPublicKey st c -> long_keys (e_prims E) c) -> exists r, process E S h ans m bytes now s = Ok r.
Proof.
  intros Hs Hb R V Hk. destruct (respond_safe E S h ans bytes now s Hs Hb Hk) as [r H]. unfold respond_bytes, respond in H. rewrite R, V in H. cbn [negb] in H.
  destruct (process E S h ans m bytes now s) as [x| |]; cbn in H; try discriminate. eauto.
Qed.

Definition can_hold (C : econf) (hm : bool) (raw : list N) : Prop :=
  bytes_ok raw /\ whole_reply C raw /\ (if hm then asks_hmac C raw else whole_data C raw).
Record dinv (C : econf) (hm : bool) (k : config) : Prop := {
  d_held : exists last, cinv last k;
  d_msgs : forall m, In (IProcess m) (snd k) -> can_hold C hm m;
  d_mode : hm = true -> s_crypto_mode (ep_active (fst k)) = hmac_sha256_16 /\ s_crypto_mode (ep_pending (fst k)) = hmac_sha256_16 }.

(** ** A step is defined *)
Lemma exec_defined C hm s i rest inp : sup_ed25519 (c_supports C) = true -> keys_whole C -> dinv C hm (s, i :: rest) -> exists r, exec C s i inp = Ok r.
Proof.
  intros HS HK [[last D1] D2 D3]. cbn [fst snd] in *.
  destruct i as [c| |m| | | | | | | | |p| |]; cbn [exec]; unfold notify; eauto.
  - destruct c; cbn [enter]; unfold start_tx, start_rx; repeat match goal with |- exists r, (if ?b then _ else _) = Ok r => destruct b end; eauto.
    destruct (ep_proc s) eqn:Ep; [cbn; eauto|].
    destruct (ep_payload s) as [p|] eqn:E; [|eauto]. destruct (c_held _ _ D1) as [(q & W & _)|[_ H]].
    + destruct (window_head _ _ _ W) as [[X _]|[X _]]; discriminate.
    + destruct (H p E) as (bytes & _ & Sh). cbn [fst] in Sh. destruct p as [n|g b]; cbn [slice_bytes shows] in *; [cbn [obind]; eauto|]. destruct Sh as [-> _]. rewrite Nat.eqb_refl. cbn [obind]. eauto.
  - unfold try_read_one. destruct (negb _); [eauto|]. cbn. destruct (ep_payload s); [eauto|]. destruct (in_message inp); eauto.
  - destruct (D2 m (or_introl eq_refl)) as (B & WR & HM).
    assert (GA : forall x x' , session_data_read m = inl x -> (x' = ep_active s \/ x' = ep_pending s) -> s_crypto_mode x' = aes_256_gcm -> 16 <= length (sd_auth_tag x) /\ length (sd_user_data x) <= c_payload_size C).
    { intros x x' R X G. destruct hm; [destruct (D3 eq_refl); destruct X; subst x'; congruence|]. apply HM, R. }
    unfold process_message. destruct m as [|f m]; [eauto|]. set (raw := f :: m) in *. unfold keys_whole in HK. destruct (c_role C) as [c|h] eqn:Er.
    + destruct (function_from f) as [[]|]; eauto.
      * destruct (reply_read raw) as [x|] eqn:R; [|eauto]. unfold on_reply_message. destruct (ep_state s); eauto.
        destruct (initialize_session_safe (e_prims (c_env C)) (c_supports C) (ic_handshake c) (ep_ihs (set_timer s None)) x raw (ic_limits c) (in_now inp) (ep_pending (set_timer s None))) as [[[ok i] p'] ->].
        { apply reply_read_wire in R as [(_ & _ & R) _]; [|exact B]. apply R. }
        { intros suite st h E. split; [eapply HK; eauto|eapply WR; eauto]. }
        cbn [obind]. destruct (negb ok); [eauto|]. match goal with |- context [transmit_session_auth ?a ?b ?c ?d] => destruct (transmit_safe a b c d) as [[[[? ?] ?] ?] ->] end. cbn [obind]. destruct (negb _); eauto.
      * destruct (error_read raw); [|eauto]. unfold on_error_message. destruct (ep_state s); eauto.
      * destruct (session_data_read raw) as [x|] eqn:R; [|eauto]. destruct (_ =? _)%N.
        -- unfold on_auth_message. destruct (ep_state s); eauto. unfold validate_session_auth.
           destruct (validate_with_safe (c_env C) equal_to_zero (ep_pending (set_timer s None)) x (in_now inp) (c_payload_size C)) as [[[r p'] st] ->]; [apply (GA x); auto|]. cbn [obind]. destruct r; eauto.
        -- unfold on_session_data. destruct (validate_data_safe (c_env C) (ep_active s) x (in_now inp) (c_payload_size C)) as [[[r p'] st] ->]; [apply (GA x); auto|]. cbn [obind]. destruct r; eauto.
    + destruct (function_from f) as [[]|]; eauto.
      * destruct (request_read raw) as [x|] eqn:R; [|apply reply_error_safe]. unfold on_request. destruct (_ =? _)%N eqn:V; cbn [negb]; [|apply reply_error_safe].
        destruct (process_safe (c_env C) (c_supports C) h (in_answers inp) x raw (in_now inp) (ep_pending s) HS B R V HK) as [[[fr|e] p'] ->]; cbn [obind]; [eauto|apply reply_error_safe].
      * destruct (session_data_read raw) as [x|] eqn:R; [|eauto]. destruct (_ =? _)%N.
        -- unfold on_auth_session. destruct (negb _); [apply reply_error_safe|]. unfold validate_session_auth.
           destruct (validate_with_safe (c_env C) equal_to_zero (ep_pending s) x (in_now inp) (c_payload_size C)) as [[[r p'] st] ->]; [apply (GA x); auto|]. cbn [obind]. destruct r; [|eauto].
           match goal with |- context [transmit_session_auth ?a ?b ?c ?d] => destruct (transmit_safe a b c d) as [[[[? ?] ?] ?] ->] end. cbn [obind]. destruct (negb _); eauto.
        -- unfold on_session_data. destruct (validate_data_safe (c_env C) (ep_active s) x (in_now inp) (c_payload_size C)) as [[[r p'] st] ->]; [apply (GA x); auto|]. cbn [obind]. destruct r; eauto.
  - unfold check_transmit. destruct (negb _); [eauto|]. destruct (negb _); [eauto|].
    match goal with |- context [format_session_data ?a ?b ?c ?d] => destruct (format_data_safe a b c d) as [[[r rest'] x] ->] end. cbn [obind]. destruct r; eauto.
  - destruct (ep_up s); eauto.
  - destruct (ep_up s); eauto.
  - destruct (ep_up s); eauto.
  - destruct (ep_up s); eauto.
  - destruct (c_role C); [|eauto]. unfold on_handshake_required. destruct (ep_state s); eauto. destruct (negb _); [eauto|].
    destruct (initialize_new_handshake _ _ _ _) as [[[e d]|] i]; [|eauto]. destruct (frame_write2 _ _) as [[fr w]|]; eauto.
  - unfold on_nonce_change. destruct (c_role C); [|eauto]. destruct (_ <=? _)%N; eauto.
  - destruct (c_role C); eauto.
  - destruct p; eauto.
Qed.

(** ** The invariant *)
Lemma cinv_step C last k l k' e : cinv last k -> opens_quietly k l -> step C k l = Ok (k', e) -> exists last', cinv last' k'.
Proof.
  intros HI Hq Hs. destruct (step_inv _ _ _ _ _ Hs) as [[-> ->]|[(x & s1 & -> & -> & -> & ->)|(inp & s1 & i & rest & s2 & pushed & -> & -> & He & ->)]]; [eauto| |].
  - exists last. destruct HI as [I1 I2 I3]. cbn [fst snd] in *.
    assert (E : ep_payload (fst (inject s1 x)) = ep_payload s1 /\ ep_buffer (fst (inject s1 x)) = ep_buffer s1 /\ ep_generation (fst (inject s1 x)) = ep_generation s1).
    { destruct x; cbn; auto.
      - destruct (ep_timer s1) as [[|]|]; cbn; unfold on_response_timeout, on_retry_timeout; cbn; destruct (ep_state s1); auto.
      - destruct (nth_error (ep_stale s1) n) as [[|]|]; cbn; unfold on_response_timeout, on_retry_timeout; cbn; destruct (ep_state s1); auto.
      - destruct (ep_session_timer s1); auto.
      - destruct (ep_session_stale s1); auto. }
    destruct E as (E1 & E2 & E3). destruct I3 as [(p & W & _)|[NP Sh]]; [destruct W as ([] & ? & W & _); discriminate|].
    destruct (inject_stack s1 x) as [X|[X|[c X]]]; constructor; rewrite ?X; try reflexivity; try discriminate;
      right; (split; [reflexivity|]); rewrite E1; intros p Ep; eapply shows_last_ext; eauto.
  - destruct (cinv_exec C last s1 i inp rest s2 pushed e HI Hq He) as (last' & _ & X). eauto.
Qed.

Lemma finish_mode P m now salt ikm f s r s' : responder_finish P m now salt ikm f s = Ok (r, s') -> s_crypto_mode s' = s_crypto_mode s \/ s_crypto_mode s' = sp_crypto_mode (rq_spec m).
Proof.
  unfold responder_finish. destruct (hkdf P salt ikm). unfold initialize. destruct (negb _); intros H; injection H as _ <-; [left|right]; reflexivity.
Qed.
Lemma process_mode E S h ans m bytes now s r s' : process E S h ans m bytes now s = Ok (r, s') -> s_crypto_mode s' = s_crypto_mode s \/ s_crypto_mode s' = sp_crypto_mode (rq_spec m).
Proof.
  destruct h; cbn [process]; intros H; ocases H; try (injection H as _ <-; left; reflexivity); eapply finish_mode; eauto.
Qed.
Lemma ifinish_mode P h i l now salt ikm s ok i' s' : initiator_finish P h i l now salt ikm s = Ok (ok, i', s') -> s_crypto_mode s' = s_crypto_mode s \/ s_crypto_mode s' = sp_crypto_mode (get_crypto_spec h).
Proof.
  unfold initiator_finish. destruct (hkdf P salt ikm). destruct (_ <? _)%Z; [intros H; injection H as _ _ <-; left; reflexivity|]. unfold initialize. destruct (negb _); intros H; injection H as _ _ <-; [left|right]; reflexivity.
Qed.
Lemma init_mode P S h i m bytes l now s ok i' s' : initialize_session P S h i m bytes l now s = Ok (ok, i', s') -> s_crypto_mode s' = s_crypto_mode s \/ s_crypto_mode s' = sp_crypto_mode (get_crypto_spec h).
Proof.
  destruct h; cbn [initialize_session]; intros H; ocases H; try (left; reflexivity); eapply ifinish_mode; eauto.
Qed.

Lemma format_auth_mode E s now clear r rest s' : format_session_auth E s now clear = Ok (r, rest, s') -> s_crypto_mode s' = s_crypto_mode s.
Proof. intros H. apply format_auth_session in H. destruct H as [(? & _ & ->)|(? & _ & -> & _)]; reflexivity. Qed.
Lemma format_data_mode E s now clear r rest s' : format_session_data E s now clear = Ok (r, rest, s') -> s_crypto_mode s' = s_crypto_mode s.
Proof. intros H. apply format_data_session in H. destruct H as [(? & _ & ->)|(? & _ & -> & _)]; reflexivity. Qed.
Lemma validate_auth_mode E s m now cap r s' st : validate_session_auth E s m now cap = Ok (r, s', st) -> s_crypto_mode s' = s_crypto_mode s.
Proof. intros H. apply validate_auth_cases in H. destruct H as [(? & _ & H)|(? & _ & H)]; [decompose [and ex] H; subst; reflexivity|rewrite (vf_session _ _ _ _ _ _ _ _ H); reflexivity]. Qed.
Lemma validate_data_mode E s m now cap r s' st : validate_session_data E s m now cap = Ok (r, s', st) -> s_crypto_mode s' = s_crypto_mode s.
Proof. intros H. apply validate_data_cases in H. destruct H as [(? & _ & H & _)|[[_ H]|(? & ? & _ & H)]]; [subst; reflexivity| |]; rewrite (vf_session _ _ _ _ _ _ _ _ H); reflexivity. Qed.
Ltac modes := repeat match goal with
  | H : format_session_auth _ _ _ _ = Ok _ |- _ => apply format_auth_mode in H
  | H : format_session_data _ _ _ _ = Ok _ |- _ => apply format_data_mode in H
  | H : validate_session_auth _ _ _ _ _ = Ok _ |- _ => apply validate_auth_mode in H
  | H : validate_session_data _ _ _ _ _ = Ok _ |- _ => apply validate_data_mode in H
  | H : initialize_session _ _ _ _ _ _ _ _ _ = Ok _ |- _ => apply init_mode in H
  | H : process _ _ _ _ _ _ _ _ = Ok _ |- _ => apply process_mode in H
  end.
Lemma exec_mode C s i inp s' pushed e : exec C s i inp = Ok (s', pushed, e) -> hmac_configured C -> (forall m, i = IProcess m -> asks_hmac C m) ->
  s_crypto_mode (ep_active s) = hmac_sha256_16 -> s_crypto_mode (ep_pending s) = hmac_sha256_16 ->
  s_crypto_mode (ep_active s') = hmac_sha256_16 /\ s_crypto_mode (ep_pending s') = hmac_sha256_16.
Proof.
  intros H HC HM A P. unfold hmac_configured in HC. destruct i as [[]| |m| | | | | | | | | | |]; try specialize (HM _ eq_refl); exec_cases H; splits; modes; eps; cbn [reset s_crypto_mode] in *; auto; try (split; congruence).
  all: try (split; [auto|]; match goal with H : _ \/ _ |- _ => destruct H as [H|H]; rewrite H end; auto; fail).
  all: try (split; [auto|]; repeat match goal with H : _ \/ _ |- _ => destruct H as [H|H] end; try congruence; match goal with H : request_read _ = inl _, R : c_role _ = Responder ?h |- _ => apply (HM h R) in H end; congruence).
Qed.
Lemma inject_sessions s x : ep_active (fst (inject s x)) = ep_active s /\ ep_pending (fst (inject s x)) = ep_pending s.
Proof.
  destruct x; cbn; auto.
  - destruct (ep_timer s) as [[|]|]; cbn; unfold on_response_timeout, on_retry_timeout; cbn; destruct (ep_state s); auto.
  - destruct (nth_error (ep_stale s) n) as [[|]|]; cbn; unfold on_response_timeout, on_retry_timeout; cbn; destruct (ep_state s); auto.
  - destruct (ep_session_timer s); auto.
  - destruct (ep_session_stale s); auto.
Qed.
Lemma dinv_step C hm k l k' e : (hm = true -> hmac_configured C) -> dinv C hm k -> opens_quietly k l -> step C k l = Ok (k', e) -> (forall m, In (EvRecv m) e -> can_hold C hm m) -> dinv C hm k'.
Proof.
  intros HC [[last D1] D2 D3] Q H R. constructor.
  - eapply cinv_step; eauto.
  - destruct (step_inv _ _ _ _ _ H) as [[-> ->]|[(x & s1 & -> & -> & -> & ->)|(inp & s1 & i & rest & s2 & pushed & -> & -> & He & ->)]]; [exact D2| |].
    + intros m Hm. exfalso. destruct (inject_stack s1 x) as [X|[X|[c X]]]; rewrite X in Hm; cbn in Hm; [contradiction|destruct Hm as [Hm|[]]; discriminate|destruct Hm as [Hm|[]]; discriminate].
    + intros m Hm. cbn [snd] in *. apply in_app_or in Hm. destruct Hm as [Hm|Hm]; [|apply D2; right; exact Hm]. destruct (process_pushed _ _ _ _ _ _ _ He) as [P1 P2].
      destruct P2 as [P2|(m' & -> & -> & _)].
      * exfalso. destruct pushed as [|h pushed]; [contradiction|]. destruct Hm as [->|Hm]; [discriminate|]. cbn [tl] in P1. unfold none_of in P1. rewrite forallb_forall in P1. specialize (P1 _ Hm). discriminate.
      * destruct Hm as [Hm|[Hm|[]]]; [|discriminate]. injection Hm as <-. apply R. right. left. reflexivity.
  - intros ->. destruct (D3 eq_refl) as [A P]. destruct (step_inv _ _ _ _ _ H) as [[-> ->]|[(x & s1 & -> & -> & -> & ->)|(inp & s1 & i & rest & s2 & pushed & -> & -> & He & ->)]]; [auto| |].
    + cbn [fst] in *. destruct (inject_sessions s1 x) as [-> ->]. auto.
    + cbn [fst] in *. eapply exec_mode; eauto. intros m ->. apply (D2 m). left. reflexivity.
Qed.
Lemma dinv_new C hm : dinv C hm (new_endpoint C, []).
Proof.
  constructor; cbn; auto; [|contradiction]. exists None. constructor; try reflexivity; try discriminate. right. split; [reflexivity|discriminate].
Qed.
Lemma step_defined C hm k l : sup_ed25519 (c_supports C) = true -> keys_whole C -> dinv C hm k -> exists r, step C k l = Ok r.
Proof.
  intros HS HK D. destruct k as [s stk]. unfold step. cbn [fst snd]. destruct l as [x|inp], stk as [|i rest]; eauto.
  destruct (exec_defined C hm s i rest inp HS HK D) as [[[s' p] e] ->]. cbn [obind]. eauto.
Qed.
Lemma run_dinv C hm : (hm = true -> hmac_configured C) -> forall ls k k' t, dinv C hm k -> along opens_quietly C k ls -> run C k ls = Ok (k', t) ->
  (forall m, In (EvRecv m) t -> can_hold C hm m) -> dinv C hm k'.
Proof.
  intros HC. induction ls as [|l ls IH]; intros k k' t D Q H R; cbn [run] in H; [injection H as <- <-; exact D|]. cbn [along] in Q. destruct Q as [Q1 Q2].
  destruct (step C k l) as [[k1 e1]| |] eqn:E; cbn [obind] in H; try discriminate. destruct (run C k1 ls) as [[k2 e2]| |] eqn:E2; cbn [obind] in H; try discriminate. injection H as <- <-.
  apply (IH k1 k2 e2); auto; [|intros m Hm; apply R, in_or_app; auto]. eapply dinv_step; eauto. intros m Hm. apply R, in_or_app. auto.
Qed.

(** ** Messages that can lead out of bounds *)
Lemma can_hold_or C hm raw : bytes_ok raw -> can_hold C hm raw \/ harmful C hm raw.
Proof.
  intros B. unfold can_hold, harmful.
  assert (R : whole_reply C raw \/ short_reply C raw).
  { unfold whole_reply, short_reply. destruct (c_role C) as [c|]; [|left; intros; discriminate]. destruct (reply_read raw) as [m|]; [|left; intros; discriminate].
    destruct (le_lt_dec 32 (length (rp_mode_ephemeral m))) as [L|L]; [left; intros; congruence|].
    destruct (ic_handshake c) as [| |suite st h] eqn:Eh; [left; intros; congruence|left; intros; congruence|]. right. exists c, suite, st, h, m. auto. }
  destruct R as [R|R]; [|auto]. destruct hm.
  - unfold asks_hmac, asks_gcm. destruct (c_role C) as [|h] eqn:Er; [left; repeat split; auto; intros; discriminate|].
    destruct (request_read raw) as [m|]; [|left; repeat split; auto; intros; discriminate]. destruct (sp_crypto_mode (rq_spec m)) eqn:G; [left|right; eauto 6].
    split; [auto|]. split; [auto|]. intros h' _ m' Hm. congruence.
  - unfold whole_data, bad_data. destruct (session_data_read raw) as [m|]; [|left; repeat split; auto; intros; discriminate].
    destruct (le_lt_dec 16 (length (sd_auth_tag m))) as [L|L]; [|right; eauto 6]. destruct (le_lt_dec (length (sd_user_data m)) (c_payload_size C)) as [L2|L2]; [|right; eauto 6].
    left. split; [auto|]. split; [auto|]. intros m' Hm. injection Hm as <-. auto.
Qed.
Lemma messages_or C hm t : (forall m, In (EvRecv m) t -> bytes_ok m) -> (forall m, In (EvRecv m) t -> can_hold C hm m) \/ (exists m, In (EvRecv m) t /\ harmful C hm m).
Proof.
  induction t as [|e t IH]; intros B; [left; contradiction|]. destruct IH as [IH|(m & H1 & H2)]; [intros m Hm; apply B; right; exact Hm| |right; exists m; split; [right|]; auto].
  assert (D : (exists m, e = EvRecv m) \/ forall m, e <> EvRecv m) by (destruct e; eauto; right; discriminate). destruct D as [[m ->]|D].
  - destruct (can_hold_or C hm m) as [X|X]; [apply B; left; reflexivity| |right; exists m; split; [left; reflexivity|exact X]]. left. intros m' [Hm|Hm]; [injection Hm as <-; exact X|auto].
  - left. intros m [Hm|Hm]; [elim (D m Hm)|auto].
Qed.
Lemma in_messages m t : In (EvRecv m) t <-> In m (messages t).
Proof.
  unfold messages. rewrite in_flat_map. split; [intros H; exists (EvRecv m); split; [exact H|left; reflexivity]|].
  intros (e & H & X). destruct e; cbn in X; try contradiction. destruct X as [->|[]]. exact H.
Qed.
Lemma exec_received C s i inp s' pushed e m : exec C s i inp = Ok (s', pushed, e) -> In (EvRecv m) e -> m = in_message inp.
Proof.
  intros H Hm. apply in_messages in Hm. rewrite (exec_messages _ _ _ _ _ _ _ H) in Hm. destruct i; try contradiction. destruct (reads_link s inp); [|contradiction].
  destruct (in_message inp); [contradiction|]. destruct Hm as [Hm|[]]. auto.
Qed.
Lemma step_received C k l k' e m : step C k l = Ok (k', e) -> receives bytes_ok k l -> In (EvRecv m) e -> bytes_ok m.
Proof.
  intros H R Hm. destruct (step_inv _ _ _ _ _ H) as [[-> ->]|[(x & s1 & -> & -> & -> & ->)|(inp & s1 & i & rest & s2 & pushed & -> & -> & He & ->)]]; try contradiction.
  rewrite (exec_received _ _ _ _ _ _ _ _ He Hm). exact R.
Qed.
Lemma run_received C : forall ls k k' t m, run C k ls = Ok (k', t) -> along (receives bytes_ok) C k ls -> In (EvRecv m) t -> bytes_ok m.
Proof.
  induction ls as [|l ls IH]; intros k k' t m H R Hm; cbn [run] in H; [injection H as <- <-; contradiction|]. cbn [along] in R. destruct R as [R1 R2].
  destruct (step C k l) as [[k1 e1]| |] eqn:E; cbn [obind] in H; try discriminate. destruct (run C k1 ls) as [[k2 e2]| |] eqn:E2; cbn [obind] in H; try discriminate. injection H as <- <-.
  apply in_app_or in Hm. destruct Hm as [Hm|Hm]; [eapply step_received; eauto|eapply IH; eauto].
Qed.

Lemma run_defined C hm : sup_ed25519 (c_supports C) = true -> keys_whole C -> (hm = true -> hmac_configured C) -> forall ls k, dinv C hm k ->
  along (fun k l => opens_quietly k l /\ receives bytes_ok k l) C k ls ->
  (exists k' t, run C k ls = Ok (k', t)) \/
  (exists ls1 ls2 k' t raw, ls = ls1 ++ ls2 /\ run C k ls1 = Ok (k', t) /\ In (EvRecv raw) t /\ harmful C hm raw).
Proof.
  intros HS HK HC. induction ls as [|l ls IH]; intros k D Q; cbn [run]; [eauto|]. cbn [along] in Q. destruct Q as [[Q1 R1] Q2].
  destruct (step_defined C hm k l HS HK D) as [[k1 e1] E]. rewrite E in *. cbn [obind].
  destruct (messages_or C hm e1) as [M|(m & M1 & M2)]; [intros m Hm; eapply step_received; eauto| |].
  - destruct (IH k1) as [(k2 & t & ->)|(ls1 & ls2 & k2 & t & raw & -> & E2 & X1 & X2)]; [eapply dinv_step; eauto|exact Q2| |]; cbn [obind]; [eauto|].
    right. exists (l :: ls1), ls2, k2, (e1 ++ t), raw. repeat split; auto; [|apply in_or_app; auto]. cbn [run]. rewrite E. cbn [obind]. rewrite E2. reflexivity.
  - right. exists [l], ls, k1, e1, m. repeat split; auto. cbn [run]. rewrite E. cbn [obind]. now rewrite app_nil_r.
Qed.
