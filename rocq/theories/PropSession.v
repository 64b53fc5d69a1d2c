(** * C14-C21, C36 (session messages), C38: sessions *)
From Verif Require Import Base BaseFacts Codec CodecSpec Link LinkSpec LinkLayer Primitives Session SessionSpec SessionFacts SessionMain.

(** ** Concrete sessions for the examples: Alice sends, Bob receives, toy primitives *)
Definition ex_E (kind : frame_kind) : senv := {| e_prims := toy; e_kind := kind; e_max_payload := 4092; e_ttl_pad_ms := 10000 |}.
Definition ex_param : param := {| p_start := 5000; p_max_nonce := 4; p_max_time := ms 60000 |}.
Definition ex_init (nm : SessionNonceMode) (cm : SessionCryptoMode) (rx tx : N) : session :=
  snd (fst (initialize new_session nm cm ex_param {| k_rx := repeat rx 32; k_tx := repeat tx 32 |})).
Lemma ex_fresh nm cm rx tx : fresh (ex_init nm cm rx tx).
Proof. exists new_session, nm, cm, ex_param, {| k_rx := repeat rx 32; k_tx := repeat tx 32 |}. split; reflexivity. Qed.

Definition ex_alice_ops : list sop :=
  [SFormatAuth [] 6000; SFormatData [1; 2; 3]%N 7000; SFormatData [4]%N (ms 70000); SFormatData [5; 6]%N 8000; SFormatData [7]%N 9000; SFormatData [8]%N 9500].
(** The messages Alice sends, as Bob parses them. *)
Definition ex_messages (cm : SessionCryptoMode) : list SessionData :=
  match srun (ex_E FRaw) 4096 (ex_init strict_increment cm 2 1) ex_alice_ops with
  | Ok (_, es) => flat_map (fun f => match session_data_read f with inl m => [m] | _ => [] end) (sent_frames es)
  | _ => []
  end.

(** ** C14 *)

(** For every sequence of calls on a session after its initialization: the nonces of the data
    messages let through strictly increase from above 0, by exactly one in strict mode, never
    exceed the negotiated maximum, and messages accepted as authentication carry nonce 0.
    [data_nonces] ranges over all authenticated data messages, including those dropped for
    carrying no user data. *)
Theorem C14_nonces_increase : forall E cap s ops s' es, prims_ok (e_prims E) -> fresh s ->
  srun E cap s ops = Ok (s', es) ->
  above 0 (data_nonces es) /\
  (s_nonce_mode s = strict_increment -> consecutive 0 (data_nonces es)) /\
  Forall (fun n => n <= p_max_nonce (s_param s))%N (data_nonces es) /\
  Forall (fun n => n = 0)%N (auth_nonces es).
Proof.
  intros E cap s ops s' es HP HF H. destruct (fresh_facts _ HF) as (R & _). pose proof (rx_run E cap HP _ _ _ _ H) as X.
  rewrite R in X. exact X.
Qed.
Print Assumptions C14_nonces_increase.

(** Hence no data message is accepted twice. *)
Theorem C14_no_data_replay : forall E cap s ops s' es, prims_ok (e_prims E) -> fresh s ->
  srun E cap s ops = Ok (s', es) -> NoDup (data_nonces es).
Proof.
  intros E cap s ops s' es HP HF H. destruct (C14_nonces_increase _ _ _ _ _ _ HP HF H) as (A & _).
  revert A. generalize 0%N as r. induction (data_nonces es) as [|n l IH]; intros r A; [constructor|]. destruct A as [A1 A2].
  constructor; [|exact (IH _ A2)]. clear IH.
  assert (G : forall l n, above n l -> forall x, In x l -> (n < x)%N).
  { clear. induction l as [|y l IH]; intros n H x Hx; [destruct Hx|]. destruct H as [H1 H2]. destruct Hx as [->|Hx]; [exact H1|].
    specialize (IH _ H2 _ Hx). lia. }
  intros Hin. specialize (G _ _ A2 _ Hin). lia.
Qed.
Print Assumptions C14_no_data_replay.

(** A received authentication message, on the other hand, is accepted as often as it is presented
    to the session while no data message has been received: the session alone does not rule this
    out (its users do, see the endpoint theorems). *)
Theorem C14_auth_replay_at_session_level_refuted : exists E cap s m now,
  prims_ok (e_prims E) /\ fresh s /\
  exists s' p, srun E cap s [SValidateAuth m now; SValidateAuth m now] = Ok (s', [EvAuth m p now; EvAuth m p now]).
Proof.
  exists (ex_E FRaw), 4096, (ex_init strict_increment hmac_sha256_16 1 2).
  exists (hd {| sd_metadata := {| am_nonce := 0; am_valid_until_ms := 0 |}; sd_user_data := []; sd_auth_tag := [] |} (ex_messages hmac_sha256_16)), 6000%Z.
  split; [exact toy_ok|]. split; [apply ex_fresh|]. eexists. eexists. vm_compute. reflexivity.
Qed.
Print Assumptions C14_auth_replay_at_session_level_refuted.

(** Bob receives what Alice sent, with duplicates and reordering. *)
Definition ex_bob_ops (msgs : list SessionData) : list sop :=
  match msgs with
  | [m0; m1; m2; m3] =>
      [SValidateAuth m0 6000; SValidateData m1 8000; SValidateData m1 8001; SValidateData m0 8002; SValidateData m3 8500; SValidateData m2 9000;
       SValidateData m2 9500; SValidateData m3 (Session.ms 20000); SValidateData m3 9600]
  | _ => []
  end.
Example C14_instance : match srun (ex_E FRaw) 4096 (ex_init strict_increment aes_256_gcm 1 2) (ex_bob_ops (ex_messages aes_256_gcm)) with
  | Ok (_, es) => data_nonces es = [1; 2; 3]%N /\ auth_nonces es = [0]%N /\ delivered es = [[1; 2; 3]; [5; 6]; [7]]%N
  | _ => False end.
Proof. vm_compute. auto. Qed.

(** ** C15 *)

(** For every sequence of calls on a session after its initialization, interleaving successful and
    failed transmissions with receptions: the i-th frame produced (i = 0, 1, 2, ...) carries nonce
    i and opens under the transmit key to the part of the cleartext it consumed; the number of
    frames never exceeds the negotiated maximum nonce (one authentication frame is allowed even
    when the maximum is 0). *)
Theorem C15_nonces_in_sequence : forall E cap s ops s' es, prims_ok (e_prims E) -> fresh s -> Forall sop_bytes ops ->
  srun E cap s ops = Ok (s', es) ->
  (N.of_nat (length (sent_frames es)) <= N.max 1 (p_max_nonce (s_param s)))%N /\
  forall i f, nth_error (sent_frames es) i = Some f ->
    exists md chunk, carries E (s_crypto_mode s) (k_tx (s_keys s)) f md chunk /\ am_nonce md = N.of_nat i /\
      nth_error (sent_chunks es) i = Some chunk.
Proof.
  intros E cap s ops s' es HP HF Hops H. destruct (fresh_facts _ HF) as (_ & F1 & _ & F2 & _).
  destruct (tx_run E cap HP _ _ _ _ H Hops F2) as (T1 & T2 & log & T3 & T4 & T5); [lia|]. rewrite F1 in T1, T4.
  split; [lia|]. intros i f Hf.
  assert (Hi : exists mc, nth_error log i = Some mc /\ carries E (s_crypto_mode s) (k_tx (s_keys s)) f (fst mc) (snd mc)).
  { revert i Hf. clear T1 T4 T5. induction T3 as [|a b l l' R _ IH]; intros [|i] Hf; cbn in Hf; try discriminate.
    - injection Hf as <-. exists b. auto.
    - exact (IH i Hf). }
  destruct Hi as ([md c] & I1 & I2). exists md, c. split; [exact I2|]. split.
  - pose proof (map_seq_nth _ _ _ _ _ T4 I1) as X. cbn [fst] in X. rewrite X. reflexivity.
  - rewrite <- T5. exact (map_nth_error snd i log I1).
Qed.
Print Assumptions C15_nonces_in_sequence.

(** Two frames of one session never carry the same nonce. *)
Theorem C15_no_reuse : forall E cap s ops s' es i j f g md md' c c', prims_ok (e_prims E) -> fresh s -> Forall sop_bytes ops ->
  srun E cap s ops = Ok (s', es) ->
  nth_error (sent_frames es) i = Some f -> nth_error (sent_frames es) j = Some g ->
  carries E (s_crypto_mode s) (k_tx (s_keys s)) f md c -> carries E (s_crypto_mode s) (k_tx (s_keys s)) g md' c' ->
  am_nonce md = am_nonce md' -> i = j.
Proof.
  intros E cap s ops s' es i j f g md md' c c' HP HF Hops H Hi Hj C1 C2 Hn.
  destruct (C15_nonces_in_sequence _ _ _ _ _ _ HP HF Hops H) as [_ X].
  destruct (X _ _ Hi) as (a & b & A1 & A2 & _). destruct (X _ _ Hj) as (a' & b' & B1 & B2 & _).
  destruct (carries_unique _ _ _ _ _ _ _ _ A1 C1) as [-> _]. destruct (carries_unique _ _ _ _ _ _ _ _ B1 C2) as [-> _]. lia.
Qed.
Print Assumptions C15_no_reuse.

(** The i-th frame of a session is exactly the protection of its chunk under the transmit key with
    nonce i; in AES-GCM mode the initialization vector is ten zero bytes and i in big endian, so
    no two encryptions of a session share one. *)
Theorem C15_protected_with_own_nonce : forall E cap s ops s' es, prims_ok (e_prims E) -> fresh s -> Forall sop_bytes ops ->
  srun E cap s ops = Ok (s', es) ->
  length (sent_chunks es) = length (sent_frames es) /\
  forall i f chunk, nth_error (sent_frames es) i = Some f -> nth_error (sent_chunks es) i = Some chunk ->
    exists md, am_nonce md = N.of_nat i /\
      f = frame_of (e_kind E) (wire_session_data (protected_message (e_prims E) (s_crypto_mode s) (k_tx (s_keys s)) md chunk)).
Proof.
  intros E cap s ops s' es HP HF Hops H. pose proof (run_protected E cap HP _ _ _ _ H Hops) as R.
  destruct (C15_nonces_in_sequence _ _ _ _ _ _ HP HF Hops H) as [_ X]. split; [clear - R; induction R; cbn; congruence|].
  intros i f chunk Hf Hc. destruct (X _ _ Hf) as (md & c & (m & C1 & C2 & C3 & _) & C4 & C5).
  assert (G : exists md, f = frame_of (e_kind E) (wire_session_data (protected_message (e_prims E) (s_crypto_mode s) (k_tx (s_keys s)) md chunk))).
  { clear - R Hf Hc. revert i Hf Hc. induction R as [|a b l l' R1 _ IH]; intros [|i] Hf Hc; cbn in Hf, Hc; try discriminate.
    - injection Hf as <-. injection Hc as <-. exact R1.
    - eauto. }
  destruct G as [md1 G]. exists md. split; [exact C4|].
  rewrite G in C3 |- *. f_equal. apply frame_of_inj in C3. exact (protected_wire _ _ _ _ _ _ _ C3 C2).
Qed.
Print Assumptions C15_protected_with_own_nonce.
Theorem C15_gcm_iv_distinct : forall i j, (i < 65536)%N -> (j < 65536)%N -> gcm_iv i = gcm_iv j -> i = j.
Proof.
  intros i j Hi Hj H. unfold gcm_iv in H. apply app_inv_head in H.
  apply (f_equal be_value) in H. rewrite !be_value_be_bytes in H. change (256 ^ N.of_nat 2)%N with 65536%N in H. rewrite !N.mod_small in H by lia. exact H.
Qed.
Print Assumptions C15_gcm_iv_distinct.

(** A transmission that fails leaves the session as it was: it consumes no nonce. *)
Theorem C15_failed_transmission_no_effect : forall E cap s o s' e clear rest now, prims_ok (e_prims E) ->
  sstep E cap s o = Ok (s', EvNotSent e clear rest now) -> s' = s.
Proof. intros E cap s o s' e clear rest now HP H. apply sstep_spec in H; [|exact HP]. inversion H; reflexivity. Qed.
Print Assumptions C15_failed_transmission_no_effect.

(** Once as many frames as the negotiated maximum were produced no data frame is produced. *)
Theorem C15_stops_at_maximum : forall E cap s ops s1 es, prims_ok (e_prims E) -> fresh s -> Forall sop_bytes ops ->
  srun E cap s ops = Ok (s1, es) -> (p_max_nonce (s_param s) <= N.of_nat (length (sent_frames es)))%N ->
  forall now clear, format_session_data E s1 now clear = Ok (inr e_max_nonce_exceeded, clear, s1).
Proof.
  intros E cap s ops s1 es HP HF Hops H Hm now clear. destruct (fresh_facts _ HF) as (_ & F1 & _ & F2 & _).
  destruct (tx_run E cap HP _ _ _ _ H Hops F2) as (T1 & T2 & _); [lia|]. rewrite F1 in T1.
  destruct (run_same _ _ HP _ _ _ _ H) as (_ & _ & _ & _ & S5).
  unfold format_session_data. destruct (N.leb_spec (p_max_nonce (s_param s1)) (s_tx_nonce s1)) as [X|X]; [reflexivity|].
  rewrite S5 in X. lia.
Qed.
Print Assumptions C15_stops_at_maximum.

(** Alice: one failure for time, then the maximum (4) is reached. *)
Example C15_instance : match srun (ex_E (FLink {| a_destination := 10; a_source := 1 |})) 4096 (ex_init strict_increment aes_256_gcm 2 1) ex_alice_ops with
  | Ok (s', es) => s_tx_nonce s' = 4%N /\ length (sent_frames es) = 4 /\ sent_chunks es = [[]; [1; 2; 3]; [5; 6]; [7]]%N
  | _ => False end /\ Forall sop_bytes ex_alice_ops.
Proof. split; [vm_compute; auto|]. repeat constructor. Qed.

(** ** C16 *)

(** Every message accepted and every frame produced, at whatever time the caller reports, falls
    within the session: not before its start, not after its maximum duration, and accepted
    messages not after the valid-until time they carry. *)
Theorem C16_session_lifetime : forall E cap s ops s' es, prims_ok (e_prims E) ->
  srun E cap s ops = Ok (s', es) -> Forall (within s) es.
Proof. intros E cap s ops s' es HP. exact (within_run E cap HP ops s s' es). Qed.
Print Assumptions C16_session_lifetime.

(** The valid-until time a produced frame carries is the current session time plus the configured
    time to live (rounded down to a millisecond) and never lies after the end of the session.
    (The maximum duration is a 32-bit number of milliseconds on the wire.) *)
Theorem C16_valid_until : forall E cap s ops s' es f clear rest now, prims_ok (e_prims E) -> fresh s -> Forall sop_bytes ops ->
  (p_max_time (s_param s) <= ms 4294967295)%Z ->
  srun E cap s ops = Ok (s', es) -> In (EvSent f clear rest now) es ->
  exists md c, carries E (s_crypto_mode s) (k_tx (s_keys s)) f md c /\ (valid_until md <= p_max_time (s_param s))%Z /\
    (now - p_start (s_param s) + ms (e_ttl_pad_ms E) - 1000000 < valid_until md <= now - p_start (s_param s) + ms (e_ttl_pad_ms E))%Z.
Proof. exact sent_valid_until. Qed.
Print Assumptions C16_valid_until.

(** The last two presentations of Bob: too late, then in time. *)
Example C16_instance : match srun (ex_E FRaw) 4096 (ex_init strict_increment aes_256_gcm 1 2) (ex_bob_ops (ex_messages aes_256_gcm)) with
  | Ok (_, es) => map (fun e => match e with EvRejected _ r _ => Some r | _ => None end) es =
     [None; None; Some e_nonce_replay; Some e_nonce_replay; Some e_nonce_replay; None; Some e_nonce_replay; Some e_expired_ttl; None]
  | _ => False end.
Proof. vm_compute. reflexivity. Qed.

(** ** C17 *)

(** A message rejected for any reason other than carrying no user data leaves the session exactly
    as it was, and every later event is as if it had not arrived.
    Missing: messages that authenticate but carry no user data (refuted below). *)
Theorem C17_rejected_no_effect_partial : forall E cap s ops1 o ops2 s' es1 es2 m e now, prims_ok (e_prims E) ->
  srun E cap s (ops1 ++ o :: ops2) = Ok (s', es1 ++ EvRejected m e now :: es2) -> length es1 = length ops1 ->
  e <> e_empty_user_data ->
  srun E cap s (ops1 ++ ops2) = Ok (s', es1 ++ es2).
Proof.
  intros E cap s ops1 o ops2 s' es1 es2 m e now HP H Hl He. rewrite srun_app in H |- *.
  destruct (srun E cap s ops1) as [[s1 es1']| |] eqn:E1; cbn [obind] in *; try discriminate.
  pose proof (srun_length _ _ _ _ _ _ E1) as L1.
  destruct (srun E cap s1 (o :: ops2)) as [[s2 esr]| |] eqn:E2; cbn [obind] in H; try discriminate.
  apply srun_cons_inv in E2 as (s3 & e3 & es3 & A & B & ->). injection H as -> H.
  apply app_same_length in H as [-> H]; [|congruence]. injection H as -> ->.
  pose proof (rejected_unchanged _ _ _ _ _ _ _ _ HP A He). subst s3. rewrite B. reflexivity.
Qed.
Print Assumptions C17_rejected_no_effect_partial.

(** The last message produced by some calls. *)
Definition ex_last (ops : list sop) : SessionData :=
  match srun (ex_E FRaw) 4096 (ex_init strict_increment hmac_sha256_16 2 1) ops with
  | Ok (_, es) => match session_data_read (last (sent_frames es) []) with inl m => m | _ => Build_SessionData (Build_AuthMetadata 0 0) [] [] end
  | _ => Build_SessionData (Build_AuthMetadata 0 0) [] []
  end.
Definition ex_empty : SessionData := Eval vm_compute in ex_last [SFormatAuth [] 6000; SFormatData [] 7000].
Definition ex_nine : SessionData := Eval vm_compute in ex_last [SFormatAuth [] 6000; SFormatData [9]%N 7000].

(** A data message that authenticates but carries no user data is rejected with an error and yet
    uses up its nonce: a message accepted without it is rejected after it. *)
Theorem C17_empty_message_refuted : exists E cap s empty m now, prims_ok (e_prims E) /\ fresh s /\
  (exists s1 s2 p, srun E cap s [SValidateData m now] = Ok (s1, [EvData m p now]) /\
    srun E cap s [SValidateData empty now; SValidateData m now] =
      Ok (s2, [EvRejected empty e_empty_user_data now; EvRejected m e_nonce_replay now])).
Proof.
  exists (ex_E FRaw), 4096, (ex_init strict_increment hmac_sha256_16 1 2), ex_empty, ex_nine, 8000%Z.
  split; [exact toy_ok|]. split; [apply ex_fresh|].
  eexists. eexists. eexists. split; [vm_compute; reflexivity|]. vm_compute. reflexivity.
Qed.
Print Assumptions C17_empty_message_refuted.

(** ** C18 *)

(** Two sessions with matching keys, whatever calls each receives: what the network does is
    expressed by the arbitrary list of messages presented to the receiver, of which only those
    that the sender produced open (the AEAD is not forged).  What is delivered is a subsequence of
    the chunks transmitted after the authentication message, each at most once and in order; in
    strict mode it is exactly the user data of the first k of these messages, for some k. *)
Theorem C18_channel : forall EA EB capA capB sA sB opsA opsB sA' sB' esA esB,
  prims_ok (e_prims EA) -> prims_ok (e_prims EB) -> fresh sA -> fresh sB -> Forall sop_bytes opsA ->
  k_rx (s_keys sB) = k_tx (s_keys sA) -> s_crypto_mode sB = s_crypto_mode sA ->
  srun EA capA sA opsA = Ok (sA', esA) -> srun EB capB sB opsB = Ok (sB', esB) ->
  unforged EA EB (s_crypto_mode sA) (k_tx (s_keys sA)) capB esA opsB ->
  subseq (delivered esB) (tl (sent_chunks esA)) /\
  (s_nonce_mode sB = strict_increment -> exists k, delivered esB = filter nonempty (firstn k (tl (sent_chunks esA)))).
Proof. exact channel. Qed.
Print Assumptions C18_channel.

(** The hypotheses are met by Alice and Bob above: every message presented to Bob is one Alice sent. *)
Definition ex_hmac_messages : list SessionData := Eval vm_compute in ex_messages hmac_sha256_16.
Definition ex_alice_events : list sevent := Eval vm_compute in
  match srun (ex_E FRaw) 4096 (ex_init strict_increment hmac_sha256_16 2 1) ex_alice_ops with Ok (_, es) => es | _ => [] end.
Lemma ex_alice_run : exists sA', srun (ex_E FRaw) 4096 (ex_init strict_increment hmac_sha256_16 2 1) ex_alice_ops = Ok (sA', ex_alice_events).
Proof. eexists. vm_compute. reflexivity. Qed.
Definition sd_check (x : SessionData) : bool :=
  (am_nonce (sd_metadata x) <? 2 ^ 16)%N && (am_valid_until_ms (sd_metadata x) <? 2 ^ 32)%N &&
  forallb (fun b => b <? 256)%N (sd_user_data x) && forallb (fun b => b <? 256)%N (sd_auth_tag x) &&
  (N.of_nat (length (sd_user_data x)) <? 65536)%N && (N.of_nat (length (sd_auth_tag x)) <? 65536)%N.
Lemma sd_check_ok x : sd_check x = true -> session_data_ok x /\ (N.of_nat (length (sd_user_data x)) < 65536)%N.
Proof.
  unfold sd_check. rewrite !andb_true_iff, !forallb_forall. intros (((((F1 & F2) & F3) & F4) & F5) & F6). apply N.ltb_lt in F1, F2, F5, F6.
  split; [|exact F5]. split; [split; assumption|]. split; (split; [apply Forall_forall; intros b Hb; apply N.ltb_lt; auto|lia]).
Qed.
Lemma ex_unforged : unforged (ex_E FRaw) (ex_E FRaw) hmac_sha256_16 (repeat 1%N 32) 4096 ex_alice_events (ex_bob_ops ex_hmac_messages).
Proof.
  intros m p Hin Hr.
  assert (C : In m ex_hmac_messages).
  { revert Hin. clear. unfold ex_bob_ops. remember ex_hmac_messages as l eqn:El. clear El.
    destruct l as [|m0 [|m1 [|m2 [|m3 [|]]]]]; cbn [presented flat_map In app]; intuition. }
  clear Hin.
  assert (A : forallb sd_check ex_hmac_messages = true) by (vm_compute; reflexivity).
  rewrite forallb_forall in A. specialize (A m C). apply sd_check_ok in A as [A1 A2].
  assert (B : sent_frames ex_alice_events = map wire_session_data ex_hmac_messages) by (vm_compute; reflexivity).
  exists (wire_session_data m). split; [rewrite B; apply in_map; exact C|].
  exists m. split; [exact A1|]. split; [reflexivity|]. split; [reflexivity|]. split; [exact A2|].
  clear C A1 A2 B. intros cap H1 H2. revert Hr. unfold mode_read. change (length (repeat 1%N 32)) with 32.
  cbn [symmetric_key_length Nat.eqb negb]. unfold aead_decrypt.
  rewrite (proj2 (N.ltb_ge 65535 (N.of_nat cap))) by lia. rewrite (proj2 (N.ltb_ge 65535 (N.of_nat 4096))) by lia. auto.
Qed.
Example C18_instance : match srun (ex_E FRaw) 4096 (ex_init strict_increment hmac_sha256_16 1 2) (ex_bob_ops ex_hmac_messages) with
  | Ok (_, es) => delivered es = [[1; 2; 3]; [5; 6]; [7]]%N
  | _ => False end.
Proof. vm_compute. reflexivity. Qed.

(** ** C19 *)

(** However large the buffer and whenever each frame is produced: the frames produced from it
    carry consecutive non-empty pieces of at most 1024 bytes whose concatenation is the buffer. *)
Theorem C19_fragmentation : forall E s clear frames s', prims_ok (e_prims E) ->
  (p_max_nonce (s_param s) < 65536)%N -> bytes_ok clear -> transmits E s clear frames s' ->
  exists chunks, Forall2 (fun f c => exists md, carries E (s_crypto_mode s) (k_tx (s_keys s)) f md c) frames chunks /\
    concat chunks = clear /\ Forall (fun c => c <> [] /\ length c <= 1024) chunks.
Proof. intros E s clear frames s' HP Hm Hb H. exact (transmits_spec E HP s clear frames s' H Hm Hb). Qed.
Print Assumptions C19_fragmentation.

Example C19_instance : exists f1 f2 f3 s', transmits (ex_E FRaw) (ex_init strict_increment hmac_sha256_16 2 1) (repeat 7%N 2500) [f1; f2; f3] s'.
Proof.
  eexists. eexists. eexists. eexists.
  eapply (transmits_step _ _ 7000); [discriminate|vm_compute; reflexivity|].
  eapply (transmits_step _ _ 8000); [discriminate|vm_compute; reflexivity|].
  eapply (transmits_step _ _ 9000); [discriminate|vm_compute; reflexivity|]. apply transmits_done.
Qed.

(** ** C20 *)

(** With a maximum payload of at least 1051 bytes (the library's stacks use 4092), formatting never
    fails for lack of space: it succeeds for every cleartext whenever the session is valid, within
    its lifetime and below its maximum nonce. *)
Theorem C20_always_fits : forall E s now clear, prims_ok (e_prims E) -> (1051 <= e_max_payload E)%N -> can_send E s now ->
  exists frame rest s', format_session_data E s now clear = Ok (inl frame, rest, s').
Proof. intros E s now clear HP Hm Hc. exact (always_fits E s now clear HP Hc Hm). Qed.
Print Assumptions C20_always_fits.

(** 1051 is the least such value: with any smaller one, a cleartext of 1024 bytes or more is never
    sent, in any session (the buffer for the ciphertext leaves no room for the tag). *)
Theorem C20_smaller_payload_refuted : forall E s now clear, prims_ok (e_prims E) -> (9 < e_max_payload E < 1051)%N ->
  can_send E s now -> 1024 <= length clear ->
  exists rest, format_session_data E s now clear = Ok (inr e_format, rest, s).
Proof. intros E s now clear HP Hm Hc Hl. exact (never_fits E s now clear HP Hc Hm Hl). Qed.
Print Assumptions C20_smaller_payload_refuted.

Example C20_instance : can_send (ex_E FRaw) (ex_init strict_increment hmac_sha256_16 2 1) 7000.
Proof. unfold can_send. cbn. repeat split; lia. Qed.

(** ** C21 *)

Theorem C21_mac_input_injective : forall md md' d d', metadata_ok md -> metadata_ok md' ->
  mac_input (metadata_bytes md) d = mac_input (metadata_bytes md') d' -> md = md' /\ d = d'.
Proof. exact mac_input_inj. Qed.
Print Assumptions C21_mac_input_injective.

(** What is encrypted under a key and metadata decrypts to itself, in both modes. *)
Theorem C21_encrypt_decrypt : forall P mode key md clear cap cap' ct tag, prims_ok P ->
  length key = 32 -> (N.of_nat cap' < 65536)%N -> length clear <= cap' ->
  aead_encrypt P mode key (am_nonce md) (metadata_bytes md) clear cap = Ok (inl (ct, tag)) ->
  mode_read P mode key {| sd_metadata := md; sd_user_data := ct; sd_auth_tag := tag |} cap' = Ok (inl clear).
Proof.
  intros P mode key md clear cap cap' ct tag HP Hk H1 H2 H. unfold mode_read. rewrite Hk. cbn [symmetric_key_length Nat.eqb negb sd_metadata sd_user_data sd_auth_tag].
  unfold aead_encrypt in H. unfold aead_decrypt. destruct mode.
  - destruct (N.ltb_spec 65535 (N.of_nat (length clear))) as [X|_]; [discriminate|].
    assert (E : (clear, firstn trunc16 (p_hmac P key (mac_input (metadata_bytes md) clear))) = (ct, tag)) by congruence.
    assert (E1 : clear = ct) by congruence. assert (E2 : firstn trunc16 (p_hmac P key (mac_input (metadata_bytes md) clear)) = tag) by congruence. subst ct tag.
    destruct (N.ltb_spec 65535 (N.of_nat cap')) as [X|_]; [lia|]. now rewrite (proj2 (secure_equals_spec _ _) eq_refl).
  - destruct (cap <? length clear); [discriminate|].
    pose proof (ok_gcm_length _ HP key (gcm_nonce (am_nonce md)) (metadata_bytes md) clear) as L1.
    pose proof (ok_gcm_tag _ HP key (gcm_nonce (am_nonce md)) (metadata_bytes md) clear) as L2.
    pose proof (ok_gcm_inverse _ HP key (gcm_nonce (am_nonce md)) (metadata_bytes md) clear) as L3.
    assert (E : p_gcm_encrypt P key (gcm_nonce (am_nonce md)) (metadata_bytes md) clear = (ct, tag)) by congruence. rewrite E in L1, L2, L3. cbn [fst snd] in *.
    unfold aes_gcm_tag_length. rewrite (proj2 (Nat.ltb_ge _ _)) by lia. rewrite (proj2 (Nat.ltb_ge _ _)) by lia. cbn [orb].
    rewrite firstn_all2 by lia. now rewrite L3.
Qed.
Print Assumptions C21_encrypt_decrypt.

(** HMAC mode: a message opens exactly when its tag is the truncated MAC of its metadata and
    payload, and then to its payload. *)
Theorem C21_hmac_opens_iff : forall P key m cap p, length key = 32 -> (N.of_nat cap < 65536)%N ->
  (mode_read P hmac_sha256_16 key m cap = Ok (inl p) <->
   p = sd_user_data m /\ sd_auth_tag m = firstn 16 (p_hmac P key (mac_input (metadata_bytes (sd_metadata m)) (sd_user_data m)))).
Proof.
  intros P key m cap p Hk Hc. unfold mode_read, aead_decrypt. rewrite Hk. cbn [symmetric_key_length Nat.eqb negb].
  destruct (N.ltb_spec 65535 (N.of_nat cap)) as [X|_]; [lia|]. fold trunc16.
  destruct (secure_equals _ _) eqn:E; [apply secure_equals_spec in E|].
  - split; [intros H; split; congruence|intros [-> _]; reflexivity].
  - split; [discriminate|]. intros [_ H]. rewrite <- H, (proj2 (secure_equals_spec _ _) eq_refl) in E. discriminate.
Qed.
Print Assumptions C21_hmac_opens_iff.

(** HMAC mode: of a message that opens, changing only the tag gives one that does not open; if
    changing metadata or payload and keeping the tag gives one that opens, two different MAC
    inputs have the same truncated MAC under the key. *)
Theorem C21_hmac_modified_rejected : forall P key m m' cap p p', length key = 32 -> (N.of_nat cap < 65536)%N ->
  metadata_ok (sd_metadata m) -> metadata_ok (sd_metadata m') -> m' <> m ->
  mode_read P hmac_sha256_16 key m cap = Ok (inl p) -> mode_read P hmac_sha256_16 key m' cap = Ok (inl p') ->
  ~ (sd_metadata m' = sd_metadata m /\ sd_user_data m' = sd_user_data m) /\
  (sd_auth_tag m' = sd_auth_tag m -> exists x x', x <> x' /\ firstn 16 (p_hmac P key x) = firstn 16 (p_hmac P key x')).
Proof.
  intros P key m m' cap p p' Hk Hc O O' Hne H H'. apply C21_hmac_opens_iff in H as [_ H]; auto. apply C21_hmac_opens_iff in H' as [_ H']; auto.
  assert (D : ~ (sd_metadata m' = sd_metadata m /\ sd_user_data m' = sd_user_data m)).
  { intros [A B]. apply Hne. rewrite A, B, <- H in H'. destruct m, m'. cbn in *. congruence. }
  split; [exact D|]. intros Ht.
  exists (mac_input (metadata_bytes (sd_metadata m)) (sd_user_data m)), (mac_input (metadata_bytes (sd_metadata m')) (sd_user_data m')).
  split; [|congruence]. intros E. apply mac_input_inj in E as [A B]; auto.
Qed.
Print Assumptions C21_hmac_modified_rejected.

(** AES-GCM mode: bytes appended to the tag of a message that opens are ignored, so a modified
    message opens. *)
Theorem C21_gcm_tag_extension_refuted : forall P key m cap p extra,
  mode_read P aes_256_gcm key m cap = Ok (inl p) ->
  mode_read P aes_256_gcm key {| sd_metadata := sd_metadata m; sd_user_data := sd_user_data m; sd_auth_tag := sd_auth_tag m ++ extra |} cap = Ok (inl p).
Proof.
  intros P key m cap p extra. unfold mode_read, aead_decrypt. destruct (negb _); [discriminate|]. cbn [sd_metadata sd_user_data sd_auth_tag].
  unfold aes_gcm_tag_length. destruct (Nat.ltb_spec (length (sd_auth_tag m)) 16) as [X|X]; [discriminate|].
  destruct (Nat.ltb_spec (length (sd_auth_tag m ++ extra)) 16) as [Y|Y]; [rewrite app_length in Y; lia|].
  cbn [orb]. destruct (cap <? length (sd_user_data m)); [discriminate|].
  rewrite firstn_app. replace (16 - length (sd_auth_tag m)) with 0 by lia. rewrite firstn_O, app_nil_r. auto.
Qed.
Print Assumptions C21_gcm_tag_extension_refuted.

Example C21_instance : exists ct tag, aead_encrypt toy aes_256_gcm (repeat 1%N 32) 3 (metadata_bytes {| am_nonce := 3; am_valid_until_ms := 9 |}) [1; 2; 3]%N 100 = Ok (inl (ct, tag)) /\
  mode_read toy aes_256_gcm (repeat 1%N 32) {| sd_metadata := {| am_nonce := 3; am_valid_until_ms := 9 |}; sd_user_data := ct; sd_auth_tag := tag |} 100 = Ok (inl [1; 2; 3]%N).
Proof. eexists. eexists. split; vm_compute; reflexivity. Qed.

(** ** C36, session messages *)

(** Producing messages never goes out of bounds. *)
Theorem C36_format_safe : forall E s now clear, exists r, format_session_data E s now clear = Ok r.
Proof. intros E s now clear. unfold format_session_data. destruct (_ <=? _)%N; [eauto|apply format_safe]. Qed.
Print Assumptions C36_format_safe.

(** Opening a received message stays in bounds in HMAC mode always, in AES-GCM mode if its tag has
    at least 16 bytes and its user data is no longer than the destination.
    Missing: other messages in AES-GCM mode (refuted below). *)
Theorem C36_validate_safe_partial : forall E s m now cap,
  (s_crypto_mode s = aes_256_gcm -> 16 <= length (sd_auth_tag m) /\ length (sd_user_data m) <= cap) ->
  exists r, validate_session_data E s m now cap = Ok r.
Proof.
  intros E s m now cap H. unfold validate_session_data.
  assert (X : exists r, validate_with E (verify_nonce (s_nonce_mode s)) s m now cap = Ok r).
  { unfold validate_with. destruct (negb _); [eauto|].
    assert (Y : exists r, mode_read (e_prims E) (s_crypto_mode s) (k_rx (s_keys s)) m cap = Ok r).
    { unfold mode_read. destruct (negb _); [eauto|]. unfold aead_decrypt, aes_gcm_tag_length. destruct (s_crypto_mode s).
      - destruct (_ <? _)%N; [eauto|]. destruct (secure_equals _ _); eauto.
      - destruct (H eq_refl) as [H1 H2]. rewrite (proj2 (Nat.ltb_ge _ _)) by lia. rewrite (proj2 (Nat.ltb_ge _ _)) by lia. cbn [orb].
        destruct (p_gcm_decrypt _ _ _ _ _ _); eauto. }
    destruct Y as [r ->]. cbn [obind]. destruct r; [|eauto]. do 5 (destruct (_ : bool); [eauto|]). eauto. }
  destruct X as [[[r s'] st] ->]. cbn [obind]. destruct r; [|eauto]. destruct (length l =? 0); eauto.
Qed.
Print Assumptions C36_validate_safe_partial.

(** In AES-GCM mode, any session message with a tag shorter than 16 bytes (or user data longer than
    the destination) makes the receiver read (write) out of bounds: in every valid session, before
    any authentication. *)
Theorem C36_short_tag_refuted : forall E s m now cap, s_valid s = true -> s_crypto_mode s = aes_256_gcm ->
  length (k_rx (s_keys s)) = 32 -> length (sd_auth_tag m) < 16 \/ cap < length (sd_user_data m) ->
  validate_session_data E s m now cap = UB.
Proof.
  intros E s m now cap Hv Hm Hk H. unfold validate_session_data, validate_with. rewrite Hv. cbn [negb]. unfold mode_read. rewrite Hk, Hm.
  cbn [symmetric_key_length Nat.eqb negb]. unfold aead_decrypt, aes_gcm_tag_length.
  destruct (Nat.ltb_spec (length (sd_auth_tag m)) 16); [reflexivity|]. destruct (Nat.ltb_spec cap (length (sd_user_data m))); [reflexivity|lia].
Qed.
Print Assumptions C36_short_tag_refuted.
(** Such a message is accepted by the message parser: an empty tag. *)
Example C36_short_tag_instance : exists m, session_data_read [3; 0; 1; 0; 0; 0; 9; 1; 42; 0]%N = inl m /\ sd_auth_tag m = [] /\
  validate_session_data (ex_E FRaw) (ex_init strict_increment aes_256_gcm 1 2) m 7000 4096 = UB.
Proof. eexists. split; [vm_compute; reflexivity|]. split; vm_compute; reflexivity. Qed.

(** ** C38 *)
Theorem C38_secure_equals : forall a b, secure_equals a b = true <-> a = b.
Proof. exact secure_equals_spec. Qed.
Print Assumptions C38_secure_equals.
Example C38_instance : secure_equals [1; 2]%N [1; 2]%N = true /\ secure_equals [1; 2]%N [1; 2; 3]%N = false /\ secure_equals [] [] = true.
Proof. auto. Qed.
