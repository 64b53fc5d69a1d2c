(** * SessionMain: proofs about sessions, continued *)
From Verif Require Import Base BaseFacts Codec CodecSpec CodecFacts Crc Link LinkSpec LinkFacts LinkMain LinkLayer Primitives Session SessionSpec SessionFacts.
Ltac Zify.zify_post_hook ::= Z.div_mod_to_equations.

(** ** Injectivity of the wire formats *)
Lemma wire_session_data_inj m m' : session_data_ok m -> session_data_ok m' -> wire_session_data m = wire_session_data m' -> m = m'.
Proof.
  intros H H' E.
  assert (R : forall x, session_data_ok x -> session_data_read (wire_session_data x) = inl x).
  { intros x Hx. apply (read_message_iff session_data _ _ _ rlaw_session_data_fields); [apply wire_session_data_bytes, Hx|auto]. }
  pose proof (R _ H) as R1. rewrite E, (R _ H') in R1. congruence.
Qed.
Lemma app_same_length {A} (a b x y : list A) : length a = length b -> a ++ x = b ++ y -> a = b /\ x = y.
Proof.
  revert b. induction a as [|u a IH]; intros [|v b] L H; try discriminate L; [auto|].
  injection H as -> H. injection L as L. destruct (IH _ L H) as [-> ->]. auto.
Qed.
Lemma app_same_tail {A} (a b x y : list A) : length x = length y -> a ++ x = b ++ y -> a = b /\ x = y.
Proof.
  intros L H. apply app_same_length; [|exact H]. apply (f_equal (@length A)) in H. rewrite !app_length in H. lia.
Qed.
Lemma frame_of_inj k a b : frame_of k a = frame_of k b -> a = b.
Proof.
  destruct k as [ad|]; cbn [frame_of]; [|auto]. unfold frame_bytes. intros H. apply app_same_length in H as [_ H].
  - cbn [f_payload] in H. apply app_same_tail in H as [H _]; [exact H|now rewrite !be_bytes_length].
  - unfold frame_header, frame_header_fields. now rewrite !app_length, !be_bytes_length.
Qed.

Lemma carries_unique E mode key f md md' c c' : carries E mode key f md c -> carries E mode key f md' c' -> md = md' /\ c = c'.
Proof.
  intros (m & M1 & M2 & M3 & M4 & M5) (m' & M1' & M2' & M3' & M4' & M5').
  rewrite M3 in M3'. apply frame_of_inj in M3'. apply wire_session_data_inj in M3'; auto. subst m'. split; [congruence|].
  specialize (M5 _ (Nat.le_refl _) M4). specialize (M5' _ (Nat.le_refl _) M4). congruence.
Qed.

(** ** C18 *)
Lemma accepted_run E cap : prims_ok (e_prims E) -> forall ops s s' es, srun E cap s ops = Ok (s', es) ->
  map fst (accepted es) = data_nonces es /\ delivered es = filter nonempty (map snd (accepted es)) /\
  Forall (fun a => exists m, In m (presented ops) /\ am_nonce (sd_metadata m) = fst a /\
     mode_read (e_prims E) (s_crypto_mode s) (k_rx (s_keys s)) m cap = Ok (inl (snd a))) (accepted es).
Proof.
  intros HP. induction ops as [|o ops IH]; intros s s' es H; [injection H as _ <-; cbn; auto|].
  apply srun_cons_inv in H as (s1 & e & es' & H1 & H2 & ->).
  apply sstep_spec in H1; [|exact HP]. pose proof (step_same _ _ _ _ _ _ H1) as (S1 & S2 & S3 & S4 & S5).
  destruct (IH _ _ _ H2) as (I1 & I2 & I3). rewrite S2, S4 in I3.
  assert (I4 : forall o', Forall (fun a => exists m, In m (presented (o' :: ops)) /\ am_nonce (sd_metadata m) = fst a /\
     mode_read (e_prims E) (s_crypto_mode s) (k_rx (s_keys s)) m cap = Ok (inl (snd a))) (accepted es')).
  { intros o'. eapply Forall_impl; [|exact I3]. intros a (m & A & B). exists m. split; [|exact B].
    unfold presented. cbn [flat_map]. apply in_or_app. right. exact A. }
  unfold data_nonces, delivered in *. cbn [flat_map]. 
  destruct H1 as [m now p s1 F|m now p s1 F Hp|m now s1 F|m now e He|m now e He|clear now f rest s1 F Hz|clear now f rest s1 F Hz|clear now e rest|clear now e rest];
    unfold accepted in *; cbn [flat_map app map fst snd filter]; try (split; [exact I1|]; split; [exact I2|apply I4]).
  - split; [f_equal; exact I1|]. destruct p as [|x p]; [congruence|]. cbn [nonempty]. split; [f_equal; exact I2|].
    constructor; [|apply I4]. exists m. cbn. split; [auto|]. split; [reflexivity|]. exact (vf_read _ _ _ _ _ _ _ _ F).
  - split; [f_equal; exact I1|]. cbn [nonempty]. split; [exact I2|].
    constructor; [|apply I4]. exists m. cbn. split; [auto|]. split; [reflexivity|]. exact (vf_read _ _ _ _ _ _ _ _ F).
  - destruct e; try congruence; cbn [app map]; split; auto.
  - destruct e; try congruence; cbn [app map]; split; auto.
Qed.

Lemma subseq_skip_n {A} (l l' : list A) n : subseq l (skipn n l') -> subseq l l'.
Proof.
  revert l'. induction n as [|n IH]; intros l' H; [exact H|]. destruct l' as [|x l']; [cbn in H; exact H|].
  apply subseq_skip, IH. exact H.
Qed.
Lemma skipn_nth {A} (l : list A) n x : nth_error l n = Some x -> skipn n l = x :: skipn (S n) l.
Proof. revert n. induction l as [|y l IH]; intros [|n] H; cbn in H; try discriminate; [now injection H as ->|]. cbn [skipn]. rewrite (IH n H). reflexivity. Qed.
Lemma skipn_skipn' {A} (l : list A) a b : skipn a (skipn b l) = skipn (b + a) l.
Proof. revert l. induction b as [|b IH]; intros l; [reflexivity|]. destruct l; [now rewrite skipn_nil|]. exact (IH l). Qed.

Lemma subseq_indexed {A} (chunks : list A) : forall l r,
  above r (map fst l) -> Forall (fun a => nth_error chunks (N.to_nat (fst a)) = Some (snd a)) l ->
  subseq (map snd l) (skipn (S (N.to_nat r)) chunks).
Proof.
  induction l as [|[n c] l IH]; intros r Ha Hf; [constructor|]. cbn [map fst snd] in *. destruct Ha as [H1 H2].
  apply Forall_cons_iff in Hf as [H3 H4]. cbn [fst snd] in H3.
  specialize (IH n H2 H4). pose proof (skipn_nth _ _ _ H3) as S1.
  apply (subseq_skip_n _ _ (N.to_nat n - S (N.to_nat r))). rewrite skipn_skipn'.
  replace (S (N.to_nat r) + (N.to_nat n - S (N.to_nat r))) with (N.to_nat n) by lia. rewrite S1. apply subseq_take. exact IH.
Qed.
Lemma subseq_filter {A} (f : A -> bool) l l' : subseq l l' -> subseq (filter f l) l'.
Proof. induction 1 as [l'|x l l' H IH|x l l' H IH]; [constructor| |constructor; exact IH]. cbn. destruct (f x); now constructor. Qed.

Lemma prefix_indexed {A} (chunks : list A) : forall l r,
  consecutive r (map fst l) -> Forall (fun a => nth_error chunks (N.to_nat (fst a)) = Some (snd a)) l ->
  map snd l = firstn (length l) (skipn (S (N.to_nat r)) chunks).
Proof.
  induction l as [|[n c] l IH]; intros r Ha Hf; [reflexivity|]. cbn [map fst snd length] in *. destruct Ha as [-> H2].
  apply Forall_cons_iff in Hf as [H3 H4]. cbn [fst snd] in H3.
  replace (S (N.to_nat r)) with (N.to_nat (r + 1)) by lia. rewrite (skipn_nth _ _ _ H3). cbn [firstn]. f_equal.
  exact (IH _ H2 H4).
Qed.

Lemma Forall2_nth {A B} (R : A -> B -> Prop) l l' : Forall2 R l l' -> forall f, In f l ->
  exists i b, nth_error l i = Some f /\ nth_error l' i = Some b /\ R f b.
Proof.
  induction 1 as [|a b l l' H _ IH]; intros f Hf; [destruct Hf|]. destruct Hf as [->|Hf]; [exists 0, b; auto|].
  destruct (IH f Hf) as (i & b' & ?). exists (S i), b'. auto.
Qed.
Lemma map_seq_nth {A} (g : A -> N) (k : N) log i x : map g log = map (fun i => (k + N.of_nat i)%N) (seq 0 (length log)) ->
  nth_error log i = Some x -> g x = (k + N.of_nat i)%N.
Proof.
  intros H Hx. assert (Hi : i < length log) by (apply nth_error_Some; congruence).
  apply (f_equal (fun l => nth_error l i)) in H.
  rewrite (map_nth_error _ _ _ Hx) in H.
  rewrite (map_nth_error (fun i => (k + N.of_nat i)%N) i (seq 0 (length log)) (d := i)) in H; [congruence|].
  rewrite (nth_error_nth' _ 0) by (rewrite seq_length; exact Hi). now rewrite seq_nth by exact Hi.
Qed.

Lemma fresh_facts s : fresh s -> s_rx_nonce s = 0%N /\ s_tx_nonce s = 0%N /\ s_valid s = true /\
  (p_max_nonce (s_param s) < 65536)%N /\ length (k_rx (s_keys s)) = 32 /\ length (k_tx (s_keys s)) = 32.
Proof.
  intros (s0 & nm & cm & p & k & H & Hp). unfold initialize in H. destruct (keys_valid k) eqn:Hk; cbn [negb] in H; [|discriminate].
  injection H as <-. cbn. unfold keys_valid in Hk. apply andb_true_iff in Hk as [K1 K2]. apply Nat.eqb_eq in K1, K2. auto 10.
Qed.

Lemma channel EA EB capA capB sA sB opsA opsB sA' sB' esA esB :
  prims_ok (e_prims EA) -> prims_ok (e_prims EB) -> fresh sA -> fresh sB -> Forall sop_bytes opsA ->
  k_rx (s_keys sB) = k_tx (s_keys sA) -> s_crypto_mode sB = s_crypto_mode sA ->
  srun EA capA sA opsA = Ok (sA', esA) -> srun EB capB sB opsB = Ok (sB', esB) ->
  unforged EA EB (s_crypto_mode sA) (k_tx (s_keys sA)) capB esA opsB ->
  subseq (delivered esB) (tl (sent_chunks esA)) /\
  (s_nonce_mode sB = strict_increment -> exists k, delivered esB = filter nonempty (firstn k (tl (sent_chunks esA)))).
Proof.
  intros HA HB FA FB Hops Hk Hc RA RB U.
  destruct (fresh_facts _ FA) as (_ & A1 & _ & A2 & _). destruct (fresh_facts _ FB) as (B1 & _).
  destruct (tx_run _ _ HA _ _ _ _ RA Hops A2) as (_ & _ & log & T1 & T2 & T3); [lia|].
  destruct (accepted_run _ _ HB _ _ _ _ RB) as (C1 & C2 & C3).
  destruct (rx_run _ _ HB _ _ _ _ RB) as (R1 & R2 & _ & _). rewrite B1 in R1, R2. rewrite A1 in T2.
  assert (X : Forall (fun a => nth_error (sent_chunks esA) (N.to_nat (fst a)) = Some (snd a)) (accepted esB)).
  { eapply Forall_impl; [|exact C3]. intros [n p] (m & M1 & M2 & M3). cbn [fst snd] in *.
    rewrite Hk, Hc in M3. destruct (U m p M1 M3) as (f & F1 & F2).
    destruct (Forall2_nth _ _ _ T1 f F1) as (i & [md c] & I1 & I2 & I3). cbn [fst snd] in I3.
    destruct (carries_unique _ _ _ _ _ _ _ _ F2 I3) as [E1 E2]. subst c.
    pose proof (map_seq_nth _ _ _ _ _ T2 I2) as E3. cbn [fst] in E3. rewrite <- E1, M2 in E3. subst n.
    rewrite <- T3. match goal with |- nth_error _ ?k = _ => replace k with i by lia end. exact (map_nth_error snd i log I2). }
  rewrite <- C1 in R1, R2. rewrite C2.
  assert (Tl : forall l : list (list N), tl l = skipn 1 l) by (intros [|? ?]; reflexivity). rewrite Tl.
  split; [apply subseq_filter; exact (subseq_indexed _ _ _ R1 X)|].
  intros Hm. exists (length (accepted esB)). f_equal. exact (prefix_indexed _ _ _ (R2 Hm) X).
Qed.

(** ** C17 *)
Lemma srun_app E cap : forall ops1 s ops2, srun E cap s (ops1 ++ ops2) =
  let* (s1, es1) := srun E cap s ops1 in let* (s2, es2) := srun E cap s1 ops2 in Ok (s2, es1 ++ es2).
Proof.
  induction ops1 as [|o ops1 IH]; intros s ops2.
  - cbn [app srun obind]. destruct (srun E cap s ops2) as [[s2 es2]| |]; reflexivity.
  - cbn [app srun]. destruct (sstep E cap s o) as [[s1 e]| |]; cbn [obind]; try reflexivity. rewrite IH.
    destruct (srun E cap s1 ops1) as [[s2 es2]| |]; cbn [obind]; try reflexivity.
    destruct (srun E cap s2 ops2) as [[s3 es3]| |]; reflexivity.
Qed.
Lemma rejected_unchanged E cap s o s' m e now : prims_ok (e_prims E) ->
  sstep E cap s o = Ok (s', EvRejected m e now) -> e <> e_empty_user_data -> s' = s.
Proof. intros HP H He. apply sstep_spec in H; [|exact HP]. inversion H; subst; auto. congruence. Qed.

Lemma srun_length E cap : forall ops s s' es, srun E cap s ops = Ok (s', es) -> length es = length ops.
Proof.
  induction ops as [|o ops IH]; intros s s' es H; [injection H as _ <-; reflexivity|].
  apply srun_cons_inv in H as (s1 & e & es' & _ & H2 & ->). cbn. f_equal. eauto.
Qed.

(** ** C16 *)
Lemma to_ms_le d : (0 <= d)%Z -> (Z.of_N (to_ms d) * 1000000 <= d)%Z.
Proof. intros H. unfold to_ms. rewrite Z2N.id by (apply Z.div_pos; lia). lia. Qed.

Lemma within_run E cap : prims_ok (e_prims E) -> forall ops s s' es, srun E cap s ops = Ok (s', es) -> Forall (within s) es.
Proof.
  intros HP. induction ops as [|o ops IH]; intros s s' es H; [injection H as _ <-; constructor|].
  apply srun_cons_inv in H as (s1 & e & es' & H1 & H2 & ->). apply sstep_spec in H1; [|exact HP].
  pose proof (step_same _ _ _ _ _ _ H1) as (_ & _ & _ & _ & S5). constructor.
  - assert (Pad : (0 <= ms (e_ttl_pad_ms E))%Z) by (unfold ms; lia).
    destruct H1; cbn [within]; auto;
    match goal with F : validate_facts _ _ _ _ _ _ _ _ |- _ => destruct F | F : format_facts _ _ _ _ _ _ _ |- _ => destruct F end;
    unfold valid_until, ms in *; lia.
  - specialize (IH _ _ _ H2). eapply Forall_impl; [|exact IH]. intros a. unfold within. rewrite S5. auto.
Qed.

(** An event of a run comes from a step of the run. *)
Lemma run_split E cap : forall ops s s' es e, srun E cap s ops = Ok (s', es) -> In e es ->
  exists ops1 o ops2 s1 es1 s2, ops = ops1 ++ o :: ops2 /\ srun E cap s ops1 = Ok (s1, es1) /\ sstep E cap s1 o = Ok (s2, e).
Proof.
  induction ops as [|o ops IH]; intros s s' es e H He; [injection H as _ <-; destruct He|].
  apply srun_cons_inv in H as (s1 & e1 & es' & H1 & H2 & ->). destruct He as [<-|He].
  - exists [], o, ops, s, [], s1. auto.
  - destruct (IH _ _ _ _ H2 He) as (ops1 & o' & ops2 & s3 & es1 & s4 & -> & A & B).
    exists (o :: ops1), o', ops2, s3, (e1 :: es1), s4. split; [reflexivity|]. split; [|exact B].
    cbn [srun]. rewrite H1. cbn [obind]. rewrite A. reflexivity.
Qed.

Lemma format_carries E s now clear f rest s' : format_facts E s now clear f rest s' -> bytes_ok clear -> (s_tx_nonce s < 65536)%N ->
  carries E (s_crypto_mode s) (k_tx (s_keys s)) f
    {| am_nonce := s_tx_nonce s; am_valid_until_ms := u32 (to_ms (now - p_start (s_param s) + ms (e_ttl_pad_ms E))) |}
    (firstn (tx_n E clear) clear).
Proof.
  intros F Hb Hn. destruct (ff_msg _ _ _ _ _ _ _ F) as (m & M1 & M2 & M3 & M4 & M6 & M5). destruct (M6 Hb) as [M7 M8].
  pose proof (tx_n_le E clear) as (L1 & L2 & _).
  exists m. split; [|split; [exact M2|split; [exact M1|split; [lia|]]]].
  - split; [|split; split; [exact M7|lia|exact M8|lia]]. rewrite M2. split; cbn [am_nonce am_valid_until_ms]; [change (2 ^ 16)%N with 65536%N; lia|].
    unfold u32, trunc. apply N.mod_lt. discriminate.
  - intros cap' C1 C2. apply M5; [lia|exact C2].
Qed.

Lemma format_session_inv E s now clear f rest s' : prims_ok (e_prims E) ->
  format_session_data E s now clear = Ok (inl f, rest, s') ->
  format_facts E s now clear f rest s' /\ (s_tx_nonce s < p_max_nonce (s_param s))%N.
Proof.
  intros HP H. unfold format_session_data in H. destruct (N.leb_spec (p_max_nonce (s_param s)) (s_tx_nonce s)) as [H0|H0]; [discriminate|].
  destruct (format_spec _ _ _ _ _ _ _ HP H) as [(e & X & _)|(f' & X & F)]; [discriminate|]. injection X as ->. auto.
Qed.

(** Validity times of produced frames *)
Lemma sent_valid_until E cap s ops s' es f clear rest now : prims_ok (e_prims E) -> fresh s -> Forall sop_bytes ops ->
  (p_max_time (s_param s) <= ms 4294967295)%Z ->
  srun E cap s ops = Ok (s', es) -> In (EvSent f clear rest now) es ->
  exists md c, carries E (s_crypto_mode s) (k_tx (s_keys s)) f md c /\ (valid_until md <= p_max_time (s_param s))%Z /\
    (now - p_start (s_param s) + ms (e_ttl_pad_ms E) - 1000000 < valid_until md <= now - p_start (s_param s) + ms (e_ttl_pad_ms E))%Z.
Proof.
  intros HP HF Hops Hmax H Hin. destruct (run_split _ _ _ _ _ _ _ H Hin) as (ops1 & o & ops2 & s1 & es1 & s2 & -> & A & B).
  apply Forall_app in Hops as [O1 O2]. apply Forall_cons_iff in O2 as [O2 _].
  destruct (fresh_facts _ HF) as (_ & F1 & _ & F2 & _). destruct (tx_run _ _ HP _ _ _ _ A O1 F2) as (_ & T & _); [lia|].
  destruct (run_same _ _ HP _ _ _ _ A) as (_ & S2 & _ & S4 & S5). apply sstep_spec in B; [|exact HP].
  assert (X : format_facts E s1 now clear f rest s2 /\ bytes_ok clear) by (inversion B; subst; auto). destruct X as [F Hb].
  assert (Hlt : (s_tx_nonce s1 < 65536)%N) by lia.
  pose proof (format_carries _ _ _ _ _ _ _ F Hb Hlt) as C. rewrite S2, S4, S5 in C. eexists. eexists. split; [exact C|].
  pose proof (ff_start _ _ _ _ _ _ _ F) as K1. pose proof (ff_time _ _ _ _ _ _ _ F) as K2. rewrite S5 in K1, K2.
  assert (Pad : (0 <= ms (e_ttl_pad_ms E))%Z) by (unfold ms; lia).
  set (d := (now - p_start (s_param s) + ms (e_ttl_pad_ms E))%Z) in *. assert (Hd : (0 <= d)%Z) by (unfold d; lia).
  unfold valid_until. cbn [am_valid_until_ms].
  assert (Hu : u32 (to_ms d) = to_ms d).
  { unfold u32, trunc, to_ms. apply N.mod_small. unfold ms in Hmax. change (2 ^ 32)%N with 4294967296%N.
    assert (Y : (0 <= d / 1000000 < 4294967296)%Z) by (clear - Hd K2 Hmax; lia). lia. }
  rewrite Hu. clearbody d. pose proof (to_ms_le d Hd). unfold to_ms in *.
  assert (Y : (0 <= d / 1000000)%Z) by lia. rewrite Z2N.id in * by exact Y. lia.
Qed.

(** ** C19 *)
Lemma transmits_spec E : prims_ok (e_prims E) -> forall s clear frames s', transmits E s clear frames s' ->
  (p_max_nonce (s_param s) < 65536)%N -> bytes_ok clear ->
  exists chunks, Forall2 (fun f c => exists md, carries E (s_crypto_mode s) (k_tx (s_keys s)) f md c) frames chunks /\
    concat chunks = clear /\ Forall (fun c => c <> [] /\ length c <= 1024) chunks.
Proof.
  intros HP s clear frames s' H. induction H as [s|s now clear frame rest s1 frames s2 Hne Hf Ht IH]; intros Hm Hb.
  - exists []. split; [constructor|]. split; [reflexivity|constructor].
  - destruct (format_session_inv _ _ _ _ _ _ _ HP Hf) as [F Hn].
    pose proof (ff_session _ _ _ _ _ _ _ F) as Es. pose proof (ff_rest _ _ _ _ _ _ _ F) as Er.
    assert (S : s_param s1 = s_param s /\ s_crypto_mode s1 = s_crypto_mode s /\ s_keys s1 = s_keys s) by (rewrite Es; auto).
    destruct S as (S1 & S2 & S3). rewrite S1, S2, S3 in IH.
    destruct (IH Hm) as (chunks & I1 & I2 & I3).
    { rewrite Er. rewrite <- (firstn_skipn (tx_n E clear) clear) in Hb. apply Forall_app in Hb. apply Hb. }
    exists (firstn (tx_n E clear) clear :: chunks). split; [|split].
    + constructor; [|exact I1]. eexists. apply (format_carries _ _ _ _ _ _ _ F Hb). lia.
    + cbn [concat]. rewrite I2, Er. apply firstn_skipn.
    + constructor; [|exact I3]. destruct (tx_n_le E clear) as (L1 & L2 & L3). specialize (L3 Hne (ff_cap _ _ _ _ _ _ _ F)).
      rewrite firstn_length. split; [|lia]. intros X. apply (f_equal (@length N)) in X. rewrite firstn_length in X. cbn in X. lia.
Qed.

(** ** C20 *)
Lemma der_length_len v : (v <= 1024)%N -> length (der_length v) = if (v <? 128)%N then 1 else if (v <? 256)%N then 2 else 3.
Proof.
  intros H. unfold der_length. destruct (N.ltb_spec v 128); [reflexivity|]. cbn [length]. rewrite be_bytes_length.
  destruct (N.ltb_spec v 256) as [H1|H1].
  - assert (N.log2 v = 7)%N as -> by (apply N.log2_unique; lia). reflexivity.
  - assert (8 <= N.log2 v < 11)%N.
    { split; [apply N.log2_le_pow2; lia|apply N.log2_lt_pow2; lia]. }
    lia.
Qed.
Lemma wire_len m : length (sd_user_data m) <= 1024 -> length (sd_auth_tag m) = 16 ->
  length (wire_session_data m) = 24 + length (sd_user_data m) +
    (if (N.of_nat (length (sd_user_data m)) <? 128)%N then 1 else if (N.of_nat (length (sd_user_data m)) <? 256)%N then 2 else 3).
Proof.
  intros H1 H2. unfold wire_session_data, wire_metadata, wire_seq. rewrite !app_length, !be_bytes_length, H2.
  rewrite (der_length_len (N.of_nat (length (sd_user_data m)))) by lia.
  change (length (der_length (N.of_nat 16))) with 1. cbn [length]. lia.
Qed.

Lemma frame_write_fits E w bytes : wlaw bytes w -> (N.of_nat (length bytes) <= 65535)%N ->
  frame_write E w = if (N.of_nat (length bytes) <=? e_max_payload E)%N then Some (frame_of (e_kind E) bytes) else None.
Proof.
  intros Hw Hl. destruct (N.leb_spec (N.of_nat (length bytes)) (e_max_payload E)) as [H|H].
  - destruct (frame_write E w) as [f|] eqn:Ef; [now rewrite (frame_write_spec E w f bytes Hw Ef)|exfalso].
    unfold frame_write, link_frame_write, raw_frame_write in Ef. destruct (e_kind E) as [a|].
    + rewrite Hw in Ef. unfold min_frame_size, header_total_size in Ef.
      destruct (Nat.leb_spec (length bytes) (16 + N.to_nat (e_max_payload E) - 12)) as [X|X]; [|lia].
      destruct (Nat.ltb_spec (16 + N.to_nat (e_max_payload E) - 12 - length bytes) 4) as [Y|Y]; [lia|].
      destruct (N.ltb_spec 65535 (N.of_nat (length bytes))) as [Z|Z]; [lia|]. discriminate.
    + rewrite Hw in Ef. destruct (Nat.leb_spec (length bytes) (N.to_nat (e_max_payload E))) as [X|X]; [discriminate|lia].
  - unfold frame_write, link_frame_write, raw_frame_write. destruct (e_kind E) as [a|].
    + rewrite Hw. unfold min_frame_size, header_total_size.
      destruct (Nat.leb_spec (length bytes) (16 + N.to_nat (e_max_payload E) - 12)) as [X|X]; [|reflexivity].
      destruct (Nat.ltb_spec (16 + N.to_nat (e_max_payload E) - 12 - length bytes) 4) as [Y|Y]; [reflexivity|lia].
    + rewrite Hw. destruct (Nat.leb_spec (length bytes) (N.to_nat (e_max_payload E))) as [X|X]; [lia|reflexivity].
Qed.

Lemma format_exact E s now clear : prims_ok (e_prims E) -> can_send E s now -> 0 < encrypt_cap E ->
  exists m, length (sd_user_data m) = tx_n E clear /\ length (sd_auth_tag m) = 16 /\
    format_session_data E s now clear =
      if (N.of_nat (length (wire_session_data m)) <=? e_max_payload E)%N
      then Ok (inl (frame_of (e_kind E) (wire_session_data m)), skipn (tx_n E clear) clear, set_tx_nonce s (nonce_increment (s_tx_nonce s)))
      else Ok (inr e_format, skipn (tx_n E clear) clear, s).
Proof.
  intros HP (C1 & C2 & C3 & C4 & C5) Hc. unfold format_session_data.
  destruct (N.leb_spec (p_max_nonce (s_param s)) (s_tx_nonce s)) as [X|_]; [lia|].
  unfold format_no_nonce_check. rewrite C1. cbn [negb].
  assert (Pad : (0 <= ms (e_ttl_pad_ms E))%Z) by (unfold ms; lia).
  destruct (Z.ltb_spec now (p_start (s_param s))) as [X|_]; [lia|].
  destruct (Z.ltb_spec (p_max_time (s_param s)) (now - p_start (s_param s))) as [X|_]; [lia|].
  destruct (Z.ltb_spec (p_max_time (s_param s) - (now - p_start (s_param s))) (ms (e_ttl_pad_ms E))) as [X|_]; [lia|].
  match goal with |- context [mode_write ?p ?m ?k ?md ?c ?cp] => destruct (mode_write_safe p m k md c cp) as [[r rest] Ew] end. rewrite Ew. cbn [obind].
  destruct (mode_write_spec _ _ _ _ _ _ _ _ HP Ew) as [(e & -> & ->)|(m & -> & _ & _ & _ & Hn)].
  - exfalso. unfold mode_write in Ew. rewrite C2 in Ew. cbn [symmetric_key_length Nat.eqb negb] in Ew.
    destruct (Nat.eqb_spec (encrypt_cap E) 0) as [X|_]; [lia|]. revert Ew. fold (tx_n E clear).
    pose proof (tx_n_le E clear) as (L1 & L2 & _). unfold aead_encrypt. destruct (s_crypto_mode s).
    + rewrite firstn_length. destruct (N.ltb_spec 65535 (N.of_nat (Nat.min (tx_n E clear) (length clear)))) as [Y|_]; [lia|]. discriminate.
    + destruct (_ <? _); [discriminate|]. cbn [obind]. destruct (p_gcm_encrypt _ _ _ _ _). discriminate.
  - fold (tx_n E clear) in Hn. cbn zeta in Hn. destruct Hn as (-> & Hu & Ht & _ & _). exists m. split; [exact Hu|]. split; [exact Ht|].
    pose proof (tx_n_le E clear) as (L1 & L2 & _).
    rewrite (frame_write_fits E _ (wire_session_data m)).
    + destruct (_ <=? _)%N; reflexivity.
    + apply wlaw_session_data'; lia.
    + rewrite wire_len by lia. destruct (_ <? _)%N; [lia|]. destruct (_ <? _)%N; lia.
Qed.

Lemma always_fits E s now clear : prims_ok (e_prims E) -> can_send E s now -> (1051 <= e_max_payload E)%N ->
  exists frame rest s', format_session_data E s now clear = Ok (inl frame, rest, s').
Proof.
  intros HP Hc Hm. assert (Hcap : 0 < encrypt_cap E) by (unfold encrypt_cap, calc_max_crypto_payload_length; destruct (N.ltb_spec 9 (e_max_payload E)); lia).
  destruct (format_exact E s now clear HP Hc Hcap) as (m & M1 & M2 & ->). pose proof (tx_n_le E clear) as (L1 & L2 & _).
  pose proof (wire_len m) as W. rewrite M1 in W. specialize (W ltac:(lia) M2).
  destruct (N.leb_spec (N.of_nat (length (wire_session_data m))) (e_max_payload E)) as [X|X]; [eauto|].
  exfalso. rewrite W in X. destruct (N.ltb_spec (N.of_nat (tx_n E clear)) 128); [lia|]. destruct (N.ltb_spec (N.of_nat (tx_n E clear)) 256); lia.
Qed.

Lemma never_fits E s now clear : prims_ok (e_prims E) -> can_send E s now -> (9 < e_max_payload E < 1051)%N -> 1024 <= length clear ->
  exists rest, format_session_data E s now clear = Ok (inr e_format, rest, s).
Proof.
  intros HP Hc Hm Hl. assert (Hcap : encrypt_cap E = N.to_nat (e_max_payload E) - 9) by (unfold encrypt_cap, calc_max_crypto_payload_length; destruct (N.ltb_spec 9 (e_max_payload E)); lia).
  destruct (format_exact E s now clear HP Hc) as (m & M1 & M2 & ->); [lia|].
  assert (Hn : tx_n E clear = Nat.min 1024 (N.to_nat (e_max_payload E) - 9)).
  { unfold tx_n. rewrite Hcap. unfold calc_user_data_tx_length, u16, trunc. change (2 ^ 16)%N with 65536%N. lia. }
  pose proof (wire_len m) as W. rewrite M1, Hn in W. specialize (W ltac:(lia) M2).
  destruct (N.leb_spec (N.of_nat (length (wire_session_data m))) (e_max_payload E)) as [X|X]; [|eauto].
  exfalso. rewrite W in X. destruct (N.ltb_spec (N.of_nat (Nat.min 1024 (N.to_nat (e_max_payload E) - 9))) 128); [lia|].
  destruct (N.ltb_spec (N.of_nat (Nat.min 1024 (N.to_nat (e_max_payload E) - 9))) 256); lia.
Qed.

(** ** C21 *)
Lemma mac_input_inj md md' d d' : metadata_ok md -> metadata_ok md' ->
  mac_input (metadata_bytes md) d = mac_input (metadata_bytes md') d' -> md = md' /\ d = d'.
Proof.
  intros [H1 H2] [H1' H2']. unfold mac_input. rewrite (metadata_bytes_wire md), (metadata_bytes_wire md'). unfold wire_metadata. rewrite <- !app_assoc. intros H.
  apply app_same_length in H as [E1 H]; [|now rewrite !be_bytes_length]. apply app_same_length in H as [E2 H]; [|now rewrite !be_bytes_length].
  apply app_same_length in H as [_ H]; [|now rewrite !be_bytes_length]. subst d'. split; [|reflexivity].
  apply (f_equal be_value) in E1, E2. rewrite !be_value_be_bytes_small in E1 by assumption. rewrite !be_value_be_bytes_small in E2 by assumption.
  destruct md, md'. cbn in *. congruence.
Qed.

Lemma toy_ok : prims_ok toy.
Proof.
  assert (B : forall n v, length (be_bytes n v) = n /\ bytes_ok (be_bytes n v)) by (intros; split; [apply be_bytes_length|apply be_bytes_ok]).
  assert (L : forall v, (N.land v 255 < 256)%N) by (intros v; change 255%N with (N.ones 8); rewrite N.land_ones; apply N.mod_lt; discriminate).
  assert (A : forall n a b, (a < 256)%N -> (b < 256)%N -> length (alternate n a b) = n /\ bytes_ok (alternate n a b)).
  { induction n as [|n IH]; intros a b Ha Hb; cbn; [split; [reflexivity|constructor]|]. destruct (IH b a Hb Ha) as [I1 I2]. split; [congruence|constructor; auto]. }
  assert (D : forall n d, length (toy_digest n d) = n /\ bytes_ok (toy_digest n d)) by (intros; unfold toy_digest; apply A; apply L).
  constructor; cbn [toy p_sha256 p_hmac p_dh p_dh_public p_gcm_encrypt p_gcm_decrypt fst snd]; intros.
  - apply D.
  - apply D.
  - reflexivity.
  - apply D.
  - split; [assumption|apply D].
  - now rewrite bytes_eqb_refl.
  - destruct (bytes_eqb _ _); [congruence|discriminate].
  - assert (SI : forall (x y : list N), Some x = Some y -> x = y) by congruence. apply SI in H. rewrite <- H. apply B.
  - assert (SI : forall (x y : list N), Some x = Some y -> x = y) by congruence. apply SI in H, H0. rewrite <- H, <- H0.
    rewrite !be_value_be_bytes.
    rewrite <- (be_bytes_mod 32 (be_value a * _) 32), <- (be_bytes_mod 32 (be_value b * _) 32) by lia.
    rewrite !N.mul_mod_idemp_r by (pose proof (pow256_pos 32); lia). now rewrite N.mul_comm.
  - apply B.
Qed.

(** ** The exact bytes of a produced frame *)
Lemma mode_write_exact P mode key md clear cap m rest : mode_write P mode key md clear cap = Ok (inl m, rest) ->
  let n := N.to_nat (calc_user_data_tx_length (N.of_nat (length clear)) (N.of_nat cap) 1024) in
  m = protected_message P mode key md (firstn n clear) /\ rest = skipn n clear.
Proof.
  unfold mode_write. destruct (negb _); [discriminate|]. destruct (cap =? 0); [discriminate|].
  set (n := N.to_nat (calc_user_data_tx_length (N.of_nat (length clear)) (N.of_nat cap) 1024)). cbn zeta.
  unfold aead_encrypt, protected_message, protected. destruct mode.
  - destruct (N.ltb_spec 65535 (N.of_nat (length (firstn n clear)))) as [X|X]; [discriminate|]. cbn [obind].
    intros H. injection H as <- <-. split; [|reflexivity]. cbn [fst snd]. rewrite metadata_bytes_wire. unfold mac_input, u16, trunc, trunc16.
    rewrite N.mod_small by (change (2 ^ 16)%N with 65536%N; lia). reflexivity.
  - destruct (cap <? _); [discriminate|]. cbn [obind]. rewrite metadata_bytes_wire. change (gcm_nonce (am_nonce md)) with (gcm_iv (am_nonce md)).
    destruct (p_gcm_encrypt P key (gcm_iv (am_nonce md)) (wire_metadata md) (firstn n clear)) as [c t].
    intros H. injection H as <- <-. split; reflexivity.
Qed.

Lemma format_protected E s now clear f rest s' : prims_ok (e_prims E) -> bytes_ok clear ->
  format_no_nonce_check E s now clear = Ok (inl f, rest, s') ->
  exists md, f = frame_of (e_kind E) (wire_session_data (protected_message (e_prims E) (s_crypto_mode s) (k_tx (s_keys s)) md (firstn (length clear - length rest) clear))).
Proof.
  intros HP Hb H. unfold format_no_nonce_check in H. destruct (negb _); [discriminate|]. destruct (_ <? _)%Z; [discriminate|].
  destruct (_ <? _)%Z; [discriminate|]. destruct (_ <? _)%Z; [discriminate|].
  match type of H with (obind (mode_write ?P ?m ?k ?md ?c ?cap) _) = _ => set (md0 := md) in H; destruct (mode_write P m k md0 c cap) as [[[msg|e] r]| |] eqn:Ew end;
    cbn [obind] in H; try discriminate.
  pose proof (mode_write_exact _ _ _ _ _ _ _ _ Ew) as [Em Er].
  destruct (frame_write E (session_data_write msg)) as [fr|] eqn:Ef; [|discriminate]. injection H as <- <- _.
  pose proof (mode_write_spec _ _ _ _ _ _ _ _ HP Ew) as [(e & Xe & _)|(m' & X1 & _ & _ & _ & X5)]; [discriminate|].
  exists md0. set (n := N.to_nat (calc_user_data_tx_length (N.of_nat (length clear)) (N.of_nat (encrypt_cap E)) 1024)) in *.
  pose proof (calc_tx_length (N.of_nat (length clear)) (N.of_nat (encrypt_cap E))) as Hn. cbn zeta in Hn.
  assert (Hn' : n <= length clear /\ n <= 1024) by (unfold n; lia).
  assert (L : length clear - length r = n) by (rewrite Er, skipn_length; lia). rewrite L, <- Em.
  injection X1 as <-. cbn zeta in X5. destruct X5 as (_ & Y1 & Y2 & _).
  eapply frame_write_spec; [|exact Ef]. apply wlaw_session_data'.
  - fold n in Y1. lia.
  - lia.
Qed.

Lemma run_protected E cap : prims_ok (e_prims E) -> forall ops s s' es, srun E cap s ops = Ok (s', es) -> Forall sop_bytes ops ->
  Forall2 (fun f chunk => exists md, f = frame_of (e_kind E) (wire_session_data (protected_message (e_prims E) (s_crypto_mode s) (k_tx (s_keys s)) md chunk)))
    (sent_frames es) (sent_chunks es).
Proof.
  intros HP. induction ops as [|o ops IH]; intros s s' es H Hb.
  - cbn in H. injection H as _ <-. constructor.
  - inversion Hb; subst. destruct (srun_cons_inv _ _ _ _ _ _ _ H) as (s1 & e & es' & S1 & S2 & ->).
    pose proof (sstep_spec _ _ _ _ _ _ HP S1) as F. pose proof (step_same _ _ _ _ _ _ F) as (A1 & A2 & A3 & A4 & A5).
    specialize (IH _ _ _ S2 H3). rewrite A2, A4 in IH.
    assert (G : match e with EvSent f clear rest _ => exists md, f = frame_of (e_kind E) (wire_session_data (protected_message (e_prims E) (s_crypto_mode s) (k_tx (s_keys s)) md (firstn (length clear - length rest) clear))) | _ => True end).
    { destruct o as [m now|m now|clear now|clear now]; cbn [sstep] in S1.
      - destruct (validate_session_auth _ _ _ _ _) as [[[[p|er] sx] st]| |]; cbn [obind] in S1; try discriminate; injection S1 as <- <-; exact I.
      - destruct (validate_session_data _ _ _ _ _) as [[[[p|er] sx] st]| |]; cbn [obind] in S1; try discriminate; injection S1 as <- <-; exact I.
      - destruct (format_session_auth E s now clear) as [[[[p|er] rest] sx]| |] eqn:Ef; cbn [obind] in S1; try discriminate; injection S1 as <- <-; [|exact I].
        unfold format_session_auth in Ef. destruct (negb _); [discriminate|]. eapply format_protected; eauto.
      - destruct (format_session_data E s now clear) as [[[[p|er] rest] sx]| |] eqn:Ef; cbn [obind] in S1; try discriminate; injection S1 as <- <-; [|exact I].
        unfold format_session_data in Ef. destruct (_ <=? _)%N; [discriminate|]. eapply format_protected; eauto. }
    destruct e; cbn [sent_frames sent_chunks flat_map app]; try exact IH. constructor; [exact G|exact IH].
Qed.

Lemma protected_wire P mode key md md' chunk m : wire_session_data (protected_message P mode key md' chunk) = wire_session_data m -> sd_metadata m = md ->
  wire_session_data (protected_message P mode key md' chunk) = wire_session_data (protected_message P mode key md chunk).
Proof.
  intros H Hm. assert (W : wire_metadata md' = wire_metadata md).
  { unfold wire_session_data in H. apply app_inv_head in H. cbn [protected_message sd_metadata] in H. rewrite Hm in H.
    apply app_same_length in H as [H _]; [exact H|]. unfold wire_metadata. rewrite !app_length, !be_bytes_length. reflexivity. }
  assert (V : be_bytes 2 (am_nonce md') = be_bytes 2 (am_nonce md)).
  { unfold wire_metadata in W. apply app_same_length in W as [W _]; [exact W|]. rewrite !be_bytes_length. reflexivity. }
  assert (Q : protected P mode key md' chunk = protected P mode key md chunk).
  { unfold protected, gcm_iv. rewrite W, V. reflexivity. }
  unfold wire_session_data, protected_message. cbn [sd_metadata sd_user_data sd_auth_tag]. rewrite W, Q. reflexivity.
Qed.
