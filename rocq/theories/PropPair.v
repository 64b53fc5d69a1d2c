(** * C15 (endpoint, all keys), C44: from one application to the other *)
From Verif Require Import Base BaseFacts Codec CodecSpec CodecFacts Link LinkLayer Primitives Session SessionSpec SessionFacts SessionMain
  Handshake HandshakeFacts Endpoint EndpointSpec EndpointFacts EndpointMain EndpointRx EndpointTx EndpointNonce EndpointClose EndpointRuns PairSpec EndpointPair
  PropCodec PropEndpoint PropEndpoint2.

(** ** The log of the sender *)

(** Every run has such a log: nothing is sealed without keys, and each entry describes the frame
    given to the lower layer. *)
Theorem C44_log : forall C ls k t, prims_ok (e_prims (c_env C)) -> conf_typed C -> along typed C (new_endpoint C, []) ls ->
  run C (new_endpoint C, []) ls = Ok (k, t) ->
  (exists st, play (sealing (is_initiator C)) kstart t = Some st) /\ Forall (seals_frame C) (sealed_log C t) /\
  map (fun x => (sm_data x, sm_frame x)) (sealed_log C t) =
    flat_map (fun e => match e with EvTx (TxAuth c) f | EvTx (TxData c) f => [(c, f)] | _ => [] end) t.
Proof. exact log_run. Qed.
Print Assumptions C44_log.

(** If the handshakes of an endpoint derive different keys, it never seals two messages under the
    same key with the same nonce, in its whole life. *)
Theorem C15_endpoint_unique : forall C ls k t i j x y, prims_ok (e_prims (c_env C)) -> conf_typed C -> along typed C (new_endpoint C, []) ls ->
  run C (new_endpoint C, []) ls = Ok (k, t) -> fresh_keys t ->
  nth_error (sealed_log C t) i = Some x -> nth_error (sealed_log C t) j = Some y ->
  k_tx (s_keys (sm_session x)) = k_tx (s_keys (sm_session y)) -> sm_nonce x = sm_nonce y -> i = j.
Proof.
  intros C ls k t i j x y HP HC HQ H F Hi Hj Hk Hn. destruct (C44_log _ _ _ _ HP HC HQ H) as [[a P] _].
  eapply log_unique; eauto.
Qed.
Print Assumptions C15_endpoint_unique.

(** The data sealed is, in order, made of prefixes of the buffers the application gave. *)
Theorem C44_source : forall C ls k t, prims_ok (e_prims (c_env C)) -> conf_typed C -> along typed C (new_endpoint C, []) ls ->
  along tx_env C (new_endpoint C, []) ls -> run C (new_endpoint C, []) ls = Ok (k, t) ->
  exists sent, Forall2 starts_with (offered t) sent /\ concat (map sm_data (sealed_log C t)) = concat sent.
Proof.
  intros C ls k t HP HC HQ HT H. destruct (C44_log _ _ _ _ HP HC HQ H) as [[a P] _]. destruct (tinv_run _ _ _ _ HP HT H) as (left & S & _).
  destruct (chunks_offered _ _ _ S) as (s0 & sent & [r X1] & X2 & X3). symmetry in X1. apply app_eq_nil in X1. destruct X1 as [-> _].
  exists sent. split; [exact X2|]. unfold sealed_log. rewrite P, (log_chunks _ _ _ _ P). exact X3.
Qed.
Print Assumptions C44_source.

(** ** From the sender to the receiver

    The network may lose, repeat, reorder, change and invent messages. *)

(** Per session, the receiver accepts a subsequence of the data the sender sealed under the key of
    this session: nothing changed, nothing twice, nothing out of order; with strict nonces nothing
    is missing in between either. *)
Theorem C44_delivery : forall CA lsA kA tA CB lsB kB tB s part, prims_ok (e_prims (c_env CA)) ->
  conf_typed CA -> along typed CA (new_endpoint CA, []) lsA -> run CA (new_endpoint CA, []) lsA = Ok (kA, tA) ->
  run CB (new_endpoint CB, []) lsB = Ok (kB, tB) ->
  fresh_keys tA -> unforged CA tA CB tB -> session_part tB s part ->
  subseq (payloads part) (filter nonempty (sent_under CA (k_rx (s_keys s)) tA)) /\
  (s_nonce_mode s = strict_increment -> exists n, payloads part = firstn n (filter nonempty (sent_under CA (k_rx (s_keys s)) tA))).
Proof. intros. eapply pair_payloads; eauto using plain_run. Qed.
Print Assumptions C44_delivery.

(** What the application reads in the session is a subsequence of it. *)
Theorem C44_read : forall CA lsA kA tA CB lsB kB tB s part, prims_ok (e_prims (c_env CA)) ->
  conf_typed CA -> along typed CA (new_endpoint CA, []) lsA -> run CA (new_endpoint CA, []) lsA = Ok (kA, tA) ->
  c_via_stack CB = false -> along reader_ok CB (new_endpoint CB, []) lsB -> run CB (new_endpoint CB, []) lsB = Ok (kB, tB) ->
  fresh_keys tA -> unforged CA tA CB tB -> session_part tB s part ->
  subseq (read_data part) (filter nonempty (sent_under CA (k_rx (s_keys s)) tA)).
Proof. intros. eapply subseq_trans; [eapply pair_reads; eauto|]. eapply pair_payloads; eauto using plain_run. Qed.
Print Assumptions C44_read.

(** Whatever the application reads, over all sessions, is a piece of a buffer that the application
    on the other side gave to its endpoint. *)
Theorem C44_origin : forall CA lsA kA tA CB lsB kB tB d, prims_ok (e_prims (c_env CA)) ->
  conf_typed CA -> along typed CA (new_endpoint CA, []) lsA -> along tx_env CA (new_endpoint CA, []) lsA -> run CA (new_endpoint CA, []) lsA = Ok (kA, tA) ->
  along opens_quietly CB (new_endpoint CB, []) lsB -> run CB (new_endpoint CB, []) lsB = Ok (kB, tB) ->
  fresh_keys tA -> unforged CA tA CB tB -> In (EvRead d) tB ->
  exists b, In (EvAccept b) tA /\ piece_of d b.
Proof.
  intros CA lsA kA tA CB lsB kB tB d HP HC HQ HT HA HQB HB F U Hd. destruct (C44_log _ _ _ _ HP HC HQ HA) as ([a P] & L & _).
  unfold sealed_log in L. rewrite P in L. destruct (contents_run _ _ _ _ HQB HB) as [last CT].
  assert (NE : d <> []) by (eapply contents_nonempty; eauto; discriminate).
  destruct (contents_accepted _ _ _ _ CT Hd) as [X|(e & n & X1 & X2)]; [discriminate|].
  destruct (accepted_logged _ _ _ _ _ _ _ _ P L (justified_run _ _ _ _ HB) U X1 X2) as (x & Y1 & Y2).
  destruct (tinv_run _ _ _ _ HP HT HA) as (left & S & _). pose proof (chunks_pieces _ [] _ _ S (or_introl eq_refl)) as CP.
  rewrite Forall_forall in CP. destruct (CP d) as [Z|(b & Z1 & Z2)]; [|congruence|].
  - pose proof (log_chunks _ _ _ _ P) as LC. cbn in LC. rewrite <- LC, <- Y2. apply in_map. exact Y1.
  - exists b. split; [|exact Z2]. cbn [app] in Z1. unfold offered in Z1. apply in_flat_map in Z1. destruct Z1 as (e1 & W1 & W2).
    destruct e1; cbn in W2; try contradiction. destruct W2 as [->|[]]. exact W1.
Qed.
Print Assumptions C44_origin.

(** ** An example: a network that repeats, reorders, drops and changes messages *)

(** [unforged] holds if every session message received is the frame of an entry of the log for
    this key, or does not open. *)
Definition opens (P : prims) (mode : SessionCryptoMode) (key : list N) (m : SessionData) : bool :=
  match mode with
  | hmac_sha256_16 => bytes_eqb (sd_auth_tag m) (firstn 16 (p_hmac P key (wire_metadata (sd_metadata m) ++
                        be_bytes 2 (N.of_nat (length (sd_user_data m)) mod 65536) ++ sd_user_data m)))
  | aes_256_gcm => match p_gcm_decrypt P key (gcm_iv (am_nonce (sd_metadata m))) (wire_metadata (sd_metadata m)) (sd_user_data m) (firstn 16 (sd_auth_tag m)) with Some _ => true | None => false end
  end.
Definition mode_eqb (a b : SessionCryptoMode) : bool := match a, b with hmac_sha256_16, hmac_sha256_16 | aes_256_gcm, aes_256_gcm => true | _, _ => false end.
Definition unforgedb (log : list sealed_message) (P : prims) (tB : list event) : bool :=
  forallb (fun r => match r with
    | EvRecv raw => match session_data_read raw with
        | inl m => forallb (fun e => match e with
            | EvAuthOk s _ _ => negb (opens P (s_crypto_mode s) (k_rx (s_keys s)) m) ||
                existsb (fun x => bytes_eqb (sm_frame x) raw && bytes_eqb (k_tx (s_keys (sm_session x))) (k_rx (s_keys s)) && mode_eqb (s_crypto_mode (sm_session x)) (s_crypto_mode s)) log
            | _ => true end) tB
        | inr _ => true end
    | _ => true end) tB.
Lemma unforgedb_ok CA tA CB tB : e_kind (c_env CA) = FRaw -> e_prims (c_env CA) = e_prims (c_env CB) -> Forall (seals_frame CA) (sealed_log CA tA) ->
  unforgedb (sealed_log CA tA) (e_prims (c_env CB)) tB = true -> unforged CA tA CB tB.
Proof.
  intros K EP L H raw m s m0 p0 p R1 R2 R3 R4. unfold unforgedb in H. rewrite forallb_forall in H. specialize (H _ R1). cbn in H. rewrite R2 in H.
  rewrite forallb_forall in H. specialize (H _ R3). cbn in H. apply Bool.orb_true_iff in H. destruct H as [H|H].
  - exfalso. apply Bool.negb_true_iff in H. unfold opens in H. unfold authentic in R4. destruct (s_crypto_mode s).
    + destruct R4 as [_ R4]. rewrite R4, bytes_eqb_same in H. discriminate.
    + rewrite R4 in H. discriminate.
  - apply existsb_exists in H. destruct H as (x & X1 & X2). apply Bool.andb_true_iff in X2. destruct X2 as [X2 X3]. apply Bool.andb_true_iff in X2. destruct X2 as [X2 X4].
    apply bytes_eqb_iff in X2, X4. assert (X5 : s_crypto_mode (sm_session x) = s_crypto_mode s) by (destruct (s_crypto_mode (sm_session x)), (s_crypto_mode s); try discriminate; reflexivity).
    exists x. split; [exact X1|]. split; [exact X4|]. split; [exact X5|]. rewrite Forall_forall in L. destruct (L _ X1) as (md & (m' & M1 & M2 & M3 & M4 & M5) & M6).
    rewrite K in M3. cbn [frame_of] in M3. rewrite X2 in M3.
    assert (E : m' = m). { destruct (C10_session_data_round_trip m' _ M1 (Nat.le_refl _)) as [_ Y]. rewrite <- M3, R2 in Y. congruence. } subst m'.
    rewrite X5, X4 in M5. pose proof (M5 _ (Nat.le_refl _) M4) as Y. apply mode_read_authentic in Y. rewrite EP in Y.
    assert (E : sm_data x = p). { unfold authentic in Y, R4. destruct (s_crypto_mode s); [destruct Y, R4; congruence|congruence]. }
    exists m. rewrite X2, K, <- E. cbn [frame_of]. auto.
Qed.

Definition distinctb (l : list (list N)) : bool := (fix go l := match l with [] => true | x :: l' => forallb (fun y => negb (bytes_eqb x y)) l' && go l' end) l.
Lemma distinctb_ok l : distinctb l = true -> NoDup l.
Proof.
  induction l as [|x l IH]; cbn; intros H; [constructor|]. apply Bool.andb_true_iff in H. destruct H as [H1 H2]. constructor; [|apply IH; exact H2].
  intros X. rewrite forallb_forall in H1. specialize (H1 _ X). rewrite bytes_eqb_same in H1. discriminate.
Qed.

Definition pr_suite : CryptoSpec :=
  {| sp_ephemeral := he_none; sp_hash := hash_sha256; sp_kdf := kdf_hkdf_sha256; sp_nonce_mode := strict_increment; sp_crypto_mode := hmac_sha256_16 |}.
Definition pr_a : econf :=
  {| c_env := dr_env; c_supports := sodium_supports;
     c_role := Initiator {| ic_handshake := ISharedSecret pr_suite (repeat 7%N 32); ic_limits := dr_limits; ic_nonce_trigger := 900 |};
     c_payload_size := 4096; c_via_stack := false |}.
Definition pr_b : econf := dr_r false.
Definition frame_no (C : econf) (hs : list happening) (n : nat) : list N := nth n (frames_of (events_of (drive C (fresh C) hs))) [].
Definition pr_request : list N := Eval vm_compute in frame_no pr_a [happen (Enter LowerOpen) 1] 0.
Definition pr_b1 : list happening := [happen (Enter LowerOpen) 1; arrive pr_request 2; happen (Enter LowerTxReady) 2].
Definition pr_reply : list N := Eval vm_compute in frame_no pr_b pr_b1 0.
Definition pr_a1 : list happening := [happen (Enter LowerOpen) 1; happen (Enter LowerTxReady) 1; arrive pr_reply 3; happen (Enter LowerTxReady) 3].
Definition pr_auth : list N := Eval vm_compute in frame_no pr_a pr_a1 1.
Definition pr_b2 : list happening := pr_b1 ++ [arrive pr_auth 4; happen (Enter LowerTxReady) 4].
Definition pr_answer : list N := Eval vm_compute in frame_no pr_b pr_b2 1.
Definition pr_sender : list happening :=
  pr_a1 ++ [arrive pr_answer 5; happen (Enter (StartTx [1; 2; 3]%N)) 6; happen (Enter LowerTxReady) 6; happen (Enter (StartTx [4; 5]%N)) 7; happen (Enter LowerTxReady) 7;
            happen (Enter (StartTx [6]%N)) 8; happen (Enter LowerTxReady) 8].
Definition pr_data (n : nat) : list N := frame_no pr_a pr_sender (2 + n).
Definition pr_data0 : list N := Eval vm_compute in pr_data 0.
Definition pr_data1 : list N := Eval vm_compute in pr_data 1.
Definition pr_data2 : list N := Eval vm_compute in pr_data 2.
Definition tampered (m : list N) : list N := match m with f :: a :: b :: rest => f :: a :: ((b + 1) mod 256)%N :: rest | _ => m end.
(** Delivered out of order, changed, repeated *)
Definition pr_receiver : list happening :=
  pr_b2 ++ [arrive pr_data1 6; arrive pr_data0 6; happen (Enter StartRx) 6; happen (Enter StartRx) 6; arrive pr_data0 7; arrive (tampered pr_data1) 7; arrive pr_data1 7; happen (Enter StartRx) 7; happen (Enter StartRx) 7;
            arrive pr_auth 8; arrive pr_data0 8].
Definition pr_ls_a : list label := ex_run pr_a pr_sender.
Definition pr_ls_b : list label := ex_run pr_b pr_receiver.
Definition pr_check (f : list event -> list event -> bool) : bool :=
  match run pr_a (fresh pr_a) pr_ls_a, run pr_b (fresh pr_b) pr_ls_b with
  | Ok (ka, ta), Ok (kb, tb) =>
      alongb typedb pr_a (fresh pr_a) pr_ls_a && alongb goodb pr_a (fresh pr_a) pr_ls_a && alongb goodb pr_b (fresh pr_b) pr_ls_b &&
      distinctb (map (fun s => k_tx (s_keys s)) (derived ta)) && unforgedb (sealed_log pr_a ta) toy tb && f ta tb
  | _, _ => false
  end.
Definition lists_eqb (a b : list (list N)) : bool := (length a =? length b) && forallb (fun x => bytes_eqb (fst x) (snd x)) (combine a b).
Lemma good_reader k l : good k l -> reader_ok k l.
Proof. intros [[H _] H2]. split; [exact H|apply lower_quiet; exact H2]. Qed.
Lemma good_opens k l : good k l -> opens_quietly k l.
Proof. intros [[H _] _]. destruct l; cbn in *; tauto. Qed.
Lemma lists_eqb_ok a b : lists_eqb a b = true -> a = b.
Proof.
  unfold lists_eqb. revert b. induction a as [|x a IH]; intros [|y b]; cbn; try discriminate; auto. intros H. apply Bool.andb_true_iff in H. destruct H as [H1 H2].
  apply Bool.andb_true_iff in H2. destruct H2 as [H2 H3]. apply bytes_eqb_iff in H2. f_equal; [exact H2|]. apply IH. rewrite H1. exact H3.
Qed.
Definition strictb (e : event) : bool := match e with EvAuthOk s _ _ => match s_nonce_mode s with strict_increment => true | _ => false end | _ => true end.
(** The hypotheses of the theorems above, for this example *)
Example C44_instance : exists kA tA kB tB, run pr_a (new_endpoint pr_a, []) pr_ls_a = Ok (kA, tA) /\ run pr_b (new_endpoint pr_b, []) pr_ls_b = Ok (kB, tB) /\
  prims_ok (e_prims (c_env pr_a)) /\ conf_typed pr_a /\ along typed pr_a (new_endpoint pr_a, []) pr_ls_a /\ along tx_env pr_a (new_endpoint pr_a, []) pr_ls_a /\
  along reader_ok pr_b (new_endpoint pr_b, []) pr_ls_b /\ along opens_quietly pr_b (new_endpoint pr_b, []) pr_ls_b /\ fresh_keys tA /\ unforged pr_a tA pr_b tB /\
  read_data tB = [[1; 2; 3]; [4; 5]]%N /\ exists s part, session_part tB s part /\ s_nonce_mode s = strict_increment /\ read_data part = [[1; 2; 3]; [4; 5]]%N.
Proof.
  assert (X : pr_check (fun ta tb => lists_eqb (read_data tb) [[1; 2; 3]; [4; 5]]%N && existsb is_auth_ok tb && forallb strictb tb &&
    forallb no_auth (after is_auth_ok tb) && lists_eqb (read_data (after is_auth_ok tb)) [[1; 2; 3]; [4; 5]]%N) = true) by (vm_compute; reflexivity).
  unfold pr_check, fresh in X. set (la := pr_ls_a) in *. set (lb := pr_ls_b) in *. clearbody la lb.
  destruct (run pr_a _ la) as [[kA tA]| |] eqn:HA; try discriminate X. destruct (run pr_b _ lb) as [[kB tB]| |] eqn:HB; try discriminate X.
  apply Bool.andb_true_iff in X. destruct X as [X Y]. apply Bool.andb_true_iff in X. destruct X as [X X5]. apply Bool.andb_true_iff in X. destruct X as [X X4].
  apply Bool.andb_true_iff in X. destruct X as [X X3]. apply Bool.andb_true_iff in X. destruct X as [X1 X2].
  apply Bool.andb_true_iff in Y. destruct Y as [Y Y5]. apply Bool.andb_true_iff in Y. destruct Y as [Y Y4]. apply Bool.andb_true_iff in Y. destruct Y as [Y Y3]. apply Bool.andb_true_iff in Y. destruct Y as [Y1 Y2].
  pose proof (alongb_ok _ _ _ typedb_ok _ _ X1) as T. pose proof (alongb_ok _ _ _ goodb_ok _ _ X2) as GA. pose proof (alongb_ok _ _ _ goodb_ok _ _ X3) as GB.
  assert (HP : prims_ok (e_prims (c_env pr_a))) by exact toy_ok. assert (HC : conf_typed pr_a) by (cbn; lia).
  destruct (C44_log _ _ _ _ HP HC T HA) as (_ & L & _).
  exists kA, tA, kB, tB. split; [reflexivity|]. split; [reflexivity|]. split; [exact HP|]. split; [exact HC|]. split; [exact T|].
  split; [eapply along_impl; [|exact GA]; intros k l G; apply line_tx, good_line, G|].
  split; [eapply along_impl; [|exact GB]; intros k l G; apply good_reader, G|].
  split; [eapply along_impl; [|exact GB]; intros k l G; apply good_opens, G|].
  split; [apply distinctb_ok; exact X4|]. split; [apply unforgedb_ok; [reflexivity|reflexivity|exact L|exact X5]|].
  apply lists_eqb_ok in Y1, Y5. split; [exact Y1|]. destruct (after_split _ _ Y2) as (t0 & e & Et & Ee). destruct e as [| | | | | | | | | | |s m p| | | | | |]; try discriminate Ee.
  exists s, (EvAuthOk s m p :: after is_auth_ok tB). split; [exists t0, m, p, (after is_auth_ok tB), []; rewrite app_nil_r; auto|]. split; [|exact Y5].
  rewrite forallb_forall in Y3. specialize (Y3 (EvAuthOk s m p)). cbn in Y3. destruct (s_nonce_mode s); [reflexivity|]. exfalso. 
  assert (Z : false = true); [|discriminate]. apply Y3. rewrite Et. apply in_app_iff. right. left. reflexivity.
Qed.
