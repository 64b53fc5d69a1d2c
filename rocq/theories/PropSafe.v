(** * C36 for running endpoints and complete stacks: no undefined behaviour *)
From Verif Require Import Base BaseFacts Codec CodecSpec CodecFacts Link LinkLayer LinkLayerSpec LinkLayerFacts Primitives Session SessionSpec SessionFacts SessionMain
  Handshake HandshakeSpec HandshakeFacts HandshakeMain HandshakePair Endpoint EndpointSpec EndpointFacts EndpointMain EndpointRx EndpointRuns PairSpec Stack StackSpec StackFacts
  SafeSpec EndpointSafe StackSafe.

(** Whatever happens to an endpoint (calls of the application, also from inside notifications as long
    as it does not read or close while it is being opened; timers; times; answers of the lower layer;
    messages), its execution is defined, unless one of two kinds of messages was received before: a
    session message with a tag of less than 16 bytes or with more data than the receive buffer holds;
    or, by an initiator with public keys, a reply with an ephemeral key of less than 32 bytes. *)
Theorem C36_endpoint_defined_partial : forall C ls, sup_ed25519 (c_supports C) = true -> keys_whole C ->
  along (fun k l => opens_quietly k l /\ receives bytes_ok k l) C (new_endpoint C, []) ls ->
  (exists k t, run C (new_endpoint C, []) ls = Ok (k, t)) \/
  (exists ls1 ls2 k t raw, ls = ls1 ++ ls2 /\ run C (new_endpoint C, []) ls1 = Ok (k, t) /\ In (EvRecv raw) t /\ (short_reply C raw \/ bad_data C raw)).
Proof. intros C ls HS HK H. apply (run_defined C false HS HK); [discriminate|apply dinv_new|exact H]. Qed.
Print Assumptions C36_endpoint_defined_partial.

(** The same for a complete stack and all bytes its transport receives. *)
Theorem C36_stack_defined_partial : forall C a ls, sup_ed25519 (c_supports C) = true -> keys_whole C -> Forall arrival_ok ls ->
  salong (fun k l => opens_quietly k l /\ from_outside k l) C (new_stack C a, []) ls ->
  (exists k t, stack_run C (new_stack C a, []) ls = Ok (k, t)) \/
  (exists ls1 ls2 k t raw, ls = ls1 ++ ls2 /\ stack_run C (new_stack C a, []) ls1 = Ok (k, t) /\ In raw (messages t) /\ (short_reply C raw \/ bad_data C raw)).
Proof. intros C a ls HS HK HA H. apply (stack_defined C false (a_source a) HS HK) with (ke := (new_endpoint C, [])); [discriminate|apply new_related|apply dinv_new|exact HA|exact H]. Qed.
Print Assumptions C36_stack_defined_partial.

(** A complete stack of an initiator configured for HMAC, with a shared secret or quantum keys, can be
    given any bytes at any time: its execution is always defined. *)
Theorem C36_initiator_stack_defined : forall C a c ls, sup_ed25519 (c_supports C) = true -> c_role C = Initiator c ->
  (forall suite st h, ic_handshake c <> IPublicKey suite st h) -> sp_crypto_mode (get_crypto_spec (ic_handshake c)) = hmac_sha256_16 -> Forall arrival_ok ls ->
  salong (fun k l => opens_quietly k l /\ from_outside k l) C (new_stack C a, []) ls -> exists k t, stack_run C (new_stack C a, []) ls = Ok (k, t).
Proof.
  intros C a c ls HS HR HN HM HA H.
  destruct (stack_defined C true (a_source a) HS) with (ke := (new_endpoint C, []) : config) (ls := ls) (k := (new_stack C a, []) : sconfig) as [X|(ls1 & ls2 & k & t & raw & _ & _ & _ & X)]; auto.
  - unfold keys_whole. rewrite HR. intros suite st h E. elim (HN _ _ _ E).
  - intros _. unfold hmac_configured. rewrite HR. exact HM.
  - apply new_related. - apply dinv_new.
  - exfalso. destruct X as [(c' & suite & st & h & m & E & X & _)|(h & m & E & _)]; rewrite HR in E; [|discriminate]. injection E as <-. elim (HN _ _ _ X).
Qed.
Print Assumptions C36_initiator_stack_defined.
(** A responder, whatever the session messages, as long as nobody asks it for AES-GCM. *)
Theorem C36_responder_stack_defined : forall C a h ls, sup_ed25519 (c_supports C) = true -> c_role C = Responder h -> keys_whole C -> Forall arrival_ok ls ->
  salong (fun k l => opens_quietly k l /\ from_outside k l) C (new_stack C a, []) ls ->
  (exists k t, stack_run C (new_stack C a, []) ls = Ok (k, t)) \/
  (exists ls1 ls2 k t raw m, ls = ls1 ++ ls2 /\ stack_run C (new_stack C a, []) ls1 = Ok (k, t) /\ In raw (messages t) /\ request_read raw = inl m /\ sp_crypto_mode (rq_spec m) = aes_256_gcm).
Proof.
  intros C a h ls HS HR HK HA H.
  destruct (stack_defined C true (a_source a) HS HK) with (ke := (new_endpoint C, []) : config) (ls := ls) (k := (new_stack C a, []) : sconfig) as [X|(ls1 & ls2 & k & t & raw & E1 & E2 & E3 & X)]; auto.
  - intros _. unfold hmac_configured. now rewrite HR.
  - apply new_related. - apply dinv_new.
  - right. destruct X as [(c' & suite & st & h' & m & E & _)|(h' & m & _ & X1 & X2)]; [congruence|]. exists ls1, ls2, k, t, raw, m. auto.
Qed.
Print Assumptions C36_responder_stack_defined.

(** ** The exceptions are real: attacks without knowledge of any key *)
Lemma gcm_request_ok : exists m f rest, gcm_request = f :: rest /\ function_from f = Some request_handshake_begin /\ request_read gcm_request = inl m /\ rq_version m = version_get /\
  length (rq_mode_ephemeral m) = 32 /\ rq_mode_data m = [] /\ configure_common sodium_supports (rq_spec m) = None /\ sp_crypto_mode (rq_spec m) = aes_256_gcm.
Proof. eexists. eexists. eexists. split; [vm_compute; reflexivity|]. split; [reflexivity|]. split; [vm_compute; reflexivity|]. repeat split. Qed.
Lemma untagged_ok : exists m f rest, untagged = f :: rest /\ function_from f = Some session_data /\ session_data_read untagged = inl m /\ am_nonce (sd_metadata m) = 0%N /\ length (sd_auth_tag m) < 16.
Proof. eexists. eexists. eexists. split; [reflexivity|]. split; [reflexivity|]. split; [vm_compute; reflexivity|]. split; [reflexivity|cbn; lia]. Qed.
Lemma run_cons_ub C k l ls k1 e1 : step C k l = Ok (k1, e1) -> run C k1 ls = UB -> run C k (l :: ls) = UB.
Proof. intros H1 H2. cbn [run]. rewrite H1. cbn [obind]. rewrite H2. reflexivity. Qed.

(** A message is taken and processed *)
Lemma take_step C s rest inp m : in_ready inp = true -> in_message inp = m -> m <> [] -> ep_payload s = None ->
  step C (s, ITryRead :: rest) (Run inp) = Ok ((set_generation (asked s inp) (S (ep_generation s)), IProcess m :: ITryRead :: rest), [EvQuery true; EvRecv m]).
Proof.
  intros H1 <- H2 H3. cbn [app step snd fst exec]. unfold try_read_one. rewrite H1. cbn [negb]. cbn [asked set_busy ep_payload]. rewrite H3. destruct (in_message inp); [congruence|]. reflexivity.
Qed.
Lemma process_ub C s rest inp m x : c_role C = Responder x -> s_valid (ep_pending s) = true -> s_crypto_mode (ep_pending s) = aes_256_gcm -> length (k_rx (s_keys (ep_pending s))) = 32 -> m = untagged ->
  step C (s, IProcess m :: rest) (Run inp) = UB.
Proof.
  intros HR V G K ->. destruct untagged_ok as (m & f & r & U1 & U2 & U3 & U4 & U5). cbn [app step snd fst exec]. rewrite U1 in *. cbn [process_message]. rewrite HR, U2, U3, U4. cbn [N.eqb]. unfold on_auth_session.
  rewrite V. cbn [negb]. unfold validate_session_auth, validate_with. rewrite V. cbn [negb]. unfold mode_read. rewrite G, K. cbn [symmetric_key_length Nat.eqb negb]. unfold aead_decrypt, aes_gcm_tag_length.
  rewrite (proj2 (Nat.ltb_lt _ _) U5). reflexivity.
Qed.
(** ... whatever state an open responder with a pending AES-GCM session is in *)
Lemma second_message C s ans ia now x : c_role C = Responder x -> s_valid (ep_pending s) = true -> s_crypto_mode (ep_pending s) = aes_256_gcm -> length (k_rx (s_keys (ep_pending s))) = 32 ->
  ep_open s = true -> ep_payload s = None -> ep_transmitting s = false -> 
  let go ready m := Run (plain_input ans ia now ready m) in
  run C (s, []) [Ext (Enter LowerTxReady); go true []; go true []; go true untagged; go true []] = UB.
Proof.
  intros HR V G K O P T go. unfold go.
  eapply run_cons_ub; [reflexivity|].
  eapply run_cons_ub. { cbn [step snd fst exec enter inject]. cbn [set_busy ep_open ep_transmitting]. rewrite O, T. cbn [andb obind app]. reflexivity. }
  eapply run_cons_ub. { cbn [app step snd fst exec]. rewrite HR. cbn [obind app]. reflexivity. }
  eapply run_cons_ub; [apply (take_step _ _ _ _ untagged); [reflexivity|reflexivity|discriminate|exact P]|].
  cbn [run]. rewrite (process_ub _ _ _ _ _ _ HR); auto.
Qed.
Lemma shared_process C key ans now s m : c_supports C = sodium_supports -> prims_ok (e_prims (c_env C)) -> (100 <= e_max_payload (c_env C) < 65536)%N -> answers_ok ans ->
  length (rq_mode_ephemeral m) = 32 -> rq_mode_data m = [] -> configure_common sodium_supports (rq_spec m) = None -> sp_crypto_mode (rq_spec m) = aes_256_gcm -> forall raw,
  exists s' f, process (c_env C) (c_supports C) (RSharedSecret key) ans m raw now s = Ok (inl f, s') /\ s_valid s' = true /\ s_crypto_mode s' = aes_256_gcm /\ length (k_rx (s_keys s')) = 32.
Proof.
  intros HS HP HE [HA1 HA2] R3 R4 R5 R6 raw.
  assert (RO : reply_ok {| rp_version := version_get; rp_mode_ephemeral := ans_random ans; rp_mode_data := [] |}).
  { exact (the_reply_ok (c_env C) (RSharedSecret key) ans HP (conj HA1 HA2) I). }
  pose proof (frame_write2_fits (c_env C) _ _ (wlaw_reply _ RO) ltac:(lia)) as FW.
  set (w := wire_reply _) in FW. assert (L : (N.of_nat (length w) <=? e_max_payload (c_env C))%N = true).
  { apply N.leb_le. unfold w, wire_reply. cbn. rewrite ?app_length. cbn. unfold wire_seq. rewrite HA1. cbn. rewrite ?app_length, HA1. cbn. lia. }
  rewrite L in FW. cbn [process]. rewrite R3, R4, HS, R5. cbn [Nat.eqb negb is_empty]. rewrite FW. unfold responder_finish.
  destruct (hkdf (e_prims (c_env C)) (hasher_compute (e_prims (c_env C)) raw w) [key; rq_mode_ephemeral m; ans_random ans]) as [k1 k2] eqn:K.
  destruct (hkdf_rfc (e_prims (c_env C)) (hasher_compute (e_prims (c_env C)) raw w) [key; rq_mode_ephemeral m; ans_random ans] HP) as (_ & K1 & K2). rewrite K in K1, K2. cbn [fst snd] in K1, K2.
  unfold initialize, keys_valid. cbn [k_rx k_tx]. rewrite K1, K2. cbn. eexists. eexists. repeat split; [exact R6|exact K1].
Qed.
(** Two fixed messages lead every responder with a shared secret out of bounds, whatever its secret. *)
Theorem C36_two_messages_refuted : forall C key ans ia now, c_role C = Responder (RSharedSecret key) -> c_supports C = sodium_supports -> prims_ok (e_prims (c_env C)) ->
  (100 <= e_max_payload (c_env C) < 65536)%N -> answers_ok ans -> run C (new_endpoint C, []) (attack_responder ans ia now) = UB.
Proof.
  intros C key ans ia now HR HS HP HE HA. destruct gcm_request_ok as (m & f & rest & R0 & RF & R1 & R2 & R3 & R4 & R5 & R6).
  destruct (shared_process C key ans now new_session m HS HP HE HA R3 R4 R5 R6 gcm_request) as (sess & fr & PR & V & G & K).
  unfold attack_responder. cbv zeta. assert (NE : gcm_request <> []) by (rewrite R0; discriminate).
  eapply run_cons_ub; [reflexivity|].
  eapply run_cons_ub. { cbn [step snd fst exec enter inject]. cbn [new_endpoint ep_open]. rewrite HR. cbn [obind app]. reflexivity. }
  eapply run_cons_ub; [reflexivity|].
  eapply run_cons_ub. { cbn [step snd fst exec enter inject]. cbn [set_open ep_open obind app]. reflexivity. }
  eapply run_cons_ub; [apply (take_step _ _ _ _ gcm_request); [reflexivity|reflexivity|exact NE|reflexivity]|].
  eapply run_cons_ub.
  { cbn [app step snd fst exec]. rewrite R0 in *. cbn [process_message]. rewrite HR, RF, R1. unfold on_request. rewrite R2, N.eqb_refl. cbn [negb plain_input in_answers in_now ep_pending set_generation asked set_open new_endpoint set_busy].
    rewrite PR. cbn [obind app]. reflexivity. }
  eapply run_cons_ub. { cbn [app step snd fst exec]. unfold try_read_one. cbn [plain_input in_ready negb obind app]. reflexivity. }
  apply (second_message _ _ _ _ _ _ HR); auto.
Qed.
Print Assumptions C36_two_messages_refuted.

Lemma reply_ub C c suite st key s rest inp m : c_role C = Initiator c -> ic_handshake c = IPublicKey suite st (Preshared key) -> c_supports C = sodium_supports -> ep_state s = WaitForBeginReply ->
  m = keyless_reply -> step C (s, IProcess m :: rest) (Run inp) = UB.
Proof.
  intros HR HH HS W ->. assert (RK : exists m f r, keyless_reply = f :: r /\ function_from f = Some reply_handshake_begin /\ reply_read keyless_reply = inl m /\ rp_mode_data m = [] /\ length (rp_mode_ephemeral m) < 32).
  { eexists. eexists. eexists. split; [reflexivity|]. split; [reflexivity|]. split; [vm_compute; reflexivity|]. split; [reflexivity|cbn; lia]. }
  destruct RK as (m & f & r & K1 & K2 & R1 & R2 & R3). cbn [step snd fst exec]. rewrite K1 in *. cbn [process_message]. rewrite HR, K2, R1. unfold on_reply_message. rewrite W, HH.
  rewrite (short_ephemeral _ _ _ _ _ _ _ _ _ _ _ key); [reflexivity|rewrite HS; reflexivity|rewrite R2; constructor|exact R3].
Qed.
Lemma first_reply C c suite st key s ans ia now : c_role C = Initiator c -> ic_handshake c = IPublicKey suite st (Preshared key) -> c_supports C = sodium_supports -> ep_state s = WaitForBeginReply ->
  ep_open s = true -> ep_payload s = None -> ep_transmitting s = false -> ep_required s = false ->
  let go ready m := Run (plain_input ans ia now ready m) in
  run C (s, []) [Ext (Enter LowerTxReady); go true []; go true []; go true keyless_reply; go true []] = UB.
Proof.
  intros HR HH HS W O P T Q go. unfold go.
  eapply run_cons_ub; [reflexivity|].
  eapply run_cons_ub. { cbn [app step snd fst exec enter inject]. cbn [set_busy ep_open ep_transmitting]. rewrite O, T. cbn [andb obind app]. reflexivity. }
  eapply run_cons_ub. { cbn [app step snd fst exec]. rewrite HR. cbn [obind app set_transmitting set_busy ep_required]. rewrite ?Q. cbn [obind app]. reflexivity. }
  eapply run_cons_ub; [apply (take_step _ _ _ _ keyless_reply); [reflexivity|reflexivity|discriminate|exact P]|].
  cbn [run]. rewrite (reply_ub _ _ _ _ _ _ _ _ _ HR HH HS); auto.
Qed.

(** Seven fixed bytes lead every initiator with preshared public keys out of bounds, whatever its keys. *)
Theorem C36_one_reply_refuted : forall C c suite st key ans ia now, c_role C = Initiator c -> ic_handshake c = IPublicKey suite st (Preshared key) -> c_supports C = sodium_supports ->
  prims_ok (e_prims (c_env C)) -> limits_ok (ic_limits c) -> (100 <= e_max_payload (c_env C) < 65536)%N -> ianswers_ok ia -> run C (new_endpoint C, []) (attack_initiator ans ia now) = UB.
Proof.
  intros C c suite st key ans ia now HR HH HS HP HL HE HI.
  assert (HN : exists i1, initialize_new_handshake (e_prims (c_env C)) (ic_handshake c) ia new_ihs = (Some (p_dh_public (e_prims (c_env C)) (ia_random ia), []), i1)) by (rewrite HH; cbn; eauto).
  destruct HN as (i1 & HN).
  assert (RO : request_ok (Handshake.make_request (ic_handshake c) (ic_limits c) (p_dh_public (e_prims (c_env C)) (ia_random ia)) [])).
  { eapply make_request_ok; try exact HN; auto. rewrite HH. cbn. split; [constructor|cbn; lia]. }
  pose proof (frame_write2_fits (c_env C) _ _ (wlaw_request _ RO) ltac:(lia)) as FW. set (w := wire_request _) in FW.
  assert (L : (N.of_nat (length w) <=? e_max_payload (c_env C))%N = true).
  { apply N.leb_le. unfold w, wire_request. rewrite HH. cbn. rewrite ?app_length. cbn. unfold wire_seq. destruct (ok_dh_public _ HP (ia_random ia)) as [-> _]. cbn. rewrite ?app_length. destruct (ok_dh_public _ HP (ia_random ia)) as [-> _]. cbn. lia. }
  rewrite L in FW. unfold attack_initiator. cbv zeta.
  eapply run_cons_ub; [reflexivity|].
  eapply run_cons_ub. { cbn [step snd fst exec enter inject]. cbn [new_endpoint ep_open]. rewrite HR. cbn [obind app]. reflexivity. }
  eapply run_cons_ub.
  { cbn [app step snd fst exec]. rewrite HR. unfold on_handshake_required. cbn [set_open ep_state new_endpoint asked set_busy ep_ihs plain_input in_ready in_ianswers negb]. rewrite HN. rewrite FW. cbn [obind app]. reflexivity. }
  apply (first_reply _ _ _ _ _ _ _ _ _ HR HH HS); auto.
Qed.
Print Assumptions C36_one_reply_refuted.

(** ** The hypotheses can be met: the attacks themselves are runs of the kind the theorems speak about *)
Definition all_bytes (l : list N) : bool := forallb (fun b => (b <? 256)%N) l.
Lemma all_bytes_ok l : all_bytes l = true -> bytes_ok l.
Proof. unfold all_bytes. rewrite forallb_forall. intros H. apply Forall_forall. intros b Hb. apply N.ltb_lt, H, Hb. Qed.
Lemma along_all (Q : config -> label -> Prop) C : forall ls k, (forall k l, In l ls -> Q k l) -> along Q C k ls.
Proof.
  induction ls as [|l ls IH]; intros k H; cbn [along]; [exact I|]. split; [apply H; left; reflexivity|]. destruct (step C k l) as [[k1 e1]| |]; auto. apply IH. intros k2 l2 Hl. apply H. right. exact Hl.
Qed.
Example C36_endpoint_instance : along (fun k l => opens_quietly k l /\ receives bytes_ok k l) (dr_r true) (new_endpoint (dr_r true), []) (attack_responder dr_ans dr_ia 5) /\
  keys_whole (dr_r true) /\ sup_ed25519 (c_supports (dr_r true)) = true /\ bad_data (dr_r true) untagged /\ asks_gcm (dr_r true) gcm_request /\
  run (dr_r true) (new_endpoint (dr_r true), []) (attack_responder dr_ans dr_ia 5) = UB.
Proof.
  split; [|split; [|split; [reflexivity|split; [|split]]]].
  - assert (B0 : bytes_ok []) by constructor. assert (B1 : bytes_ok gcm_request) by (apply all_bytes_ok; vm_compute; reflexivity). assert (B2 : bytes_ok untagged) by (apply all_bytes_ok; vm_compute; reflexivity).
    apply along_all. intros k l Hl. unfold attack_responder in Hl. cbv zeta in Hl. repeat (destruct Hl as [<-|Hl]; [split; [try exact I; intros _; reflexivity|first [exact I|exact B0|exact B1|exact B2]]|]). contradiction.
  - intros st h E. discriminate.
  - destruct untagged_ok as (m & _ & _ & _ & _ & U & _ & L). exists m. auto.
  - destruct gcm_request_ok as (m & _ & _ & _ & _ & R & _ & _ & _ & _ & G). eexists. exists m. split; [reflexivity|auto].
  - apply (C36_two_messages_refuted _ (repeat 7%N 32)); try reflexivity; [exact toy_ok|split; vm_compute; congruence|split; [reflexivity|apply all_bytes_ok; vm_compute; reflexivity]].
Qed.
(** An initiator for HMAC with a shared secret, on a line on which anything may arrive. *)
Definition safe_conf : econf :=
  stack_conf {| a_destination := 1; a_source := 2 |} toy 10000 sodium_supports
    (Initiator {| ic_handshake := ISharedSecret (dr_suite hmac_sha256_16) (repeat 7%N 32); ic_limits := dr_limits; ic_nonce_trigger := 900 |}) 4096.
Lemma salong_all (Q : config -> label -> Prop) C : forall ls k, (forall k l, In (SLab l) ls -> Q k l) -> salong Q C k ls.
Proof.
  induction ls as [|l ls IH]; intros k H; cbn [salong]; [exact I|]. split; [destruct l; [exact I|apply H; left; reflexivity]|]. destruct (stack_step C k l) as [[k1 e1]| |]; auto. apply IH. intros k2 l2 Hl. apply H. right. exact Hl.
Qed.
Example C36_initiator_stack_instance : forall bytes now, bytes_ok bytes -> exists k t, stack_run safe_conf (new_stack safe_conf {| a_destination := 1; a_source := 2 |}, [])
  (SArrive bytes :: map SLab (attack_initiator dr_ans dr_ia now)) = Ok (k, t).
Proof.
  intros bytes now B. eapply C36_initiator_stack_defined; try reflexivity; [discriminate| |].
  - constructor; [exact B|]. rewrite Forall_map. apply Forall_forall. intros l _. exact I.
  - apply salong_all. intros k l [Hl|Hl]; [discriminate|]. cbn in Hl. repeat (destruct Hl as [Hl|Hl]; [injection Hl as <-; split; [try exact I; intros _; reflexivity|try exact I; reflexivity]|]). contradiction.
Qed.
