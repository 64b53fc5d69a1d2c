(** * C22, C23, C29, C30, C35, C36 (handshake), C37: handshakes and certificates *)
From Verif Require Import Base BaseFacts Codec CodecSpec CodecFacts Link LinkSpec LinkLayer Primitives Session SessionSpec SessionFacts SessionMain
  Handshake HandshakeSpec HandshakeFacts HandshakeMain HandshakePair.

(** ** Concrete configurations for the examples *)
Definition hx_E (kind : frame_kind) : senv := {| e_prims := toy; e_kind := kind; e_max_payload := 4092; e_ttl_pad_ms := 10000 |}.
Definition hx_link_i : senv := hx_E (FLink {| a_destination := 10; a_source := 1 |}).
Definition hx_link_r : senv := hx_E (FLink {| a_destination := 1; a_source := 10 |}).
Definition hx_suite (c : SessionCryptoMode) : CryptoSpec :=
  {| sp_ephemeral := he_x25519; sp_hash := hash_sha256; sp_kdf := kdf_hkdf_sha256; sp_nonce_mode := greater_than_last_rx; sp_crypto_mode := c |}.
Definition hx_limits : limits := {| l_max_nonce := 1000; l_max_time_ms := 60000 |}.
Definition hx_ia : ianswers := {| ia_random := repeat 3%N 32; ia_key := Some (77%N, repeat 9%N 32) |}.
Definition hx_ans : answers := {| ans_random := repeat 4%N 32; ans_lookup := fun id => if (id =? 77)%N then Some (repeat 9%N 32) else None |}.
(** A root certificate authority (level 2), an intermediate one (level 1) and the two stations,
    all of them expired on the second millisecond of 1970. *)
Definition hx_body (level : N) (t : PublicKeyType) (key : list N) : CertificateBody :=
  {| cb_valid_after := 1; cb_valid_before := 2; cb_signing_level := level; cb_key_type := t; cb_public_key := key; cb_extensions := [] |}.
Definition hx_sign (issuer subject : CertificateBody) : CertificateEnvelope := Eval cbv beta in
  {| env_signature := toy_digest 64 (firstn 32 (cb_public_key issuer) ++ wire_body subject); env_body := wire_body subject |}.
Definition hx_root := hx_body 2 pk_Ed25519 (repeat 50%N 32).
Definition hx_mid := hx_body 1 pk_Ed25519 (repeat 51%N 32).
Definition hx_static_i : list N := repeat 21%N 32.
Definition hx_static_r : list N := repeat 22%N 32.
Definition hx_leaf_i := Eval vm_compute in hx_body 0 pk_X25519 (p_dh_public toy hx_static_i).
Definition hx_leaf_r := Eval vm_compute in hx_body 0 pk_X25519 (p_dh_public toy hx_static_r).
Definition hx_chain_i : list CertificateEnvelope := Eval vm_compute in [hx_sign hx_root hx_mid; hx_sign hx_mid hx_leaf_i].
Definition hx_chain_r : list CertificateEnvelope := Eval vm_compute in [hx_sign hx_root hx_leaf_r].
Definition hx_data_i : list N := Eval vm_compute in wire_chain hx_chain_i.
Definition hx_data_r : list N := Eval vm_compute in wire_chain hx_chain_r.

Definition hx_hi (n : nat) : initiator_handshake :=
  match n with
  | 0 => ISharedSecret (hx_suite aes_256_gcm) (repeat 7%N 32)
  | 1 => IQkd (hx_suite hmac_sha256_16)
  | 2 => IPublicKey (hx_suite hmac_sha256_16) hx_static_i (Preshared (cb_public_key hx_leaf_r))
  | _ => IPublicKey (hx_suite aes_256_gcm) hx_static_i (Industrial hx_root hx_data_i)
  end.
Definition hx_hr (n : nat) : responder_handshake :=
  match n with
  | 0 => RSharedSecret (repeat 7%N 32)
  | 1 => RQkd
  | 2 => RPublicKey hx_static_r (Preshared (cb_public_key hx_leaf_i))
  | _ => RPublicKey hx_static_r (Industrial hx_root hx_data_r)
  end.

Lemma hx_repeat x n : (x < 256)%N -> bytes_ok (repeat x n).
Proof. intros H. unfold bytes_ok. apply Forall_forall. intros y Hy. apply repeat_spec in Hy. subst y. exact H. Qed.
Lemma hx_ia_ok : ianswers_ok hx_ia. Proof. split; [reflexivity|apply hx_repeat; lia]. Qed.
Lemma hx_ans_ok : answers_ok hx_ans. Proof. split; [reflexivity|apply hx_repeat; lia]. Qed.
Definition all_bytes (l : list N) : bool := forallb (fun b => b <? 256)%N l.
Lemma all_bytes_ok l : all_bytes l = true -> bytes_ok l.
Proof. intros H. apply Forall_forall. intros x Hx. unfold all_bytes in H. rewrite forallb_forall in H. apply N.ltb_lt, H, Hx. Qed.
Lemma hx_limits_ok : limits_ok hx_limits. Proof. split; cbn; lia. Qed.
Lemma hx_hi_ok n : initiator_ok (hx_hi n).
Proof. destruct n as [|[|[|n]]]; cbn; try exact I; (split; [apply all_bytes_ok; vm_compute; reflexivity|vm_compute; reflexivity]). Qed.
Lemma hx_hr_ok n : responder_ok (hx_hr n).
Proof. destruct n as [|[|[|n]]]; cbn; try exact I; (split; [apply all_bytes_ok; vm_compute; reflexivity|vm_compute; reflexivity]). Qed.

(** Being taken by the handler, by computation. *)
Lemma hx_takes c data key : bytes_ok data -> cert_validate toy sodium_supports c (cert_mode c) data = Ok (inl key) -> takes_key toy c data key.
Proof. intros Hb H. exact (proj2 (cert_validate_spec _ _ _ _ _ _ Hb H)). Qed.
Lemma hx_configured n : configured toy hx_ia hx_ans (hx_hi n) (hx_hr n).
Proof.
  destruct n as [|[|[|n]]]; cbn [hx_hi hx_hr].
  - constructor.
  - apply conf_qkd with 77%N (repeat 9%N 32); [reflexivity|lia|reflexivity].
  - apply conf_public; [reflexivity| |]; (apply hx_takes; [constructor|vm_compute; reflexivity]).
  - apply conf_public; [reflexivity| |]; (apply hx_takes; [apply all_bytes_ok; vm_compute; reflexivity|vm_compute; reflexivity]).
Qed.

(** ** C37 *)

(** The two keys are the two 32-byte halves of the 64-byte output of HKDF-HMAC-SHA256 (RFC 5869)
    with empty info. *)
Theorem C37_hkdf_is_rfc5869 : forall P salt ikm, prims_ok P ->
  fst (hkdf P salt ikm) ++ snd (hkdf P salt ikm) = rfc_hkdf P salt (concat ikm) [] 64 /\
  length (fst (hkdf P salt ikm)) = 32 /\ length (snd (hkdf P salt ikm)) = 32.
Proof. exact hkdf_rfc. Qed.
Print Assumptions C37_hkdf_is_rfc5869.

(** The initiator's session: the keys are the halves of HKDF with the hash of the transcript as
    salt and the mode's key material; the first is the transmit key. *)
Theorem C37_initiator_keys : forall P S h i0 request t0 m l now s i' s', prims_ok P -> reply_ok m ->
  initialize_session P S h (finalize_request_tx P request t0 i0) m (wire_reply m) l now s = Ok (true, i', s') ->
  exists ikm, initiator_material P (finalize_request_tx P request t0 i0) m h ikm /\
    k_tx (s_keys s') ++ k_rx (s_keys s') = rfc_hkdf P (transcript_hash P request (wire_reply m)) ikm [] 64 /\
    length (k_tx (s_keys s')) = 32 /\ length (k_rx (s_keys s')) = 32.
Proof.
  intros P S h i0 request t0 m l now s i' s' HP Hm H.
  eapply initialize_session_spec in H; [|exact HP|exact Hm|cbn [finalize_request_tx i_hash concat]; rewrite app_nil_r; reflexivity].
  destruct H as (ikm & M & _ & (_ & _ & _ & _ & _ & _ & _ & _ & K1 & K2)). exists ikm. split; [exact M|]. rewrite K1, K2, firstn_skipn.
  split; [reflexivity|]. destruct (okm_length P request (wire_reply m) ikm HP). auto.
Qed.
Print Assumptions C37_initiator_keys.

(** The responder's session likewise; the first half is the receive key. *)
Theorem C37_responder_keys : forall E S h ans bytes now s f s', prims_ok (e_prims E) -> (e_max_payload E < 65536)%N ->
  answers_ok ans -> responder_ok h -> bytes_ok bytes ->
  respond_bytes E S h ans bytes now s = Ok (Some f, s') -> decision E S h ans bytes None -> sup_ed25519 S = true ->
  exists m ikm, request_ok m /\ bytes = wire_request m /\ responder_material (e_prims E) ans m h ikm /\
    k_rx (s_keys s') ++ k_tx (s_keys s') = rfc_hkdf (e_prims E) (transcript_hash (e_prims E) bytes (wire_reply (the_reply E h ans))) ikm [] 64 /\
    length (k_tx (s_keys s')) = 32 /\ length (k_rx (s_keys s')) = 32.
Proof.
  intros E S h ans bytes now s f s' HP Hm Ha Hh Hb H D Hs. apply respond_spec in H; auto.
  destruct H as [(e & D' & _)|(_ & m & f' & _ & Hr & Eb & (_ & ikm & M & (_ & _ & _ & _ & _ & _ & _ & _ & K1 & K2)))].
  - pose proof (decision_unique _ _ _ _ _ _ _ Hs D D'). discriminate.
  - exists m, ikm. split; [exact Hr|]. split; [exact Eb|]. split; [exact M|]. rewrite K1, K2, firstn_skipn. split; [reflexivity|].
    destruct (okm_length (e_prims E) bytes (wire_reply (the_reply E h ans)) ikm HP). auto.
Qed.
Print Assumptions C37_responder_keys.
Example C37_instance : fst (hkdf toy [1; 2]%N [[3]; [4; 5]]%N) <> snd (hkdf toy [1; 2]%N [[3]; [4; 5]]%N).
Proof. vm_compute. discriminate. Qed.

(** ** C35 *)

(** For every byte sequence received as a handshake request, every configuration, every clock and
    every answer of the random generator and the key store: the responder takes the decision of the
    table [decision]; on an error it sends that error and the pending session stays as it was; else
    it sends its reply, and the pending session has exactly the requested algorithms and constraints
    and the derived keys. *)
Theorem C35_decision : forall E S h ans bytes now s out s', prims_ok (e_prims E) -> (e_max_payload E < 65536)%N ->
  answers_ok ans -> responder_ok h -> bytes_ok bytes ->
  respond_bytes E S h ans bytes now s = Ok (out, s') ->
  (exists e, decision E S h ans bytes (Some e) /\ error_reply E e out /\ s' = s) \/
  (decision E S h ans bytes None /\
     exists m f, out = Some f /\ request_ok m /\ bytes = wire_request m /\ responded E h ans m bytes now f s').
Proof. exact respond_spec. Qed.
Print Assumptions C35_decision.

(** There is only one decision for each request. *)
Theorem C35_decision_unique : forall E S h ans bytes r r', sup_ed25519 S = true ->
  decision E S h ans bytes r -> decision E S h ans bytes r' -> r = r'.
Proof. exact decision_unique. Qed.
Print Assumptions C35_decision_unique.

Definition hx_req (mode : HandshakeMode) (spec : CryptoSpec) (me md : list N) : RequestHandshakeBegin :=
  {| rq_version := {| major_version := 0; minor_version := 1 |}; rq_spec := spec;
     rq_constraints := {| sc_max_nonce := 5; sc_max_session_duration := 9000 |}; rq_mode := mode; rq_mode_ephemeral := me; rq_mode_data := md |}.
Definition reply_error (E : senv) (o : outcome (option (list N) * session)) : option HandshakeError :=
  match o with
  | Ok (Some f, _) => match error_read f with inl m => Some (re_error m) | inr _ => None end
  | _ => None
  end.
(** The table in action: wrong length, unknown key, mode mismatch, expired-but-accepted and a
    certificate chain in the wrong order. *)
Example C35_instance :
  map (fun p => reply_error (hx_E FRaw) (respond_bytes (hx_E FRaw) sodium_supports (fst p) hx_ans (wire_request (snd p)) 100 new_session))
   [(RSharedSecret (repeat 7%N 32), hx_req hm_shared_secret (hx_suite aes_256_gcm) (repeat 1%N 31) []);
    (RQkd, hx_req hm_qkd (hx_suite aes_256_gcm) [] (be_bytes 8 78));
    (hx_hr 2, hx_req hm_qkd (hx_suite aes_256_gcm) (repeat 1%N 32) []);
    (hx_hr 3, hx_req hm_industrial_certificates (hx_suite aes_256_gcm) (repeat 1%N 32) (wire_chain (rev hx_chain_i)));
    (hx_hr 3, hx_req hm_industrial_certificates (hx_suite aes_256_gcm) (repeat 1%N 32) (wire_chain hx_chain_i))] =
   [Some he_bad_message_format; Some he_key_not_found; Some he_unsupported_handshake_mode; Some he_authentication_error; None].
Proof. vm_compute. reflexivity. Qed.

(** The table has no entry for the handshake mode (and the ephemeral type) in the shared secret and
    quantum key modes: a request of any other mode is accepted if its fields have the right sizes. *)
Theorem C35_mode_not_checked_refuted : exists E S ans key ephemeral, prims_ok (e_prims E) /\ answers_ok ans /\
  forall mode eph now, let m := hx_req mode (with_ephemeral (hx_suite aes_256_gcm) eph) ephemeral [] in
    request_ok m /\ exists f s, respond_bytes E S (RSharedSecret key) ans (wire_request m) now new_session = Ok (Some f, s) /\ s_valid s = true.
Proof.
  exists (hx_E FRaw), sodium_supports, hx_ans, (repeat 7%N 32), (repeat 1%N 32). split; [exact toy_ok|]. split; [exact hx_ans_ok|].
  intros mode eph now m. split.
  - unfold request_ok, m. cbn. repeat split; cbn; try lia; apply all_bytes_ok; vm_compute; reflexivity.
  - destruct mode, eph; (eexists; eexists; split; [vm_compute; reflexivity|reflexivity]).
Qed.
Print Assumptions C35_mode_not_checked_refuted.

(** ** C22 *)

(** For all three handshake modes, all keys, certificates, nonces and clocks: when both messages of
    the handshake arrive unmodified, the two sessions fit together, and the initiator's estimate of
    the session start lies between the transmission of the request and the reception of the reply. *)
Theorem C22_key_agreement : forall Ei Er Si Sr hi hr l ia ans t0 t1 t2 request reply si sr,
  prims_ok (e_prims Ei) -> e_prims Er = e_prims Ei -> (e_max_payload Ei < 65536)%N -> (e_max_payload Er < 65536)%N ->
  initiator_ok hi -> responder_ok hr -> limits_ok l -> ianswers_ok ia -> answers_ok ans ->
  configured (e_prims Ei) ia ans hi hr ->
  exchange Ei Er Si Sr hi hr l ia ans t0 t1 t2 request reply si sr ->
  matching si sr /\ s_nonce_mode sr = sp_nonce_mode (get_crypto_spec hi) /\ s_crypto_mode sr = sp_crypto_mode (get_crypto_spec hi) /\
  p_max_nonce (s_param sr) = l_max_nonce l /\ p_max_time (s_param sr) = (Z.of_N (l_max_time_ms l) * 1000000)%Z /\
  p_start (s_param sr) = t1 /\ (t0 <= p_start (s_param si) <= t2)%Z.
Proof.
  intros Ei Er Si Sr hi hr l ia ans t0 t1 t2 request reply si sr HP HE Mi Mr Hi Hr Hl Hia Ha HC X.
  destruct (exchange_sides _ _ _ _ _ _ _ _ _ _ _ _ _ _ _ _ HP HE Mi Mr Hi Hr Hl Hia Ha X HC) as (ikm & A & B & T). cbn zeta in A, B.
  destruct (okm_length (e_prims Ei) request reply ikm HP) as [L1 L2].
  destruct A as (A1 & A2 & A3 & A4 & A5 & A6 & A7 & A8 & A9 & A10). destruct B as (B1 & B2 & B3 & B4 & B5 & B6 & B7 & B8 & B9 & B10).
  split; [constructor; (repeat split); congruence|]. repeat split; try assumption.
  - rewrite A6. assert ((t2 - t0) / 2 <= t2 - t0)%Z by (apply Z.div_le_upper_bound; lia). lia.
  - rewrite A6. assert (0 <= (t2 - t0) / 2)%Z by (apply Z.div_pos; lia). lia.
Qed.
Print Assumptions C22_key_agreement.

(** Such an exchange exists whenever the messages fit into a frame, the clock does not run backwards
    and the key agreement function does not fail. *)
Theorem C22_completes : forall Ei Er Si Sr hi hr l ia ans t0 t1 t2 ephemeral data i0 i1,
  prims_ok (e_prims Ei) -> e_prims Er = e_prims Ei -> (e_max_payload Ei < 65536)%N -> (e_max_payload Er < 65536)%N ->
  initiator_ok hi -> responder_ok hr -> limits_ok l -> ianswers_ok ia -> answers_ok ans ->
  configured (e_prims Ei) ia ans hi hr -> dh_works (e_prims Ei) hi hr (ia_random ia) (ans_random ans) ->
  initiator_constructible Sr hi = true -> sup_ed25519 Si = true -> sup_ed25519 Sr = true ->
  initialize_new_handshake (e_prims Ei) hi ia i0 = (Some (ephemeral, data), i1) ->
  fits Ei (length (wire_request (make_request hi l ephemeral data))) -> fits Er (length (wire_reply (the_reply Er hr ans))) -> (t0 <= t2)%Z ->
  exists si sr, exchange Ei Er Si Sr hi hr l ia ans t0 t1 t2 (wire_request (make_request hi l ephemeral data)) (wire_reply (the_reply Er hr ans)) si sr.
Proof.
  intros Ei Er Si Sr hi hr l ia ans t0 t1 t2 me md i0 i1 HP HE Mi Mr Hi Hr Hl Hia Ha HC HD HS E1 E2 X1 F1 F2 Ht.
  destruct (exchange_completes Ei Er Si Sr hi hr l ia ans t0 t1 t2 me md i0 i1 new_session new_session) as (sr & i2 & si & R1 & R2 & R3); auto.
  exists si, sr. pose proof (make_request_ok _ _ _ _ _ _ _ _ HP Hi Hl Hia X1) as RQ.
  eapply an_exchange; [exact X1| |exact R1|exact R2|exact R3].
  rewrite (frame_write2_fits Ei _ _ (wlaw_request _ RQ) Mi). unfold fits in F1. apply N.leb_le in F1. rewrite F1. reflexivity.
Qed.
Print Assumptions C22_completes.

(** Both theorems apply to all four kinds of configuration. *)
Example C22_instance : forall n, n < 4 -> exists request reply si sr,
  exchange hx_link_i hx_link_r sodium_supports sodium_supports (hx_hi n) (hx_hr n) hx_limits hx_ia hx_ans 1000 5000 3000 request reply si sr /\
  matching si sr.
Proof.
  intros n Hn.
  assert (X : exists me md i1, initialize_new_handshake toy (hx_hi n) hx_ia new_ihs = (Some (me, md), i1) /\
     fits hx_link_i (length (wire_request (make_request (hx_hi n) hx_limits me md))) /\ fits hx_link_r (length (wire_reply (the_reply hx_link_r (hx_hr n) hx_ans)))).
  { destruct n as [|[|[|[|n]]]]; [..|lia]; do 3 eexists; (split; [reflexivity|]); split; vm_compute; discriminate. }
  destruct X as (me & md & i1 & X1 & X2 & X3).
  destruct (C22_completes hx_link_i hx_link_r sodium_supports sodium_supports (hx_hi n) (hx_hr n) hx_limits hx_ia hx_ans 1000 5000 3000 me md new_ihs i1)
    as (si & sr & X); auto using toy_ok, hx_hi_ok, hx_hr_ok, hx_limits_ok, hx_ia_ok, hx_ans_ok, hx_configured; try (cbn; lia).
  - destruct n as [|[|[|n]]]; cbn [hx_hi hx_hr dh_works]; try exact I; (repeat split); eexists; reflexivity.
  - destruct n as [|[|[|n]]]; reflexivity.
  - do 4 eexists. split; [exact X|]. eapply C22_key_agreement in X; eauto using toy_ok, hx_hi_ok, hx_hr_ok, hx_limits_ok, hx_ia_ok, hx_ans_ok, hx_configured; try (cbn; lia). apply X.
Qed.

(** ** C23 *)

(** The initiator sent [request] and took [reply] for the answer; the responder received [request']
    and answered [reply'], with any modification in between.  If the initiator's transmit key is
    the responder's receive key, and neither SHA-256 nor HMAC-SHA256 collides on the inputs of the
    two computations, then nothing was modified, and the two sides used the same key material. *)
Theorem C23_transcript_binding : forall Ei Er Si Sr hi hr l ans i0 t0 t1 t2 request request' reply reply' m pending s0 i2 si sr,
  prims_ok (e_prims Ei) -> e_prims Er = e_prims Ei -> (e_max_payload Er < 65536)%N -> responder_ok hr -> answers_ok ans ->
  bytes_ok request' -> bytes_ok reply ->
  respond_bytes Er Sr hr ans request' t1 pending = Ok (Some (frame_of (e_kind Er) reply'), sr) ->
  (exists m', reply_read reply' = inl m') ->
  reply_read reply = inl m ->
  initialize_session (e_prims Ei) Si hi (finalize_request_tx (e_prims Ei) request t0 i0) m reply l t2 s0 = Ok (true, i2, si) ->
  k_tx (s_keys si) = k_rx (s_keys sr) ->
  no_collision (p_sha256 (e_prims Ei)) (hash_inputs (e_prims Ei) request reply ++ hash_inputs (e_prims Ei) request' reply') ->
  (forall rq ikm ikm', request' = wire_request rq -> request_ok rq ->
     initiator_material (e_prims Ei) (finalize_request_tx (e_prims Ei) request t0 i0) m hi ikm -> responder_material (e_prims Ei) ans rq hr ikm' ->
     no_collision (fun x => p_hmac (e_prims Ei) (fst x) (snd x)) (mac_inputs (e_prims Ei) request reply ikm ++ mac_inputs (e_prims Ei) request' reply' ikm')) ->
  request = request' /\ reply = reply' /\
  exists rq ikm, request = wire_request rq /\ request_ok rq /\ initiator_material (e_prims Ei) (finalize_request_tx (e_prims Ei) request t0 i0) m hi ikm /\
    responder_material (e_prims Ei) ans rq hr ikm.
Proof.
  intros Ei Er Si Sr hi hr l ans i0 t0 t1 t2 request request' reply reply' m pending s0 i2 si sr HP HE Mr Hr Ha Bq Bp X3 [m' Xm] X4 X5 K NS NM.
  apply respond_spec in X3; auto; [|rewrite HE; exact HP].
  destruct X3 as [(e & D & [O|[_ O]] & _)|(D & rq & f & O & Hm & Em & (Ef & ikm' & RM & SR))].
  - exfalso. injection O as O. apply frame_of_inj in O. rewrite O in Xm.
    apply reply_read_wire in Xm; [|apply wire_error_bytes]. destruct Xm as [_ Xm]. exact (wire_error_reply _ _ Xm).
  - discriminate.
  - injection O as O. rewrite <- O in Ef. apply frame_of_inj in Ef. subst reply'.
    apply reply_read_wire in X4; [|exact Bp]. destruct X4 as [RO ->].
    eapply initialize_session_spec in X5; [|exact HP|exact RO|cbn [finalize_request_tx i_hash concat]; rewrite app_nil_r; reflexivity].
    destruct X5 as (ikm & IM & T & SI). rewrite HE in RM, SR.
    destruct SI as (_ & _ & _ & _ & _ & _ & _ & _ & _ & KI). destruct SR as (_ & _ & _ & _ & _ & _ & _ & _ & KR & _).
    rewrite KI, KR in K. pose proof (NM rq ikm ikm' Em Hm IM RM) as NM'.
    destruct (binding _ _ _ _ _ _ _ HP NS NM' K) as (E1 & E2 & E3). split; [exact E1|]. split; [exact E2|].
    exists rq, ikm. subst ikm'. split; [congruence|]. auto.
Qed.
Print Assumptions C23_transcript_binding.

(** Hence the algorithms and constraints of the responder's session are those the initiator asked
    for, and its certificate data are the ones the initiator verified. *)
Theorem C23_no_downgrade : forall Er Sr hr ans t1 request asked reply' m' pending sr,
  prims_ok (e_prims Er) -> (e_max_payload Er < 65536)%N -> responder_ok hr -> answers_ok ans -> request_ok asked ->
  request = wire_request asked ->
  respond_bytes Er Sr hr ans request t1 pending = Ok (Some (frame_of (e_kind Er) reply'), sr) -> reply_read reply' = inl m' ->
  s_nonce_mode sr = sp_nonce_mode (rq_spec asked) /\ s_crypto_mode sr = sp_crypto_mode (rq_spec asked) /\
  p_max_nonce (s_param sr) = sc_max_nonce (rq_constraints asked) /\
  p_max_time (s_param sr) = (Z.of_N (sc_max_session_duration (rq_constraints asked)) * 1000000)%Z /\
  rp_mode_data m' = match hr with RPublicKey _ c => cert_data c | _ => [] end.
Proof.
  intros Er Sr hr ans t1 request asked reply' m' pending sr HP Mr Hr Ha Hq -> X3 Xm.
  apply respond_spec in X3; auto; [|apply wire_request_bytes, Hq].
  destruct X3 as [(e & D & [O|[_ O]] & _)|(D & rq & f & O & Hm & Em & (Ef & ikm' & RM & SR))].
  - exfalso. injection O as O. apply frame_of_inj in O. rewrite O in Xm.
    apply reply_read_wire in Xm; [|apply wire_error_bytes]. destruct Xm as [_ Xm]. exact (wire_error_reply _ _ Xm).
  - discriminate.
  - apply wire_request_inj in Em; auto. subst rq. injection O as O. rewrite <- O in Ef. apply frame_of_inj in Ef. subst reply'.
    assert (RO : reply_ok (the_reply Er hr ans)) by (apply the_reply_ok; auto).
    assert (Q : m' = the_reply Er hr ans).
    { assert (B : reply_read (wire_reply (the_reply Er hr ans)) = inl (the_reply Er hr ans)) by (apply reply_read_wire; [apply wire_reply_bytes, RO|auto]). congruence. }
    destruct SR as (_ & _ & _ & S4 & S5 & _ & S7 & S8 & _). subst m'. repeat split; assumption.
Qed.
Print Assumptions C23_no_downgrade.

(** The hypotheses hold in a concrete unmodified handshake; with a modified request the keys differ. *)
Fixpoint collision_free_with {X} (eqb : X -> X -> bool) (f : X -> list N) (x : X) (l : list X) : bool :=
  match l with [] => true | y :: l' => (eqb x y || negb (bytes_eqb (f x) (f y))) && collision_free_with eqb f x l' end.
Definition collision_free {X} (eqb : X -> X -> bool) (f : X -> list N) (l : list X) : bool := forallb (fun x => collision_free_with eqb f x l) l.
Lemma collision_free_ok {X} eqb (f : X -> list N) l : (forall x y, eqb x y = true -> x = y) -> collision_free eqb f l = true -> no_collision f l.
Proof.
  intros He H a b Ha Hb E. unfold collision_free in H. rewrite forallb_forall in H. specialize (H a Ha). revert H Hb. clear Ha.
  induction l as [|y l IH]; intros H Hb; [destruct Hb|]. cbn in H. apply andb_prop in H as [H1 H2]. destruct Hb as [->|Hb]; [|auto].
  apply orb_prop in H1 as [H1|H1]; [apply He, H1|]. rewrite E, bytes_eqb_refl in H1. discriminate.
Qed.
Definition c23_E := hx_E FRaw.
Definition c23_i : ihs := Eval vm_compute in snd (initialize_new_handshake toy (hx_hi 0) hx_ia new_ihs).
Definition c23_request : list N := Eval vm_compute in wire_request (make_request (hx_hi 0) hx_limits (ia_random hx_ia) []).
Definition c23_reply : list N := Eval vm_compute in wire_reply (the_reply c23_E (hx_hr 0) hx_ans).
Definition c23_ikm : list N := repeat 7%N 32 ++ repeat 3%N 32 ++ repeat 4%N 32.
(** The keys of the two sides when the initiator sent [c23_request] and the responder received [request']. *)
Definition c23_keys (request' : list N) : option (list N * list N) :=
  match respond_bytes c23_E sodium_supports (hx_hr 0) hx_ans request' 2000 new_session,
        initialize_session toy sodium_supports (hx_hi 0) (finalize_request_tx toy c23_request 1000 c23_i) (the_reply c23_E (hx_hr 0) hx_ans) c23_reply hx_limits 3000 new_session with
  | Ok (Some f, sr), Ok (true, _, si) => if bytes_eqb f c23_reply then Some (k_tx (s_keys si), k_rx (s_keys sr)) else None
  | _, _ => None
  end.
Example C23_instance :
  no_collision (p_sha256 toy) (hash_inputs toy c23_request c23_reply ++ hash_inputs toy c23_request c23_reply) /\
  no_collision (fun x => p_hmac toy (fst x) (snd x)) (mac_inputs toy c23_request c23_reply c23_ikm ++ mac_inputs toy c23_request c23_reply c23_ikm) /\
  match c23_keys c23_request with Some (a, b) => a = b | None => False end /\
  (** the adversary changes the session crypto mode to HMAC *)
  match c23_keys (wire_request (make_request (ISharedSecret (hx_suite hmac_sha256_16) (repeat 7%N 32)) hx_limits (ia_random hx_ia) [])) with
  | Some (a, b) => a <> b | None => False end.
Proof.
  split; [|split; [|split]].
  - apply (collision_free_ok bytes_eqb); [intros x y; apply bytes_eqb_eq|vm_compute; reflexivity].
  - apply (collision_free_ok (fun a b => bytes_eqb (fst a) (fst b) && bytes_eqb (snd a) (snd b))); [|vm_compute; reflexivity].
    intros [a b] [c d] H. cbn in H. apply andb_prop in H as [H1 H2]. apply bytes_eqb_eq in H1, H2. congruence.
  - vm_compute. reflexivity.
  - vm_compute. discriminate.
Qed.

(** ** C29 *)

(** A chain is accepted with this end-entity certificate exactly when the trust anchor certifies it. *)
Theorem C29_accepted_iff_certified : forall P S anchor chain leaf, sup_ed25519 S = true -> Forall envelope_ok chain ->
  chain_verify P S anchor chain = Ok (inl leaf) <-> chain_certifies P anchor chain leaf.
Proof. exact chain_verify_certifies. Qed.
Print Assumptions C29_accepted_iff_certified.

(** Over the whole chain: the validity of the end-entity certificate lies within that of the
    anchor, the anchor's signing level is at least the length of the chain, and the anchor's key is
    a signing key. *)
Theorem C29_chain_bounds : forall P S anchor chain leaf, Forall envelope_ok chain -> chain_verify P S anchor chain = Ok (inl leaf) ->
  (cb_valid_after anchor <= cb_valid_after leaf)%N /\ (cb_valid_before leaf <= cb_valid_before anchor)%N /\
  (N.of_nat (length chain) <= cb_signing_level anchor)%N /\ cb_key_type anchor = pk_Ed25519 /\
  cb_signing_level leaf = 0%N /\ cb_key_type leaf = pk_X25519.
Proof.
  intros P S anchor chain leaf Hc H. pose proof (chain_verify_sup _ _ _ _ _ H) as Hs. apply chain_verify_certifies in H as (Hn & Hp & E1 & E2); auto.
  destruct (issue_path_bounds _ _ _ _ Hp) as (A & B & C & D). repeat split; auto. lia.
Qed.
Print Assumptions C29_chain_bounds.

(** For all byte sequences offered as certificate data: the handler returns a key exactly when the
    mode is its own and the data is its configured key resp. a chain certified by the anchor, and
    the key is the one of the end-entity certificate. *)
Theorem C29_handler_returns_certified_key : forall P S h mode data key, bytes_ok data -> sup_ed25519 S = true ->
  cert_validate P S h mode data = Ok (inl key) <-> mode = cert_mode h /\ takes_key P h data key.
Proof.
  intros P S h mode data key Hb Hs. split.
  - intros H. exact (cert_validate_spec _ _ _ _ _ _ Hb H).
  - intros [-> H]. apply takes_key_validate; assumption.
Qed.
Print Assumptions C29_handler_returns_certified_key.

(** The errors of a rejected chain or certificate data are those of the first failing check. *)
Theorem C29_rejection_reason : forall P S h mode data e, bytes_ok data ->
  cert_validate P S h mode data = Ok (inr e) -> cert_rejects P S h mode data e.
Proof. intros P S h mode data e Hb H. exact (cert_validate_spec _ _ _ _ _ _ Hb H). Qed.
Print Assumptions C29_rejection_reason.

(** A station that presents certificates presents a chain its own anchor certifies. *)
Theorem C29_presented_chain : forall P S anchor_file chain_file h, bytes_ok chain_file ->
  make_industrial P S anchor_file chain_file = Ok (Some h) ->
  exists anchor chain leaf, h = Industrial anchor (wire_chain chain) /\ chain_ok chain /\ chain_certifies P anchor chain leaf.
Proof.
  intros P S af cf h Hb H. unfold make_industrial in H. destruct (read_anchor_cert af) as [anchor|]; [|discriminate].
  unfold verify_presented_chain in H. destruct (read_all container_read cf) as [file|e] eqn:Ec; [|discriminate].
  destruct (negb _); [discriminate|]. destruct (read_all chain_read (cf_payload file)) as [chain|e] eqn:Ech; [|discriminate].
  destruct (chain_verify P S anchor chain) as [[leaf|e]| |] eqn:Ev; cbn [obind] in H; try discriminate. injection H as <-.
  assert (Bp : bytes_ok (cf_payload file)).
  { apply (read_all_iff _ _ _ rlaw_container) in Ec as [[Hf _] _]; [exact Hf|exact Hb]. }
  apply chain_read_wire in Ech as [Hc Ew]; [|exact Bp]. exists anchor, chain, leaf. split; [rewrite Ew; reflexivity|]. split; [exact Hc|].
  eapply chain_verify_certifies; [eapply chain_verify_sup; exact Ev|apply Hc|exact Ev].
Qed.
Print Assumptions C29_presented_chain.
Example C29_instance : chain_verify toy sodium_supports hx_root hx_chain_i = Ok (inl hx_leaf_i) /\
  chain_verify toy sodium_supports hx_root (rev hx_chain_i) = Ok (inr he_authentication_error) /\
  chain_verify toy sodium_supports hx_mid hx_chain_i = Ok (inr he_authentication_error).
Proof. vm_compute. auto. Qed.

(** ** C30 *)

(** The clock plays no part in the decision on a request, so neither do expiry dates. *)
Theorem C30_decision_independent_of_time : forall E S h ans bytes now now' s s' out out' p p',
  respond_bytes E S h ans bytes now s = Ok (out, p) -> respond_bytes E S h ans bytes now' s' = Ok (out', p') -> out = out'.
Proof. exact respond_time. Qed.
Print Assumptions C30_decision_independent_of_time.

(** Certificates that expired in 1970 are accepted at any time. *)
Theorem C30_expired_rejected_refuted : exists E S static anchor mine ans m chain leaf,
  prims_ok (e_prims E) /\ answers_ok ans /\ request_ok m /\ rq_mode_data m = wire_chain chain /\ chain_certifies (e_prims E) anchor chain leaf /\
  cb_valid_before leaf = 2%N /\
  forall now, exists f s, respond_bytes E S (RPublicKey static (Industrial anchor mine)) ans (wire_request m) now new_session = Ok (Some f, s) /\ s_valid s = true.
Proof.
  exists (hx_E FRaw), sodium_supports, hx_static_r, hx_root, hx_data_r, hx_ans,
    (hx_req hm_industrial_certificates (hx_suite aes_256_gcm) (repeat 1%N 32) hx_data_i), hx_chain_i, hx_leaf_i.
  split; [exact toy_ok|]. split; [exact hx_ans_ok|]. split; [|split; [reflexivity|]].
  - unfold request_ok. cbn [hx_req rq_version rq_constraints rq_mode_ephemeral rq_mode_data]. repeat split; try (vm_compute; reflexivity); apply all_bytes_ok; vm_compute; reflexivity.
  - split; [|split; [reflexivity|]].
    + apply (chain_verify_certifies toy sodium_supports); [reflexivity| |vm_compute; reflexivity].
      repeat constructor; (apply all_bytes_ok; vm_compute; reflexivity) || (vm_compute; reflexivity).
    + intros now. eexists. eexists. split; [vm_compute; reflexivity|reflexivity].
Qed.
Print Assumptions C30_expired_rejected_refuted.

(** ** C36 for handshakes *)

(** No handshake request makes a responder read or write out of bounds, provided every public key
    it may come to use has 32 bytes: the preshared key resp. the keys in the certificates issued
    under its anchor.  Shared secret and quantum key responders need no proviso. *)
Theorem C36_responder_safe_partial : forall E S h ans bytes now s, sup_ed25519 S = true -> bytes_ok bytes ->
  (forall st c, h = RPublicKey st c -> long_keys (e_prims E) c) -> exists r, respond_bytes E S h ans bytes now s = Ok r.
Proof. exact respond_safe. Qed.
Print Assumptions C36_responder_safe_partial.
(** The same for the initiator, if in public key mode the reply's ephemeral key has 32 bytes. *)
Theorem C36_initiator_safe_partial : forall P S h i m bytes l now s, bytes_ok (rp_mode_data m) ->
  (forall suite st c, h = IPublicKey suite st c -> long_keys P c /\ 32 <= length (rp_mode_ephemeral m)) ->
  exists r, initialize_session P S h i m bytes l now s = Ok r.
Proof. exact initialize_session_safe. Qed.
Print Assumptions C36_initiator_safe_partial.
(** That length is not checked: in public key mode every reply with acceptable certificate data and
    an ephemeral key of less than 32 bytes makes the initiator read out of bounds, before any
    authentication (with preshared keys the acceptable certificate data is the empty one). *)
Theorem C36_short_ephemeral_refuted : forall P S suite st c i m bytes l now s key, sup_ed25519 S = true ->
  takes_key P c (rp_mode_data m) key -> length (rp_mode_ephemeral m) < 32 ->
  initialize_session P S (IPublicKey suite st c) i m bytes l now s = UB.
Proof. exact short_ephemeral. Qed.
Print Assumptions C36_short_ephemeral_refuted.
(** The seven-byte reply 01 0000 0001 00 00 does it. *)
Example C36_short_ephemeral_bytes : exists m, reply_read [1; 0; 0; 0; 1; 0; 0]%N = inl m /\
  forall i l now s, initialize_session toy sodium_supports (hx_hi 2) i m [1; 0; 0; 0; 1; 0; 0]%N l now s = UB.
Proof. eexists. split; [reflexivity|]. intros. reflexivity. Qed.
(** Nor is the length of the public key in a certificate checked: a certificate with a short key,
    if one was issued, makes the responder read out of bounds. *)
Theorem C36_short_certificate_key_refuted : exists E S static anchor mine ans m, prims_ok (e_prims E) /\ answers_ok ans /\ request_ok m /\
  32 <= length (cb_public_key anchor) /\
  forall now s, respond_bytes E S (RPublicKey static (Industrial anchor mine)) ans (wire_request m) now s = UB.
Proof.
  set (leaf := hx_body 0 pk_X25519 [1; 2; 3]%N).
  exists (hx_E FRaw), sodium_supports, hx_static_r, hx_root, hx_data_r, hx_ans,
    (hx_req hm_industrial_certificates (hx_suite aes_256_gcm) (repeat 1%N 32) (wire_chain [hx_sign hx_root leaf])).
  split; [exact toy_ok|]. split; [exact hx_ans_ok|]. split; [|split; [vm_compute; lia|]].
  - unfold request_ok. cbn [hx_req rq_version rq_constraints rq_mode_ephemeral rq_mode_data]. repeat split; try (vm_compute; reflexivity); apply all_bytes_ok; vm_compute; reflexivity.
  - intros now s. vm_compute. reflexivity.
Qed.
Print Assumptions C36_short_certificate_key_refuted.
Example C36_long_keys_instance : long_keys toy (Preshared (cb_public_key hx_leaf_i)).
Proof. vm_compute. lia. Qed.
(** An authority that only signs certificates with 32-byte keys. *)
Definition toy_careful : prims :=
  {| p_sha256 := p_sha256 toy; p_hmac := p_hmac toy; p_dh := p_dh toy; p_dh_public := p_dh_public toy;
     p_verify m s k := p_verify toy m s k && match read_all body_read m with inl b => length (cb_public_key b) =? 32 | inr _ => false end;
     p_gcm_encrypt := p_gcm_encrypt toy; p_gcm_decrypt := p_gcm_decrypt toy |}.
Example C36_long_keys_certificates : long_keys toy_careful (Industrial hx_root hx_data_r) /\
  chain_verify toy_careful sodium_supports hx_root hx_chain_i = Ok (inl hx_leaf_i).
Proof.
  split; [|vm_compute; reflexivity]. cbn [long_keys].
  assert (G : forall c a b, issue_path toy_careful a c b -> 32 <= length (cb_public_key a) -> 32 <= length (cb_public_key b)).
  { intros c a b H. induction H as [a|a env b rest leaf I _ IH]; intros Ha; [exact Ha|]. apply IH. destruct I as [_ [_ V] [Bo Bw] _ _].
    cbn [toy_careful p_verify] in V. apply andb_prop in V as [_ V].
    assert (R : read_all body_read (env_body env) = inl b) by (apply body_read_wire; [rewrite Bw; apply wire_body_bytes, Bo|auto]).
    rewrite R in V. apply Nat.eqb_eq in V. lia. }
  intros chain b H. eapply G; [exact H|]. vm_compute. lia.
Qed.
