(** * C10, C11, C12, C13: the message, certificate and container codecs *)
From Verif Require Import Base BaseFacts Codec CodecSpec CodecFacts.

(** ** RequestHandshakeBegin *)

Theorem C11_request_parse_iff_wire : forall inp m, bytes_ok inp ->
  (request_read inp = inl m <-> request_ok m /\ inp = wire_request m).
Proof. intros inp m Hi. exact (read_message_iff request_handshake_begin _ _ _ rlaw_request_fields inp m Hi). Qed.
Print Assumptions C11_request_parse_iff_wire.

Theorem C11_request_no_two_encodings : forall a b m, bytes_ok a -> bytes_ok b ->
  request_read a = inl m -> request_read b = inl m -> a = b.
Proof. intros a b m Ha Hb H1 H2. apply C11_request_parse_iff_wire in H1 as [_ ->]; [|exact Ha]. apply C11_request_parse_iff_wire in H2 as [_ ->]; [|exact Hb]. reflexivity. Qed.
Print Assumptions C11_request_no_two_encodings.

Theorem C10_request_round_trip : forall m space, request_ok m -> length (wire_request m) <= space ->
  request_write m space = WOk (wire_request m) /\ request_read (wire_request m) = inl m.
Proof. intros m space H Hs. split; [rewrite (wlaw_request m H space), (proj2 (Nat.leb_le _ _) Hs); reflexivity|]. apply C11_request_parse_iff_wire; [apply (wire_request_bytes m H)|auto]. Qed.
Print Assumptions C10_request_round_trip.

Theorem C13_request_write_size : forall m space, request_ok m ->
  length (wire_request m) = request_size m /\
  request_write m space = if request_size m <=? space then WOk (wire_request m) else WErr.
Proof. intros m space H. rewrite <- (request_size_ok m H). split; [reflexivity|exact (wlaw_request m H space)]. Qed.
Print Assumptions C13_request_write_size.

Theorem C13_request_rejects_trailing : forall m x rest, request_ok m ->
  request_read (wire_request m ++ x :: rest) = inr too_many_bytes.
Proof. exact (read_message_trailing request_handshake_begin _ _ _ rlaw_request_fields). Qed.
Print Assumptions C13_request_rejects_trailing.

Theorem C13_request_rejects_other_functions : forall g rest, g <> request_handshake_begin ->
  request_read (function_to g :: rest) = inr unexpected_function.
Proof. intros g rest Hg. apply read_message_wrong_function. congruence. Qed.
Print Assumptions C13_request_rejects_other_functions.

(** ** ReplyHandshakeBegin *)

Theorem C11_reply_parse_iff_wire : forall inp m, bytes_ok inp ->
  (reply_read inp = inl m <-> reply_ok m /\ inp = wire_reply m).
Proof. intros inp m Hi. exact (read_message_iff reply_handshake_begin _ _ _ rlaw_reply_fields inp m Hi). Qed.
Print Assumptions C11_reply_parse_iff_wire.

Theorem C11_reply_no_two_encodings : forall a b m, bytes_ok a -> bytes_ok b ->
  reply_read a = inl m -> reply_read b = inl m -> a = b.
Proof. intros a b m Ha Hb H1 H2. apply C11_reply_parse_iff_wire in H1 as [_ ->]; [|exact Ha]. apply C11_reply_parse_iff_wire in H2 as [_ ->]; [|exact Hb]. reflexivity. Qed.
Print Assumptions C11_reply_no_two_encodings.

Theorem C10_reply_round_trip : forall m space, reply_ok m -> length (wire_reply m) <= space ->
  reply_write m space = WOk (wire_reply m) /\ reply_read (wire_reply m) = inl m.
Proof. intros m space H Hs. split; [rewrite (wlaw_reply m H space), (proj2 (Nat.leb_le _ _) Hs); reflexivity|]. apply C11_reply_parse_iff_wire; [apply (wire_reply_bytes m H)|auto]. Qed.
Print Assumptions C10_reply_round_trip.

Theorem C13_reply_write_size : forall m space, reply_ok m ->
  length (wire_reply m) = reply_size m /\
  reply_write m space = if reply_size m <=? space then WOk (wire_reply m) else WErr.
Proof. intros m space H. rewrite <- (reply_size_ok m H). split; [reflexivity|exact (wlaw_reply m H space)]. Qed.
Print Assumptions C13_reply_write_size.

Theorem C13_reply_rejects_trailing : forall m x rest, reply_ok m ->
  reply_read (wire_reply m ++ x :: rest) = inr too_many_bytes.
Proof. exact (read_message_trailing reply_handshake_begin _ _ _ rlaw_reply_fields). Qed.
Print Assumptions C13_reply_rejects_trailing.

Theorem C13_reply_rejects_other_functions : forall g rest, g <> reply_handshake_begin ->
  reply_read (function_to g :: rest) = inr unexpected_function.
Proof. intros g rest Hg. apply read_message_wrong_function. congruence. Qed.
Print Assumptions C13_reply_rejects_other_functions.

(** ** ReplyHandshakeError *)

Theorem C11_error_parse_iff_wire : forall inp m, bytes_ok inp ->
  (error_read inp = inl m <-> error_ok m /\ inp = wire_error m).
Proof. intros inp m Hi. exact (read_message_iff reply_handshake_error _ _ _ rlaw_error_fields inp m Hi). Qed.
Print Assumptions C11_error_parse_iff_wire.

Theorem C11_error_no_two_encodings : forall a b m, bytes_ok a -> bytes_ok b ->
  error_read a = inl m -> error_read b = inl m -> a = b.
Proof. intros a b m Ha Hb H1 H2. apply C11_error_parse_iff_wire in H1 as [_ ->]; [|exact Ha]. apply C11_error_parse_iff_wire in H2 as [_ ->]; [|exact Hb]. reflexivity. Qed.
Print Assumptions C11_error_no_two_encodings.

Theorem C10_error_round_trip : forall m space, error_ok m -> length (wire_error m) <= space ->
  error_write m space = WOk (wire_error m) /\ error_read (wire_error m) = inl m.
Proof. intros m space H Hs. split; [rewrite (wlaw_error m space), (proj2 (Nat.leb_le _ _) Hs); reflexivity|]. apply C11_error_parse_iff_wire; [apply (wire_error_bytes m)|auto]. Qed.
Print Assumptions C10_error_round_trip.

Theorem C13_error_write_size : forall m space, error_ok m ->
  length (wire_error m) = error_size m /\
  error_write m space = if error_size m <=? space then WOk (wire_error m) else WErr.
Proof. intros m space H. rewrite <- (error_size_ok m). split; [reflexivity|exact (wlaw_error m space)]. Qed.
Print Assumptions C13_error_write_size.

Theorem C13_error_rejects_trailing : forall m x rest, error_ok m ->
  error_read (wire_error m ++ x :: rest) = inr too_many_bytes.
Proof. exact (read_message_trailing reply_handshake_error _ _ _ rlaw_error_fields). Qed.
Print Assumptions C13_error_rejects_trailing.

Theorem C13_error_rejects_other_functions : forall g rest, g <> reply_handshake_error ->
  error_read (function_to g :: rest) = inr unexpected_function.
Proof. intros g rest Hg. apply read_message_wrong_function. congruence. Qed.
Print Assumptions C13_error_rejects_other_functions.

(** ** SessionData *)

Theorem C11_session_data_parse_iff_wire : forall inp m, bytes_ok inp ->
  (session_data_read inp = inl m <-> session_data_ok m /\ inp = wire_session_data m).
Proof. intros inp m Hi. exact (read_message_iff session_data _ _ _ rlaw_session_data_fields inp m Hi). Qed.
Print Assumptions C11_session_data_parse_iff_wire.

Theorem C11_session_data_no_two_encodings : forall a b m, bytes_ok a -> bytes_ok b ->
  session_data_read a = inl m -> session_data_read b = inl m -> a = b.
Proof. intros a b m Ha Hb H1 H2. apply C11_session_data_parse_iff_wire in H1 as [_ ->]; [|exact Ha]. apply C11_session_data_parse_iff_wire in H2 as [_ ->]; [|exact Hb]. reflexivity. Qed.
Print Assumptions C11_session_data_no_two_encodings.

Theorem C10_session_data_round_trip : forall m space, session_data_ok m -> length (wire_session_data m) <= space ->
  session_data_write m space = WOk (wire_session_data m) /\ session_data_read (wire_session_data m) = inl m.
Proof. intros m space H Hs. split; [rewrite (wlaw_session_data m H space), (proj2 (Nat.leb_le _ _) Hs); reflexivity|]. apply C11_session_data_parse_iff_wire; [apply (wire_session_data_bytes m H)|auto]. Qed.
Print Assumptions C10_session_data_round_trip.

Theorem C13_session_data_write_size : forall m space, session_data_ok m ->
  length (wire_session_data m) = session_data_size m /\
  session_data_write m space = if session_data_size m <=? space then WOk (wire_session_data m) else WErr.
Proof. intros m space H. rewrite <- (session_data_size_ok m H). split; [reflexivity|exact (wlaw_session_data m H space)]. Qed.
Print Assumptions C13_session_data_write_size.

Theorem C13_session_data_rejects_trailing : forall m x rest, session_data_ok m ->
  session_data_read (wire_session_data m ++ x :: rest) = inr too_many_bytes.
Proof. exact (read_message_trailing session_data _ _ _ rlaw_session_data_fields). Qed.
Print Assumptions C13_session_data_rejects_trailing.

Theorem C13_session_data_rejects_other_functions : forall g rest, g <> session_data ->
  session_data_read (function_to g :: rest) = inr unexpected_function.
Proof. intros g rest Hg. apply read_message_wrong_function. congruence. Qed.
Print Assumptions C13_session_data_rejects_other_functions.

(** ** CertificateBody *)

Theorem C11_body_parse_iff_wire : forall inp m, bytes_ok inp ->
  (read_all body_read inp = inl m <-> body_ok m /\ inp = wire_body m).
Proof. intros inp m Hi. exact (read_all_iff _ _ _ rlaw_body inp m Hi). Qed.
Print Assumptions C11_body_parse_iff_wire.

Theorem C11_body_no_two_encodings : forall a b m, bytes_ok a -> bytes_ok b ->
  read_all body_read a = inl m -> read_all body_read b = inl m -> a = b.
Proof. intros a b m Ha Hb H1 H2. apply C11_body_parse_iff_wire in H1 as [_ ->]; [|exact Ha]. apply C11_body_parse_iff_wire in H2 as [_ ->]; [|exact Hb]. reflexivity. Qed.
Print Assumptions C11_body_no_two_encodings.

Theorem C10_body_round_trip : forall m space, body_ok m -> length (wire_body m) <= space ->
  body_write m space = WOk (wire_body m) /\ read_all body_read (wire_body m) = inl m.
Proof. intros m space H Hs. split; [rewrite (wlaw_body m H space), (proj2 (Nat.leb_le _ _) Hs); reflexivity|]. apply C11_body_parse_iff_wire; [apply (wire_body_bytes m H)|auto]. Qed.
Print Assumptions C10_body_round_trip.

Theorem C13_body_write_size : forall m space, body_ok m ->
  length (wire_body m) = body_size m /\
  body_write m space = if body_size m <=? space then WOk (wire_body m) else WErr.
Proof. intros m space H. rewrite <- (body_size_ok m H). split; [reflexivity|exact (wlaw_body m H space)]. Qed.
Print Assumptions C13_body_write_size.

Theorem C13_body_rejects_trailing : forall m x rest, body_ok m ->
  read_all body_read (wire_body m ++ x :: rest) = inr too_many_bytes.
Proof. exact (read_all_trailing _ _ _ rlaw_body). Qed.
Print Assumptions C13_body_rejects_trailing.

(** ** CertificateEnvelope *)

Theorem C11_envelope_parse_iff_wire : forall inp m, bytes_ok inp ->
  (read_all envelope_read inp = inl m <-> envelope_ok m /\ inp = wire_envelope m).
Proof. intros inp m Hi. exact (read_all_iff _ _ _ rlaw_envelope inp m Hi). Qed.
Print Assumptions C11_envelope_parse_iff_wire.

Theorem C11_envelope_no_two_encodings : forall a b m, bytes_ok a -> bytes_ok b ->
  read_all envelope_read a = inl m -> read_all envelope_read b = inl m -> a = b.
Proof. intros a b m Ha Hb H1 H2. apply C11_envelope_parse_iff_wire in H1 as [_ ->]; [|exact Ha]. apply C11_envelope_parse_iff_wire in H2 as [_ ->]; [|exact Hb]. reflexivity. Qed.
Print Assumptions C11_envelope_no_two_encodings.

Theorem C10_envelope_round_trip : forall m space, envelope_ok m -> length (wire_envelope m) <= space ->
  envelope_write m space = WOk (wire_envelope m) /\ read_all envelope_read (wire_envelope m) = inl m.
Proof. intros m space H Hs. split; [rewrite (wlaw_envelope m H space), (proj2 (Nat.leb_le _ _) Hs); reflexivity|]. apply C11_envelope_parse_iff_wire; [apply (wire_envelope_bytes m H)|auto]. Qed.
Print Assumptions C10_envelope_round_trip.

Theorem C13_envelope_write_size : forall m space, envelope_ok m ->
  length (wire_envelope m) = envelope_size m /\
  envelope_write m space = if envelope_size m <=? space then WOk (wire_envelope m) else WErr.
Proof. intros m space H. rewrite <- (envelope_size_ok m H). split; [reflexivity|exact (wlaw_envelope m H space)]. Qed.
Print Assumptions C13_envelope_write_size.

Theorem C13_envelope_rejects_trailing : forall m x rest, envelope_ok m ->
  read_all envelope_read (wire_envelope m ++ x :: rest) = inr too_many_bytes.
Proof. exact (read_all_trailing _ _ _ rlaw_envelope). Qed.
Print Assumptions C13_envelope_rejects_trailing.

(** ** (list CertificateEnvelope) *)

Theorem C11_chain_parse_iff_wire : forall inp m, bytes_ok inp ->
  (read_all chain_read inp = inl m <-> chain_ok m /\ inp = wire_chain m).
Proof. intros inp m Hi. exact (read_all_iff _ _ _ rlaw_chain inp m Hi). Qed.
Print Assumptions C11_chain_parse_iff_wire.

Theorem C11_chain_no_two_encodings : forall a b m, bytes_ok a -> bytes_ok b ->
  read_all chain_read a = inl m -> read_all chain_read b = inl m -> a = b.
Proof. intros a b m Ha Hb H1 H2. apply C11_chain_parse_iff_wire in H1 as [_ ->]; [|exact Ha]. apply C11_chain_parse_iff_wire in H2 as [_ ->]; [|exact Hb]. reflexivity. Qed.
Print Assumptions C11_chain_no_two_encodings.

Theorem C10_chain_round_trip : forall m space, chain_ok m -> length (wire_chain m) <= space ->
  chain_write m space = WOk (wire_chain m) /\ read_all chain_read (wire_chain m) = inl m.
Proof. intros m space H Hs. split; [rewrite (wlaw_chain m H space), (proj2 (Nat.leb_le _ _) Hs); reflexivity|]. apply C11_chain_parse_iff_wire; [apply (wire_chain_bytes m H)|auto]. Qed.
Print Assumptions C10_chain_round_trip.

Theorem C13_chain_write_size : forall m space, chain_ok m ->
  length (wire_chain m) = chain_size m /\
  chain_write m space = if chain_size m <=? space then WOk (wire_chain m) else WErr.
Proof. intros m space H. rewrite <- (chain_size_ok m H). split; [reflexivity|exact (wlaw_chain m H space)]. Qed.
Print Assumptions C13_chain_write_size.

Theorem C13_chain_rejects_trailing : forall m x rest, chain_ok m ->
  read_all chain_read (wire_chain m ++ x :: rest) = inr too_many_bytes.
Proof. exact (read_all_trailing _ _ _ rlaw_chain). Qed.
Print Assumptions C13_chain_rejects_trailing.

(** ** ContainerFile *)

Theorem C11_container_parse_iff_wire : forall inp m, bytes_ok inp ->
  (read_all container_read inp = inl m <-> container_ok m /\ inp = wire_container m).
Proof. intros inp m Hi. exact (read_all_iff _ _ _ rlaw_container inp m Hi). Qed.
Print Assumptions C11_container_parse_iff_wire.

Theorem C11_container_no_two_encodings : forall a b m, bytes_ok a -> bytes_ok b ->
  read_all container_read a = inl m -> read_all container_read b = inl m -> a = b.
Proof. intros a b m Ha Hb H1 H2. apply C11_container_parse_iff_wire in H1 as [_ ->]; [|exact Ha]. apply C11_container_parse_iff_wire in H2 as [_ ->]; [|exact Hb]. reflexivity. Qed.
Print Assumptions C11_container_no_two_encodings.

Theorem C10_container_round_trip : forall m space, container_ok m -> length (wire_container m) <= space ->
  container_write m space = WOk (wire_container m) /\ read_all container_read (wire_container m) = inl m.
Proof. intros m space H Hs. split; [rewrite (wlaw_container m H space), (proj2 (Nat.leb_le _ _) Hs); reflexivity|]. apply C11_container_parse_iff_wire; [apply (wire_container_bytes m H)|auto]. Qed.
Print Assumptions C10_container_round_trip.

Theorem C13_container_write_size : forall m space, container_ok m ->
  length (wire_container m) = container_size m /\
  container_write m space = if container_size m <=? space then WOk (wire_container m) else WErr.
Proof. intros m space H. rewrite <- (container_size_ok m H). split; [reflexivity|exact (wlaw_container m H space)]. Qed.
Print Assumptions C13_container_write_size.

Theorem C13_container_rejects_trailing : forall m x rest, container_ok m ->
  read_all container_read (wire_container m ++ x :: rest) = inr too_many_bytes.
Proof. exact (read_all_trailing _ _ _ rlaw_container). Qed.
Print Assumptions C13_container_rejects_trailing.

(** ** Variable-length integers *)

(** Reading accepts exactly the shortest encodings of 32-bit values, and leaves the rest. *)
Theorem C12_vlength_read_iff : forall inp v rest, bytes_ok inp ->
  (vlength_read inp = POk v rest <-> (v < 2 ^ 32)%N /\ inp = der_length v ++ rest).
Proof.
  intros inp v rest Hi. split; [apply (proj2 rlaw_vlength), Hi|]. intros [Hv ->]. apply (proj1 rlaw_vlength), Hv.
Qed.
Print Assumptions C12_vlength_read_iff.

Theorem C12_vlength_write : forall v space, (v < 2 ^ 32)%N ->
  length (der_length v) = vlength_size v /\
  vlength_write v space = if vlength_size v <=? space then WOk (der_length v) else WErr.
Proof.
  intros v space H. rewrite <- (vlength_size_ok v H). split; [reflexivity|exact (wlaw_vlength v H space)].
Qed.
Print Assumptions C12_vlength_write.

(** No shorter encoding in the same scheme denotes the same value: k bytes cannot hold v for any smaller k. *)
Theorem C12_vlength_shortest : forall v k, (128 <= v)%N -> (v < 2 ^ 32)%N ->
  (v < 256 ^ N.of_nat k)%N -> num_values_bytes v <= k /\ (v < 256 ^ N.of_nat (num_values_bytes v))%N.
Proof.
  intros v k H Hm Hk. unfold num_values_bytes.
  assert (P : forall n, (n <= k)%nat \/ (256 ^ N.of_nat k <= 256 ^ N.of_nat (n - 1))%N).
  { intros n. destruct (Nat.le_gt_cases n k); [left; lia|right]. apply N.pow_le_mono_r; lia. }
  destruct (N.leb_spec v 127); [lia|].
  destruct (N.leb_spec v 255); [pose proof (P 1); cbn in *; lia|].
  destruct (N.leb_spec v 65535); [pose proof (P 2); cbn in *; lia|].
  destruct (N.leb_spec v 16777215); [pose proof (P 3); cbn in *; lia|].
  pose proof (P 4); cbn in *; lia.
Qed.
Print Assumptions C12_vlength_shortest.

(** ** Non-vacuity *)

Ltac okseq := split; [repeat constructor; unfold byte_ok; lia|cbn; lia].

Definition ex_request : RequestHandshakeBegin :=
  {| rq_version := {| major_version := 0; minor_version := 1 |};
     rq_spec := {| sp_ephemeral := he_nonce; sp_hash := hash_sha256; sp_kdf := kdf_hkdf_sha256;
                   sp_nonce_mode := greater_than_last_rx; sp_crypto_mode := aes_256_gcm |};
     rq_constraints := {| sc_max_nonce := 65535; sc_max_session_duration := 3600000 |};
     rq_mode := hm_shared_secret; rq_mode_ephemeral := repeat 7%N 200; rq_mode_data := [1; 2; 255]%N |}.
Example ex_request_ok : request_ok ex_request /\ length (wire_request ex_request) = 223
  /\ request_read (wire_request ex_request) = inl ex_request.
Proof.
  assert (H : request_ok ex_request).
  { repeat split; cbn; try lia; repeat constructor; unfold byte_ok; lia. }
  split; [exact H|]. split; [vm_compute; reflexivity|vm_compute; reflexivity].
Qed.

Definition ex_body : CertificateBody :=
  {| cb_valid_after := 1000; cb_valid_before := 18446744073709551615; cb_signing_level := 3;
     cb_key_type := pk_Ed25519; cb_public_key := repeat 9%N 32;
     cb_extensions := [{| ex_identifier := 4294967295; ex_body := [1; 2] |}; {| ex_identifier := 0; ex_body := [] |}]%N |}.
Example ex_body_ok : body_ok ex_body /\ read_all body_read (wire_body ex_body) = inl ex_body.
Proof.
  split; [|vm_compute; reflexivity].
  repeat split; cbn; try lia; repeat constructor; unfold byte_ok; cbn; lia.
Qed.

(** A non-minimal length is rejected; a sixth extension is rejected. *)
Example ex_bad_vlength : vlength_read [0x82; 0; 200]%N = PErr bad_vlength.
Proof. reflexivity. Qed.
Example ex_too_many : structs_read extension_read max_extensions (6 :: concat (repeat [0; 0; 0; 1; 0]%N 6))%N = PErr impl_capacity_limit.
Proof. vm_compute. reflexivity. Qed.
