(** * C54: what the certificate tool shows is what is in the file *)
From Verif Require Import Base BaseFacts Codec CodecSpec CodecFacts Link LinkLayer Primitives Session Handshake HandshakeSpec HandshakeFacts Icf IcfSpec IcfFacts Print PrintSpec PrintFacts PropIcf.
From Coq Require Import Ascii String.

(** A file is shown completely exactly when it can be read and holds a key, or a chain whose
    certificates are well-formed; the text is then that of its content. *)
Theorem C54_shows : forall f name p, files_ok f ->
  ((exists t, display f name p = (t, true)) <-> (exists d c, readable f p d /\ holds d c)) /\
  (forall d c, readable f p d -> holds d c -> exists t, display f name p = (t, true) /\ shows name c t).
Proof.
  intros f name p F. split; [split|].
  - intros (t & H). exact (display_only f name p t F H).
  - intros (d & c & R & H). destruct (display_shows f name p d c F R H) as (t & E & _). eauto.
  - intros d c R H. exact (display_shows f name p d c F R H).
Qed.
Print Assumptions C54_shows.

(** A text can be read in only one way: no two contents are shown by the same text. *)
Theorem C54_unambiguous : forall name d d' c c' t, holds d c -> holds d' c' -> shows name c t -> shows name c' t -> c = c' /\ d = d'.
Proof.
  intros name d d' c c' t H H' S S'.
  assert (E : c = c') by (eapply shows_determines; eauto; [intros k x ->; apply H|intros k x ->; apply H']). split; [exact E|]. subst c'.
  destruct c as [k x|l]; cbn [holds] in H, H'; [destruct H as [_ ->], H' as [_ ->]|destruct H as (_ & _ & ->), H' as (_ & _ & ->)]; reflexivity.
Qed.
Print Assumptions C54_unambiguous.

(** Two files whose complete texts agree (up to their names) are the same, byte for byte: nothing
    in a file escapes the reader of the text. *)
Theorem C54_determines : forall f f' name p q t, files_ok f -> files_ok f' -> display f name p = (t, true) -> display f' name q = (t, true) ->
  exists d, f p = Some d /\ f' q = Some d.
Proof.
  intros f f' name p q t F F' H H'. destruct (display_only _ _ _ _ F H) as (d & c & R & K). destruct (display_only _ _ _ _ F' H') as (d' & c' & R' & K').
  destruct (display_shows _ name _ _ _ F R K) as (u & E & S). destruct (display_shows _ name _ _ _ F' R' K') as (u' & E' & S').
  rewrite H in E. rewrite H' in E'. injection E as <-. injection E' as <-. destruct (C54_unambiguous _ _ _ _ _ _ K K' S S') as [_ <-]. exists d. split; [apply R|apply R'].
Qed.
Print Assumptions C54_determines.

(** When the tool has made a certificate, the text it shows at the end is that of the certificate in the
    file, with the times, the level and the key that were asked for. *)
Theorem C54_created : forall P G k f name certificate public private after before level f',
  signer_ok P G -> files_ok f -> (after < 2 ^ 64)%N -> (before < 2 ^ 64)%N -> (level < 2 ^ 8)%N ->
  create_certificate G k f certificate public private (after, before) level = Ok (f', true) ->
  exists e t pk text, readable f public (file_of (public_entry t) pk) /\
    f' certificate = Some (chain_file [e]) /\ display f' name certificate = (text, true) /\
    shows name (Certificates [(e, plain_body after before level t pk)]) text.
Proof.
  intros P G k f name cp pu pr a b l f' S F Ha Hb Hl H. destruct (C43_create_only P G k f cp pu pr a b l f' S F Ha Hb Hl H) as (t & key & pk & R1 & L1 & R2 & L2 & ->).
  assert (Bk : bytes_ok pk).
  { assert (B : bytes_ok (file_of (public_entry t) pk)) by (eapply F; apply R2). unfold file_of, wire_container, wire_seq in B. cbn [cf_payload] in B. apply bytes_ok_app in B as [_ B]. apply bytes_ok_app in B as [_ B]. exact B. }
  destruct (signed_small P G (firstn 64 key) a b l t pk S Ha Hb Hl L2 Bk) as (K & Sm). set (e := signed G (firstn 64 key) (plain_body a b l t pk)) in *.
  destruct (chain1_ok e Sm) as (C & Q & Len).
  assert (F' : files_ok (set_file f cp (chain_file [e]))).
  { intros q d. unfold set_file. destruct (N.eqb q cp); [|apply F]. intros [= <-]. unfold chain_file, file_of. apply wire_container_bytes. exact Q. }
  assert (R' : readable (set_file f cp (chain_file [e])) cp (chain_file [e])) by (split; [unfold set_file; rewrite N.eqb_refl; reflexivity|rewrite Len; lia]).
  destruct (display_shows _ name _ _ (Certificates [(e, plain_body a b l t pk)]) F' R') as (x & E & X).
  { split; [constructor; [|constructor]|]; [|split; [cbn; lia|reflexivity]]. split; [apply Sm|]. split; [exact K|reflexivity]. }
  exists e, t, pk, x. split; [exact R2|]. split; [apply R'|]. split; [exact E|exact X].
Qed.
Print Assumptions C54_created.

(** The messages of the protocol: what is given to the log about a message determines all of it *)
Theorem C54_messages :
  (forall a b, request_items a = request_items b -> a = b) /\ (forall a b, reply_items a = reply_items b -> a = b) /\
  (forall a b, error_items a = error_items b -> a = b) /\ (forall a b, session_data_items a = session_data_items b -> a = b).
Proof.
  assert (V : forall v w : Version, major_version v = major_version w -> minor_version v = minor_version w -> v = w) by (intros [] []; cbn; congruence).
  split; [|split; [|split]]; intros a b H.
  - unfold request_items, version_items, spec_items, constraints_items in H. cbn [app] in H. injection H. clear H. intros.
    destruct a as [v s c m x y], b as [v' s' c' m' x' y']; cbn [rq_version rq_spec rq_constraints rq_mode rq_mode_ephemeral rq_mode_data] in *.
    assert (v = v') by (apply V; assumption). assert (m = m') by (destruct m, m'; cbn in *; congruence).
    destruct s as [s1 s2 s3 s4 s5], s' as [s1' s2' s3' s4' s5'], c as [c1 c2], c' as [c1' c2']; cbn [sp_ephemeral sp_hash sp_kdf sp_nonce_mode sp_crypto_mode sc_max_nonce sc_max_session_duration] in *.
    assert (s1 = s1') by (destruct s1, s1'; cbn in *; congruence). assert (s2 = s2') by (destruct s2, s2'; reflexivity). assert (s3 = s3') by (destruct s3, s3'; reflexivity).
    assert (s4 = s4') by (destruct s4, s4'; cbn in *; congruence). assert (s5 = s5') by (destruct s5, s5'; cbn in *; congruence). congruence.
  - unfold reply_items, version_items in H. cbn [app] in H. injection H as H1 H2 H3 H4. destruct a, b; cbn in *. rewrite (V _ _ H1 H2). congruence.
  - unfold error_items, version_items in H. cbn [app] in H. injection H as H1 H2 H3. destruct a as [v e], b as [v' e']; cbn in *. rewrite (V _ _ H1 H2). f_equal. clear -H3. destruct e, e'; try reflexivity; discriminate H3.
  - unfold session_data_items, metadata_items in H. cbn [app] in H. injection H as H1 H2 H3 H4. destruct a as [[] ? ?], b as [[] ? ?]; cbn in *. congruence.
Qed.
Print Assumptions C54_messages.

(** ** Examples *)
Definition pr_body : CertificateBody :=
  {| cb_valid_after := 0; cb_valid_before := 1700000000000; cb_signing_level := 255; cb_key_type := pk_X25519; cb_public_key := map N.of_nat (List.seq 1 32);
     cb_extensions := [{| ex_identifier := 70000; ex_body := [1; 2; 255]%N |}; {| ex_identifier := 10; ex_body := [] |}] |}.
Definition pr_envelope : CertificateEnvelope := {| env_signature := [10; 171]%N; env_body := wire_body pr_body |}.
Definition pr_files : files := fun p => match p with
  | 0%N => Some (file_of ce_shared_secret (map N.of_nat (List.seq 240 16) ++ [0; 9; 10]%N))
  | 1%N => Some (chain_file [pr_envelope; pr_envelope])
  | _ => None end.
Definition lines (l : list string) : text := List.concat (map (fun s => str s ++ [10%N]) l).
Example C54_key_instance : display pr_files (str "a.icf") 0 = (lines
  ["File: a.icf"; "Type: shared_secret"; "  key-data (length == 19)"; "    f0:f1:f2:f3:f4:f5:f6:f7:f8:f9:fa:fb:fc:fd:fe:ff"; "    00:09:0a"; ""]%string, true).
Proof. vm_compute. reflexivity. Qed.
Example C54_chain_instance : display pr_files (str "b.icf") 1 = (lines
  ["File: b.icf"; "Type: certificate_chain";
   ""; "certificate #1"; "  signature (length == 2)"; "    0a:ab"; "  certificate_body (length == 65)";
   "    00:00:00:00:00:00:00:00:00:00:01:8b:cf:e5:68:00"; "    ff:01:20:01:02:03:04:05:06:07:08:09:0a:0b:0c:0d"; "    0e:0f:10:11:12:13:14:15:16:17:18:19:1a:1b:1c:1d";
   "    1e:1f:20:02:00:01:11:70:03:01:02:ff:00:00:00:0a"; "    00";
   "      valid_after: 0"; "      valid_before: 1700000000000"; "      signing_level: 255"; "      public_key_type: X25519"; "      public_key (length == 32)";
   "        01:02:03:04:05:06:07:08:09:0a:0b:0c:0d:0e:0f:10"; "        11:12:13:14:15:16:17:18:19:1a:1b:1c:1d:1e:1f:20";
   "      extensions (count = 2)"; "      field #1"; "      identifier: 70000"; "      extension_body (length == 3)"; "        01:02:ff"; "      field #2"; "      identifier: 10"; "      extension_body (length == 0)";
   ""; "certificate #2"; "    signature (length == 2)"; "      0a:ab"; "    certificate_body (length == 65)";
   "      00:00:00:00:00:00:00:00:00:00:01:8b:cf:e5:68:00"; "      ff:01:20:01:02:03:04:05:06:07:08:09:0a:0b:0c:0d"; "      0e:0f:10:11:12:13:14:15:16:17:18:19:1a:1b:1c:1d";
   "      1e:1f:20:02:00:01:11:70:03:01:02:ff:00:00:00:0a"; "      00";
   "        valid_after: 0"; "        valid_before: 1700000000000"; "        signing_level: 255"; "        public_key_type: X25519"; "        public_key (length == 32)";
   "          01:02:03:04:05:06:07:08:09:0a:0b:0c:0d:0e:0f:10"; "          11:12:13:14:15:16:17:18:19:1a:1b:1c:1d:1e:1f:20";
   "        extensions (count = 2)"; "        field #1"; "        identifier: 70000"; "        extension_body (length == 3)"; "          01:02:ff"; "        field #2"; "        identifier: 10"; "        extension_body (length == 0)";
   ""]%string, true).
Proof. vm_compute. reflexivity. Qed.
