(** * IcfFacts: proofs about the certificate tool *)
From Verif Require Import Base BaseFacts Codec CodecSpec CodecFacts Link LinkLayer Primitives Session Handshake HandshakeSpec HandshakeFacts Icf IcfSpec.

Lemma to_buffer_ok {A} size (write : A -> writer) v enc : wlaw enc (write v) -> length enc = size v -> to_buffer size write v = Some enc.
Proof. intros W L. unfold to_buffer. rewrite W, L, Nat.leb_refl, L, Nat.ltb_irrefl. reflexivity. Qed.
Lemma to_buffer_body b : body_ok b -> to_buffer body_size body_write b = Some (wire_body b).
Proof. intros H. apply to_buffer_ok; [apply wlaw_body, H|apply body_size_ok, H]. Qed.
Lemma to_buffer_chain c : chain_ok c -> to_buffer chain_size chain_write c = Some (wire_chain c).
Proof. intros H. apply to_buffer_ok; [apply wlaw_chain, H|apply chain_size_ok, H]. Qed.
Lemma to_buffer_container c : container_ok c -> to_buffer container_size container_write c = Some (wire_container c).
Proof. intros H. apply to_buffer_ok; [apply wlaw_container, H|apply container_size_ok, H]. Qed.
Lemma file_write_ok k f p c : container_ok c -> file_write k f p c = file_put k f p (wire_container c).
Proof. intros H. unfold file_write. rewrite to_buffer_container by exact H. reflexivity. Qed.
Lemma write_ok k f p t d : seq_ok d -> actions_write k f p t d = file_put k f p (file_of t d).
Proof. intros H. unfold actions_write. apply file_write_ok. exact H. Qed.

Lemma set_same f p d : set_file f p d p = Some d.
Proof. unfold set_file. rewrite N.eqb_refl. reflexivity. Qed.
Lemma set_other f p d q : q <> p -> set_file f p d q = f q.
Proof. intros H. unfold set_file. apply N.eqb_neq in H. rewrite H. reflexivity. Qed.

Lemma file_read_iff f p d : file_read f p = Some d <-> readable f p d.
Proof.
  unfold file_read, readable. destruct (f p) as [x|]; [|split; [discriminate|intros [? ?]; discriminate]].
  destruct (Nat.leb_spec (length x) 0); [split; [discriminate|intros [[= ->] ?]; lia]|].
  destruct (Nat.ltb_spec 4096 (length x)); [split; [discriminate|intros [[= ->] ?]; lia]|].
  split; [intros [= ->]; split; [reflexivity|lia]|intros [[= ->] _]; reflexivity].
Qed.
Lemma read_container_iff f p c : files_ok f -> (read_container f p = Some c <-> container_ok c /\ readable f p (wire_container c)).
Proof.
  intros F. unfold read_container. destruct (file_read f p) as [d|] eqn:E.
  - apply file_read_iff in E. assert (B : bytes_ok d) by (eapply F; apply E).
    destruct (read_all container_read d) as [c'|e] eqn:R.
    + apply (read_all_iff _ _ _ rlaw_container) in R as [Hc ->]; [|exact B]. split.
      * intros [= <-]. split; [exact Hc|exact E].
      * intros [Hk [K _]]. destruct E as [E _]. assert (K' : wire_container c' = wire_container c) by congruence. clear K. rename K' into K.
        pose proof (proj1 rlaw_container c' [] Hc) as A1. pose proof (proj1 rlaw_container c [] Hk) as A2. rewrite app_nil_r in A1, A2. rewrite K in A1. rewrite A1 in A2. injection A2 as ->. reflexivity.
    + split; [discriminate|]. intros [Hk [K _]]. destruct E as [E _]. assert (d = wire_container c) by congruence. subst d.
      assert (read_all container_read (wire_container c) = inl c) by (apply (read_all_iff _ _ _ rlaw_container); auto). congruence.
  - split; [discriminate|]. intros [Hk R]. apply file_read_iff in R. congruence.
Qed.

Lemma seq_ok_len d n : length d = n -> (N.of_nat n < 2 ^ 32)%N -> bytes_ok d -> seq_ok d.
Proof. intros L H B. split; [exact B|]. rewrite L. exact H. Qed.

Lemma plain_body_ok a b l t key : (a < 2 ^ 64)%N -> (b < 2 ^ 64)%N -> (l < 2 ^ 8)%N -> seq_ok key -> body_ok (plain_body a b l t key).
Proof. intros. unfold body_ok, plain_body. cbn. repeat split; auto; try apply H2. lia. Qed.
Lemma plain_body_length a b l t key : length key = 32 -> length (wire_body (plain_body a b l t key)) = 52.
Proof.
  intros L. unfold wire_body, wire_seq, wire_items, plain_body.
  cbn [cb_valid_after cb_valid_before cb_signing_level cb_key_type cb_public_key cb_extensions]. rewrite !app_length, !be_bytes_length, L. reflexivity.
Qed.
Lemma signed_ok P G key b : signer_ok P G -> body_ok b -> length (wire_body b) = 52 -> envelope_ok (signed G key b).
Proof.
  intros S Hb L. pose proof (sok_sign P G S key (wire_body b)) as [L1 B1]. unfold envelope_ok, signed. cbn [env_signature env_body]. split.
  - apply (seq_ok_len _ 64); [exact L1|reflexivity|exact B1].
  - apply (seq_ok_len _ 52); [exact L|reflexivity|apply wire_body_bytes, Hb].
Qed.
(** Certificates of the sizes the tool produces. *)
Definition small (e : CertificateEnvelope) : Prop := envelope_ok e /\ length (env_signature e) = 64 /\ length (env_body e) = 52.
Lemma small_wire e : small e -> length (wire_envelope e) = 118.
Proof. intros (_ & A & B). unfold wire_envelope, wire_seq. rewrite !app_length, A, B. reflexivity. Qed.
Lemma chain1_length e : small e -> length (wire_chain [e]) = 119.
Proof. intros H. unfold wire_chain, wire_items. cbn [map concat length]. rewrite !app_length, (small_wire _ H). reflexivity. Qed.
Lemma chain2_length e e' : small e -> small e' -> length (wire_chain [e; e']) = 237.
Proof. intros H H'. unfold wire_chain, wire_items. cbn [map concat length]. rewrite !app_length, (small_wire _ H), (small_wire _ H'). reflexivity. Qed.
Lemma file_length t d n : length d = n -> length (file_of t d) = 1 + (length (der_length (N.of_nat n)) + n).
Proof. intros L. unfold file_of, wire_container, wire_seq. cbn [cf_type cf_payload]. rewrite !app_length, L. reflexivity. Qed.
Lemma chain1_ok e : small e -> chain_ok [e] /\ seq_ok (wire_chain [e]) /\ length (chain_file [e]) = 121.
Proof.
  intros H. assert (C : chain_ok [e]) by (split; [constructor; [apply H|constructor]|cbn; lia]). split; [exact C|]. split.
  - apply (seq_ok_len _ 119); [apply chain1_length, H|reflexivity|apply wire_chain_bytes, C].
  - unfold chain_file. rewrite (file_length _ _ _ (chain1_length _ H)). reflexivity.
Qed.
Lemma chain2_ok e e' : small e -> small e' -> chain_ok [e; e'] /\ seq_ok (wire_chain [e; e']) /\ length (chain_file [e; e']) = 240.
Proof.
  intros H H'. assert (C : chain_ok [e; e']) by (split; [constructor; [apply H|constructor; [apply H'|constructor]]|cbn; lia]). split; [exact C|]. split.
  - apply (seq_ok_len _ 237); [apply chain2_length; assumption|reflexivity|apply wire_chain_bytes, C].
  - unfold chain_file. rewrite (file_length _ _ _ (chain2_length _ _ H H')). reflexivity.
Qed.

Lemma read_wire_body b : body_ok b -> read_all body_read (wire_body b) = inl b.
Proof. intros H. apply (read_all_iff _ _ _ rlaw_body); [apply wire_body_bytes, H|auto]. Qed.
Lemma read_wire_chain c : chain_ok c -> read_all chain_read (wire_chain c) = inl c.
Proof. intros H. apply (read_all_iff _ _ _ rlaw_chain); [apply wire_chain_bytes, H|auto]. Qed.
Lemma read_wire_container c : container_ok c -> read_all container_read (wire_container c) = inl c.
Proof. intros H. apply (read_all_iff _ _ _ rlaw_container); [apply wire_container_bytes, H|auto]. Qed.

Lemma signed_small P G key a b l t pk : signer_ok P G -> (a < 2 ^ 64)%N -> (b < 2 ^ 64)%N -> (l < 2 ^ 8)%N -> length pk = 32 -> bytes_ok pk ->
  body_ok (plain_body a b l t pk) /\ small (signed G key (plain_body a b l t pk)).
Proof.
  intros S Ha Hb Hl L B. assert (K : body_ok (plain_body a b l t pk)) by (apply plain_body_ok; auto; apply (seq_ok_len _ 32); auto; reflexivity).
  split; [exact K|]. split; [|split].
  - eapply signed_ok; eauto. apply plain_body_length, L.
  - apply (sok_sign P G S).
  - apply plain_body_length, L.
Qed.

(** ** Creating a certificate *)
Lemma print_created f p b e : body_ok b -> small e -> env_body e = wire_body b -> print_contents (set_file f p (chain_file [e])) p = true.
Proof.
  intros Hb He Eb. destruct (chain1_ok _ He) as (C & Q & L). unfold print_contents, read_container, file_read. rewrite set_same, L.
  change (121 <=? 0) with false. change (4096 <? 121) with false. cbn iota. unfold chain_file, file_of. rewrite read_wire_container by exact Q. cbn [cf_type cf_payload].
  change (entry_eqb ce_certificate_chain ce_certificate_chain) with true. cbn iota. unfold print_certificate_chain. rewrite read_wire_chain by exact C.
  cbn [forallb]. rewrite Eb, read_wire_body by exact Hb. reflexivity.
Qed.

Lemma create_spec P G k f cp pubp privp a b l t key pk : signer_ok P G -> files_ok f ->
  readable f privp (file_of ce_ed25519_private_key key) -> seq_ok key -> 64 <= length key ->
  readable f pubp (file_of (public_entry t) pk) -> length pk = 32 -> bytes_ok pk ->
  (a < 2 ^ 64)%N -> (b < 2 ^ 64)%N -> (l < 2 ^ 8)%N ->
  create_certificate G k f cp pubp privp (a, b) l = Ok (file_put k f cp (chain_file [signed G (firstn 64 key) (plain_body a b l t pk)])).
Proof.
  intros S F R1 Q1 L1 R2 L2 B2 Ha Hb Hl. unfold create_certificate.
  assert (E1 : read_container f privp = Some {| cf_type := ce_ed25519_private_key; cf_payload := key |}) by (apply read_container_iff; [exact F|split; [exact Q1|exact R1]]).
  assert (E2 : read_container f pubp = Some {| cf_type := public_entry t; cf_payload := pk |}).
  { apply read_container_iff; [exact F|split; [|exact R2]]. apply (seq_ok_len _ 32); auto; reflexivity. }
  rewrite E1, E2. cbn beta iota. assert (E3 : get_public_key_type {| cf_type := public_entry t; cf_payload := pk |} = Some t).
  { unfold get_public_key_type. cbn [cf_type cf_payload]. rewrite L2. destruct t; reflexivity. }
  rewrite E3. cbn [fst snd cf_payload]. cbn beta iota.
  destruct (signed_small P G (firstn 64 key) a b l t pk S Ha Hb Hl L2 B2) as (K & Sm).
  change {| cb_valid_after := a; cb_valid_before := b; cb_signing_level := l; cb_key_type := t; cb_public_key := pk; cb_extensions := [] |} with (plain_body a b l t pk).
  rewrite to_buffer_body by exact K. unfold calc_signature. cbn [cf_type cf_payload]. unfold sign_ed25519. destruct (Nat.ltb_spec (length key) 64); [lia|].
  cbn [obind]. rewrite (plain_body_length a b l t pk L2). change (N.to_nat (u16 (N.of_nat 52))) with 52.
  rewrite (firstn_all2 (n := 52) (wire_body _)) by (rewrite (plain_body_length a b l t pk L2); lia).
  change {| env_signature := sg_sign G (firstn 64 key) (wire_body (plain_body a b l t pk)); env_body := wire_body (plain_body a b l t pk) |}
    with (signed G (firstn 64 key) (plain_body a b l t pk)).
  destruct (chain1_ok _ Sm) as (C & Q & L). rewrite to_buffer_chain by exact C. rewrite file_write_ok by exact Q.
  change (wire_container {| cf_type := ce_certificate_chain; cf_payload := wire_chain [signed G (firstn 64 key) (plain_body a b l t pk)] |})
    with (chain_file [signed G (firstn 64 key) (plain_body a b l t pk)]).
  unfold file_put. destruct (k cp); try reflexivity. rewrite (print_created f cp (plain_body a b l t pk)); auto.
Qed.

Lemma public_type file t : get_public_key_type file = Some t <-> cf_type file = public_entry t /\ length (cf_payload file) = 32.
Proof.
  unfold get_public_key_type. destruct (cf_type file), t; cbn; destruct (Nat.eqb_spec (length (cf_payload file)) 32); cbn; split; try discriminate; intros H; try (destruct H; congruence); auto; try congruence.
Qed.

(** The only ways to finish. *)
Lemma create_cases P G k f cp pubp privp a b l : signer_ok P G -> files_ok f -> (a < 2 ^ 64)%N -> (b < 2 ^ 64)%N -> (l < 2 ^ 8)%N ->
  create_certificate G k f cp pubp privp (a, b) l = Ok (f, false) \/
  exists key, seq_ok key /\ readable f privp (file_of ce_ed25519_private_key key) /\
    ((length key < 64 /\ create_certificate G k f cp pubp privp (a, b) l = UB) \/
     exists t pk, readable f pubp (file_of (public_entry t) pk) /\ length pk = 32 /\ bytes_ok pk /\ 64 <= length key /\
       create_certificate G k f cp pubp privp (a, b) l = Ok (file_put k f cp (chain_file [signed G (firstn 64 key) (plain_body a b l t pk)]))).
Proof.
  intros S F Ha Hb Hl. destruct (read_container f privp) as [c1|] eqn:E1; [|left; unfold create_certificate; rewrite E1; reflexivity].
  destruct (read_container f pubp) as [c2|] eqn:E2; [|left; unfold create_certificate; rewrite E1, E2; reflexivity].
  destruct (get_public_key_type c2) as [t|] eqn:E3; [|left; unfold create_certificate; rewrite E1, E2, E3; reflexivity].
  apply public_type in E3 as T. destruct T as [T L2]. destruct c2 as [t2 pk]. cbn [cf_type cf_payload] in *. subst t2.
  pose proof E2 as E2'. apply read_container_iff in E2 as [Q2 R2]; [|exact F]. unfold container_ok in Q2. cbn [cf_payload] in Q2.
  destruct (signed_small P G [] a b l t pk S Ha Hb Hl L2 (proj1 Q2)) as (K & _).
  destruct c1 as [t1 key]. pose proof E1 as E1'. apply read_container_iff in E1 as [Q1 R1]; [|exact F]. unfold container_ok in Q1. cbn [cf_payload] in Q1.
  destruct (match t1 with ce_ed25519_private_key => true | _ => false end) eqn:Et.
  - assert (t1 = ce_ed25519_private_key) by (destruct t1; congruence). subst t1. right. exists key. split; [exact Q1|]. split; [exact R1|].
    destruct (Nat.lt_ge_cases (length key) 64) as [Hk|Hk].
    + left. split; [exact Hk|]. unfold create_certificate. rewrite E1', E2'. cbn beta iota. rewrite E3. cbn [fst snd cf_payload].
      change {| cb_valid_after := a; cb_valid_before := b; cb_signing_level := l; cb_key_type := t; cb_public_key := pk; cb_extensions := [] |} with (plain_body a b l t pk).
      cbn beta iota. rewrite to_buffer_body by exact K. unfold calc_signature, sign_ed25519. cbn [cf_type cf_payload]. destruct (Nat.ltb_spec (length key) 64); [reflexivity|lia].
    + right. exists t, pk. split; [exact R2|]. split; [exact L2|]. split; [apply Q2|]. split; [exact Hk|]. eapply create_spec; eauto. apply Q2.
  - left. unfold create_certificate. rewrite E1', E2'. cbn beta iota. rewrite E3. cbn [fst snd cf_payload].
    change {| cb_valid_after := a; cb_valid_before := b; cb_signing_level := l; cb_key_type := t; cb_public_key := pk; cb_extensions := [] |} with (plain_body a b l t pk).
    cbn beta iota. rewrite to_buffer_body by exact K. unfold calc_signature. cbn [cf_type]. destruct t1; try discriminate; reflexivity.
Qed.

(** ** Appending *)
Lemma expect_chain c ch : container_ok c -> (expect_certificate_chain c = Some ch <-> cf_type c = ce_certificate_chain /\ chain_ok ch /\ cf_payload c = wire_chain ch).
Proof.
  intros Q. unfold expect_certificate_chain. destruct c as [t d]. unfold container_ok in Q. cbn [cf_type cf_payload] in *.
  assert (R : forall x, read_all chain_read d = inl x <-> chain_ok x /\ d = wire_chain x) by (intros x; apply (read_all_iff _ _ _ rlaw_chain); apply Q).
  destruct t; cbn; try (split; [discriminate|intros [? _]; discriminate]).
  destruct (read_all chain_read d) as [x|e] eqn:E.
  - split; [intros [= <-]; split; [reflexivity|apply R; reflexivity]|]. intros (_ & H). apply R in H. congruence.
  - split; [discriminate|]. intros (_ & H). apply R in H. congruence.
Qed.

Lemma small_count n : n <= 6 -> length (der_length (N.of_nat n)) = 1.
Proof. intros H. unfold der_length. destruct (N.ltb_spec (N.of_nat n) 128); [reflexivity|lia]. Qed.
Lemma chain_length c : length c <= 6 -> length (wire_chain c) = 1 + length (concat (map wire_envelope c)).
Proof. intros H. unfold wire_chain, wire_items. rewrite app_length, small_count by exact H. reflexivity. Qed.
Lemma payload_le t d : length d <= length (file_of t d).
Proof. unfold file_of, wire_container, wire_seq. cbn [cf_payload]. rewrite !app_length. lia. Qed.
Lemma appended_ok c1 e f p1 p2 : chain_ok c1 -> envelope_ok e -> length c1 <= 5 -> readable f p1 (chain_file c1) -> readable f p2 (chain_file [e]) ->
  chain_ok (c1 ++ [e]) /\ seq_ok (wire_chain (c1 ++ [e])).
Proof.
  intros [C1 N1] He Hn [_ R1] [_ R2]. assert (C : chain_ok (c1 ++ [e])).
  { split; [apply Forall_app; split; [exact C1|constructor; [exact He|constructor]]|rewrite app_length; cbn; lia]. }
  split; [exact C|]. split; [apply wire_chain_bytes, C|].
  pose proof (payload_le ce_certificate_chain (wire_chain c1)) as A. pose proof (payload_le ce_certificate_chain (wire_chain [e])) as B.
  unfold chain_file in *. rewrite chain_length in A by exact N1. rewrite chain_length in B by (cbn; lia).
  rewrite chain_length by apply C. rewrite map_app, concat_app, app_length. cbn [map concat] in *. change (2 ^ 32)%N with 4294967296%N. lia.
Qed.

Lemma last_snoc (c : list CertificateEnvelope) d : c <> [] -> exists h t, c = h ++ [t] /\ last c d = t.
Proof. intros H. destruct (exists_last H) as (h & t & ->). exists h, t. split; [reflexivity|apply last_last]. Qed.

Lemma single_certifies P a e b : chain_certifies P a [e] b <-> issued P a e b /\ end_entity b.
Proof.
  unfold chain_certifies. split.
  - intros (_ & H & E). inversion H; subst. match goal with H : issue_path _ _ [] _ |- _ => inversion H; subst end. auto.
  - intros [H E]. split; [discriminate|]. split; [|exact E]. econstructor; [exact H|constructor].
Qed.

Lemma append_cases P k f p1 p2 out : files_ok f ->
  append_certificate_chains P k f p1 p2 out = Ok (f, false) \/
  exists h last_env env last_body, chain_ok (h ++ [last_env]) /\ envelope_ok env /\ readable f p1 (chain_file (h ++ [last_env])) /\ readable f p2 (chain_file [env]) /\
    body_ok last_body /\ env_body last_env = wire_body last_body /\
    (chain_verify P sodium_supports last_body [env] = UB /\ append_certificate_chains P k f p1 p2 out = UB \/
     exists leaf, issued P last_body env leaf /\ end_entity leaf /\ length h <= 4 /\
       append_certificate_chains P k f p1 p2 out = Ok (file_put k f out (chain_file ((h ++ [last_env]) ++ [env])))).
Proof.
  intros F. unfold append_certificate_chains.
  destruct (read_container f p1) as [c1|] eqn:E1; [|auto]. apply read_container_iff in E1 as [Q1 R1]; [|exact F].
  destruct (expect_certificate_chain c1) as [ch1|] eqn:X1; [|auto]. apply expect_chain in X1 as (T1 & C1 & P1); [|exact Q1].
  destruct (read_container f p2) as [c2|] eqn:E2; [|auto]. apply read_container_iff in E2 as [Q2 R2]; [|exact F].
  destruct (expect_certificate_chain c2) as [ch2|] eqn:X2; [|auto]. apply expect_chain in X2 as (T2 & C2 & P2); [|exact Q2].
  destruct c1 as [t1 d1], c2 as [t2 d2]. cbn [cf_type cf_payload] in *. subst t1 t2 d1 d2.
  destruct ch1 as [|x ch1]; [left; reflexivity|]. cbn [is_empty].
  destruct ch2 as [|e [|? ?]]; try (left; reflexivity). change (negb (length [e] =? 1)) with false. cbn iota.
  destruct (last_snoc (x :: ch1) {| env_signature := []; env_body := [] |} ltac:(discriminate)) as (h & le & Eh & El). rewrite El, Eh in *.
  assert (Sle : seq_ok (env_body le)) by (destruct C1 as [C1 _]; apply Forall_app in C1 as [_ C1]; inversion C1; subst; match goal with H : envelope_ok le |- _ => apply H end).
  destruct (read_all body_read (env_body le)) as [lb|] eqn:Eb; [|auto].
  apply (read_all_iff _ _ _ rlaw_body) in Eb as [Hb Ew]; [|apply Sle].
  assert (He : envelope_ok e) by (destruct C2 as [C2 _]; inversion C2; assumption).
  destruct (chain_verify P sodium_supports lb [e]) as [[leaf|er]| |] eqn:V; cbn [obind].
  - apply chain_verify_certifies in V; [|reflexivity|apply C2]. apply single_certifies in V as [V1 V2].
    destruct (Nat.ltb_spec max_certificates (length ((h ++ [le]) ++ [e]))) as [Hl|Hl]; [auto|]. right.
    unfold max_certificates in Hl. rewrite !app_length in Hl. cbn [length] in Hl.
    exists h, le, e, lb. split; [exact C1|]. split; [exact He|]. split; [exact R1|]. split; [exact R2|]. split; [exact Hb|]. split; [exact Ew|]. right.
    exists leaf. split; [exact V1|]. split; [exact V2|]. split; [lia|].
    destruct (appended_ok (h ++ [le]) e f p1 p2 C1 He ltac:(rewrite app_length; cbn; lia) R1 R2) as [Ca Qa].
    rewrite to_buffer_chain by exact Ca. rewrite file_write_ok by exact Qa. reflexivity.
  - auto.
  - right. exists h, le, e, lb. repeat (split; [assumption|]). left. split; [exact V|reflexivity].
  - exfalso. clear - V. unfold chain_verify, verify_loop, verify_pair, verify_ed25519 in V. destruct (try_get_dsa_info _ _); [|discriminate].
    destruct (negb _); [discriminate|]. destruct (_ || _); cbn [obind] in V; [discriminate|].
    destruct (negb _); [discriminate|]. destruct (read_all _ _); [|discriminate].
    repeat match type of V with context [if ?b then _ else _] => destruct b; cbn [obind] in V; try discriminate end.
Qed.

Lemma append_spec P k f p1 p2 out h last_env env last_body leaf : files_ok f -> chain_ok (h ++ [last_env]) -> envelope_ok env ->
  readable f p1 (chain_file (h ++ [last_env])) -> readable f p2 (chain_file [env]) -> body_ok last_body -> env_body last_env = wire_body last_body ->
  issued P last_body env leaf -> end_entity leaf -> length h <= 4 ->
  append_certificate_chains P k f p1 p2 out = Ok (file_put k f out (chain_file ((h ++ [last_env]) ++ [env]))).
Proof.
  intros F C1 He R1 R2 Hb Ew V1 V2 Hl. assert (C2 : chain_ok [env]) by (split; [constructor; [exact He|constructor]|cbn; lia]).
  assert (Q1 : seq_ok (wire_chain (h ++ [last_env]))).
  { split; [apply wire_chain_bytes, C1|]. pose proof (payload_le ce_certificate_chain (wire_chain (h ++ [last_env]))). destruct R1 as [_ R1]. unfold chain_file in R1. change (2 ^ 32)%N with 4294967296%N. lia. }
  assert (Q2 : seq_ok (wire_chain [env])).
  { split; [apply wire_chain_bytes, C2|]. pose proof (payload_le ce_certificate_chain (wire_chain [env])). destruct R2 as [_ R2]. unfold chain_file in R2. change (2 ^ 32)%N with 4294967296%N. lia. }
  assert (E1 : read_container f p1 = Some {| cf_type := ce_certificate_chain; cf_payload := wire_chain (h ++ [last_env]) |}) by (apply read_container_iff; [exact F|split; [exact Q1|exact R1]]).
  assert (E2 : read_container f p2 = Some {| cf_type := ce_certificate_chain; cf_payload := wire_chain [env] |}) by (apply read_container_iff; [exact F|split; [exact Q2|exact R2]]).
  unfold append_certificate_chains. rewrite E1, E2.
  rewrite (proj2 (expect_chain {| cf_type := ce_certificate_chain; cf_payload := wire_chain (h ++ [last_env]) |} (h ++ [last_env]) Q1)) by (cbn; auto).
  rewrite (proj2 (expect_chain {| cf_type := ce_certificate_chain; cf_payload := wire_chain [env] |} [env] Q2)) by (cbn; auto).
  destruct (h ++ [last_env]) as [|x y] eqn:Eh; [destruct h; discriminate|]. cbn [is_empty]. rewrite <- Eh in *. rewrite last_last.
  change (negb (length [env] =? 1)) with false. cbn iota. rewrite Ew, read_wire_body by exact Hb.
  rewrite (proj2 (chain_verify_certifies P sodium_supports last_body [env] leaf eq_refl (proj1 C2))) by (apply single_certifies; auto). cbn [obind].
  destruct (Nat.ltb_spec max_certificates (length ((h ++ [last_env]) ++ [env]))) as [Hx|Hx].
  { unfold max_certificates in Hx. rewrite !app_length in Hx. cbn in Hx. lia. }
  destruct (appended_ok (h ++ [last_env]) env f p1 p2 C1 He ltac:(rewrite app_length; cbn; lia) R1 R2) as [Ca Qa].
  rewrite to_buffer_chain by exact Ca. rewrite file_write_ok by exact Qa. reflexivity.
Qed.

(** ** Issuing *)
Lemma wire_body_inj b b' : body_ok b -> body_ok b' -> wire_body b = wire_body b' -> b = b'.
Proof. intros H H' E. pose proof (read_wire_body b H) as A. rewrite E, (read_wire_body b' H') in A. congruence. Qed.

Lemma signed_issued P G seed a b x : signer_ok P G -> body_ok b -> cb_key_type a = pk_Ed25519 -> cb_public_key a = sg_public G seed ->
  (issued P a (signed G (sg_secret G seed) b) x <-> x = b /\ covered a b).
Proof.
  intros S Hb T Kp. split.
  - intros [I1 I2 [I3 I3'] [I4 I4'] I5]. cbn [signed env_body] in I3'. assert (x = b) by (symmetry; apply wire_body_inj; auto). subst x. split; [reflexivity|]. repeat split; assumption.
  - intros [-> (A & B & C)]. constructor.
    + split; [exact T|]. rewrite Kp. rewrite (proj1 (sok_public P G S seed)). lia.
    + cbn [signed env_signature env_body]. split; [apply (sok_sign P G S)|]. rewrite Kp, firstn_all2 by (rewrite (proj1 (sok_public P G S seed)); lia). apply (sok_verify P G S).
    + split; [exact Hb|reflexivity].
    + split; assumption.
    + assumption.
Qed.

(** ** The days *)
Lemma days_short wrap now days : (now < 2 ^ 63)%N -> (days <= 24)%N -> days_to_times wrap now days = Ok (now, (now + days * day_ms)%N).
Proof.
  intros Hn Hd. unfold days_to_times, int_mul. change (2 ^ 63)%N with 9223372036854775808%N in Hn.
  destruct (Z.leb_spec (-2147483648) (Z.of_N days * 86400)); [|lia]. destruct (Z.leb_spec (Z.of_N days * 86400) 2147483647); [|lia]. cbn [andb obind].
  destruct (Z.leb_spec (-2147483648) (Z.of_N days * 86400 * 1000)); [|lia]. destruct (Z.leb_spec (Z.of_N days * 86400 * 1000) 2147483647); [|lia]. cbn [andb obind].
  do 2 f_equal. unfold day_ms. rewrite Z.mod_small; [lia|]. change (2 ^ 64)%Z with 18446744073709551616%Z. lia.
Qed.
Lemma days_long now days : (24 < days)%N -> days_to_times false now days = UB.
Proof.
  intros Hd. unfold days_to_times, int_mul.
  destruct (Z.leb_spec (-2147483648) (Z.of_N days * 86400)); [|lia]. destruct (Z.leb_spec (Z.of_N days * 86400) 2147483647); cbn [andb obind]; [|reflexivity].
  destruct (Z.leb_spec (-2147483648) (Z.of_N days * 86400 * 1000)); [|lia]. destruct (Z.leb_spec (Z.of_N days * 86400 * 1000) 2147483647); [lia|]. reflexivity.
Qed.

(** ** Histories *)
Definition key_size (t : ContainerEntryType) : option nat :=
  match t with ce_certificate_chain => None | ce_ed25519_private_key => Some 64 | _ => Some 32 end.
Inductive made (P : prims) : list N -> Prop :=
| made_key t d n : key_size t = Some n -> length d = n -> bytes_ok d -> made P (file_of t d)
| made_one e b : small e -> env_body e = wire_body b -> tool_body b -> made P (chain_file [e])
| made_two e1 b1 e2 b2 : small e1 -> env_body e1 = wire_body b1 -> tool_body b1 -> small e2 -> env_body e2 = wire_body b2 -> tool_body b2 ->
    issued P b1 e2 b2 -> end_entity b2 -> made P (chain_file [e1; e2]).
Definition history (P : prims) (f : files) : Prop := forall p d, f p = Some d -> exists full n, made P full /\ d = firstn n full.

Lemma tool_body_ok b : tool_body b -> body_ok b.
Proof. intros (a & bf & l & t & key & -> & A & B & C & L & K). apply plain_body_ok; auto. apply (seq_ok_len _ 32); auto; reflexivity. Qed.
Lemma made_container P d : made P d -> exists c, container_ok c /\ d = wire_container c /\ 1 <= length d <= 4096.
Proof.
  intros [t x n K L B|e b S _ _|e1 b1 e2 b2 S1 _ _ S2 _ _ _ _].
  - exists {| cf_type := t; cf_payload := x |}. assert (n <= 64) by (destruct t; try discriminate K; injection K as <-; lia). split; [|split; [reflexivity|]].
    + apply (seq_ok_len _ n); auto. change (2 ^ 32)%N with 4294967296%N. lia.
    + rewrite (file_length t x n L). assert (length (der_length (N.of_nat n)) = 1) by (unfold der_length; destruct (N.ltb_spec (N.of_nat n) 128); [reflexivity|lia]). lia.
  - destruct (chain1_ok _ S) as (C & Q & L). exists {| cf_type := ce_certificate_chain; cf_payload := wire_chain [e] |}. split; [exact Q|]. split; [reflexivity|lia].
  - destruct (chain2_ok _ _ S1 S2) as (C & Q & L). exists {| cf_type := ce_certificate_chain; cf_payload := wire_chain [e1; e2] |}. split; [exact Q|]. split; [reflexivity|lia].
Qed.
Lemma made_bytes P d : made P d -> bytes_ok d.
Proof. intros H. apply made_container in H as (c & Hc & -> & _). apply wire_container_bytes, Hc. Qed.
Lemma bytes_firstn n d : bytes_ok d -> bytes_ok (firstn n d).
Proof. intros H. unfold bytes_ok. rewrite <- (firstn_skipn n d) in H. apply Forall_app in H. apply H. Qed.
Lemma history_files P f : history P f -> files_ok f.
Proof. intros H p d E. apply H in E as (full & n & M & ->). apply bytes_firstn. eapply made_bytes, M. Qed.

(** A truncated file is not read. *)
Lemma history_read P f p c : history P f -> container_ok c -> readable f p (wire_container c) -> made P (wire_container c).
Proof.
  intros H Hc [R _]. apply H in R as (full & n & M & E). apply made_container in M as M'. destruct M' as (c' & Hc' & -> & _).
  pose proof (proj1 rlaw_container c (skipn n (wire_container c')) Hc) as A. rewrite E, firstn_skipn in A.
  pose proof (proj1 rlaw_container c' [] Hc') as B. rewrite app_nil_r in B. rewrite A in B. injection B as B _. subst c'. exact M.
Qed.
Lemma wire_container_inj c c' : container_ok c -> container_ok c' -> wire_container c = wire_container c' -> c = c'.
Proof. intros H H' E. pose proof (read_wire_container c H) as A. rewrite E, (read_wire_container c' H') in A. congruence. Qed.
Lemma wire_chain_inj c c' : chain_ok c -> chain_ok c' -> wire_chain c = wire_chain c' -> c = c'.
Proof. intros H H' E. pose proof (read_wire_chain c H) as A. rewrite E, (read_wire_chain c' H') in A. congruence. Qed.
Lemma chain_file_inj c c' : chain_ok c -> chain_ok c' -> seq_ok (wire_chain c) -> seq_ok (wire_chain c') -> chain_file c = chain_file c' -> c = c'.
Proof. intros H H' Q Q' E. apply wire_container_inj in E; [|exact Q|exact Q']. injection E as E. apply wire_chain_inj; assumption. Qed.

Lemma made_file P t d : seq_ok d -> made P (file_of t d) -> t <> ce_certificate_chain -> key_size t = Some (length d).
Proof.
  intros Q M Ht. remember (file_of t d) as x eqn:E. destruct M as [t' d' n K L B|e b S E1 E2|e1 b1 e2 b2 S1 ? ? S2 ? ? ? ?].
  - apply wire_container_inj in E; [|apply (seq_ok_len _ n); auto; destruct t'; try discriminate K; injection K as <-; reflexivity|exact Q]. injection E as -> ->. congruence.
  - apply wire_container_inj in E; [|apply (chain1_ok _ S)|exact Q]. injection E as E _. congruence.
  - apply wire_container_inj in E; [|apply (chain2_ok _ _ S1 S2)|exact Q]. injection E as E _. congruence.
Qed.
Lemma made_chain P c : chain_ok c -> seq_ok (wire_chain c) -> made P (chain_file c) ->
  (exists e b, c = [e] /\ small e /\ env_body e = wire_body b /\ tool_body b) \/
  (exists e1 b1 e2 b2, c = [e1; e2] /\ small e1 /\ env_body e1 = wire_body b1 /\ tool_body b1 /\ small e2 /\ env_body e2 = wire_body b2 /\ tool_body b2 /\
    issued P b1 e2 b2 /\ end_entity b2).
Proof.
  intros C Q M. remember (chain_file c) as x eqn:E. destruct M as [t' d' n K L B|e b S E1 E2|e1 b1 e2 b2 S1 X1 T1 S2 X2 T2 I N].
  - apply wire_container_inj in E; [|apply (seq_ok_len _ n); auto; destruct t'; try discriminate K; injection K as <-; reflexivity|exact Q]. injection E as -> _. discriminate.
  - left. exists e, b. destruct (chain1_ok _ S) as (C' & Q' & _). apply chain_file_inj in E; auto.
  - right. exists e1, b1, e2, b2. destruct (chain2_ok _ _ S1 S2) as (C' & Q' & _). apply chain_file_inj in E; auto. subst c. repeat (split; [assumption || reflexivity|]). assumption.
Qed.

Lemma put_history P k f p d : history P f -> made P d -> history P (fst (file_put k f p d)).
Proof.
  intros H M q x. unfold file_put. destruct (k p); cbn [fst]; [|apply H|].
  - unfold set_file. destruct (N.eqb q p); [|apply H]. intros [= <-]. exists d, (length d). split; [exact M|]. rewrite firstn_all. reflexivity.
  - unfold set_file. destruct (N.eqb q p); [|apply H]. intros [= <-]. exists d, n. auto.
Qed.
Lemma made_seq P t d n : key_size t = Some n -> length d = n -> bytes_ok d -> seq_ok d /\ made P (file_of t d).
Proof. intros K L B. split; [apply (seq_ok_len _ n); auto; destruct t; try discriminate K; injection K as <-; reflexivity|econstructor; eauto]. Qed.
Lemma readable_seq f p t d : readable f p (file_of t d) -> bytes_ok d -> seq_ok d.
Proof. intros [_ R] B. split; [exact B|]. pose proof (payload_le t d). change (2 ^ 32)%N with 4294967296%N. lia. Qed.

(** The key of a certificate made by the tool has 32 bytes, so checking under it is defined. *)
Lemma verify_defined P b e : tool_body b -> chain_verify P sodium_supports b [e] <> UB.
Proof.
  intros (a & bf & l & t & key & -> & _ & _ & _ & L & _) V. unfold chain_verify, verify_loop, verify_pair, verify_ed25519 in V.
  cbn [plain_body cb_key_type cb_public_key] in V. destruct (try_get_dsa_info _ _) as [n|] eqn:Ed; [|discriminate].
  destruct (n =? length (env_signature e)) eqn:En; cbn [negb] in V; [|discriminate]. apply Nat.eqb_eq in En.
  assert (n = 64) by (destruct t; cbn in Ed; congruence). rewrite L in V. destruct (Nat.ltb_spec (length (env_signature e)) 64); [lia|]. cbn [orb Nat.ltb Nat.leb obind] in V.
  change (32 <? 32) with false in V. cbn iota in V. cbn [obind] in V. destruct (negb _); [discriminate|]. destruct (read_all _ _); [|discriminate].
  repeat match type of V with context [if ?b then _ else _] => destruct b; cbn [obind] in V; try discriminate end.
Qed.

Lemma run_history P G k f c : prims_ok P -> signer_ok P G -> history P f -> command_ok c -> short_term c ->
  exists f' ok, run_command P G k f c = Ok (f', ok) /\ history P f'.
Proof.
  intros OP S H Hc St. pose proof (history_files P f H) as F. destruct c as [p|p r|pr pu r|pr pu r|cp pu pr now days level|p1 p2 o]; cbn [run_command command_ok short_term] in *.
  - eauto.
  - unfold gen_shared_secret. destruct Hc as [L B]. rewrite firstn_all2 by lia. destruct (made_seq P ce_shared_secret r 32 eq_refl L B) as [Q M]. rewrite write_ok by exact Q.
    destruct (file_put _ _ _ _) as [f' ok] eqn:E. exists f', ok. split; [reflexivity|]. change f' with (fst (f', ok)). rewrite <- E. apply put_history; auto.
  - unfold gen_x25519_key_pair. destruct Hc as [L B]. destruct (made_seq P ce_x25519_private_key r 32 eq_refl L B) as [Q M]. rewrite write_ok by exact Q.
    destruct (file_put _ _ _ _) as [f1 ok1] eqn:E. assert (H1 : history P f1) by (change f1 with (fst (f1, ok1)); rewrite <- E; apply put_history; auto).
    destruct ok1; [|eauto]. destruct (ok_dh_public P OP r) as [L2 B2]. destruct (made_seq P ce_x25519_public_key _ 32 eq_refl L2 B2) as [Q2 M2]. rewrite write_ok by exact Q2.
    destruct (file_put k f1 _ _) as [f' ok] eqn:E'. exists f', ok. split; [reflexivity|]. change f' with (fst (f', ok)). rewrite <- E'. apply put_history; auto.
  - unfold gen_ed25519_key_pair. destruct (sok_secret P G S r) as [L B]. destruct (made_seq P ce_ed25519_private_key _ 64 eq_refl L B) as [Q M]. rewrite write_ok by exact Q.
    destruct (file_put _ _ _ _) as [f1 ok1] eqn:E. assert (H1 : history P f1) by (change f1 with (fst (f1, ok1)); rewrite <- E; apply put_history; auto).
    destruct ok1; [|eauto]. destruct (sok_public P G S r) as [L2 B2]. destruct (made_seq P ce_ed25519_public_key _ 32 eq_refl L2 B2) as [Q2 M2]. rewrite write_ok by exact Q2.
    destruct (file_put k f1 _ _) as [f' ok] eqn:E'. exists f', ok. split; [reflexivity|]. change f' with (fst (f', ok)). rewrite <- E'. apply put_history; auto.
  - destruct Hc as (Hn & _ & Hl). rewrite days_short by assumption. cbn [obind].
    assert (A : (now < 2 ^ 64)%N) by (change (2 ^ 64)%N with 18446744073709551616%N; change (2 ^ 63)%N with 9223372036854775808%N in Hn; lia).
    assert (B : (now + days * day_ms < 2 ^ 64)%N) by (change (2 ^ 64)%N with 18446744073709551616%N; change (2 ^ 63)%N with 9223372036854775808%N in Hn; unfold day_ms; lia).
    destruct (create_cases P G k f cp pu pr now (now + days * day_ms) level S F A B Hl) as [E|(key & Qk & R & [[Lk E]|(t & pk & R2 & L2 & B2 & Lk & E)])]; rewrite E.
    + eauto.
    + exfalso. assert (M : made P (file_of ce_ed25519_private_key key)) by (eapply history_read; eauto). apply made_file in M; [|exact Qk|discriminate]. injection M as M. lia.
    + destruct (signed_small P G (firstn 64 key) now (now + days * day_ms) level t pk S A B Hl L2 B2) as (K & Sm).
      destruct (file_put _ _ _ _) as [f' ok] eqn:E'. exists f', ok. split; [reflexivity|]. change f' with (fst (f', ok)). rewrite <- E'. apply put_history; [exact H|].
      eapply made_one; [exact Sm|reflexivity|]. repeat eexists; eauto.
  - destruct (append_cases P k f p1 p2 o F) as [E|(h & le & e & lb & C1 & He & R1 & R2 & Hb & Ew & X)]; [rewrite E; eauto|].
    assert (Q1 : seq_ok (wire_chain (h ++ [le]))) by (eapply readable_seq; [exact R1|apply wire_chain_bytes, C1]).
    assert (C2 : chain_ok [e]) by (split; [constructor; [exact He|constructor]|cbn; lia]).
    assert (Q2 : seq_ok (wire_chain [e])) by (eapply readable_seq; [exact R2|apply wire_chain_bytes, C2]).
    assert (M1 : made P (chain_file (h ++ [le]))) by (eapply history_read; eauto; exact Q1).
    assert (M2 : made P (chain_file [e])) by (eapply history_read; eauto; exact Q2).
    apply made_chain in M1; auto. apply made_chain in M2; auto.
    destruct M2 as [(e' & b & Ee & Se & Eb & Tb)|(e1 & b1 & e2 & b2 & Ee & _)]; [|discriminate Ee]. injection Ee as <-.
    destruct M1 as [(e' & b' & Ee & Se' & Eb' & Tb')|(e1 & b1 & e2 & b2 & Ee & S1 & Eb1 & T1 & S2 & Eb2 & T2 & I & N)].
    + change [e'] with ([] ++ [e']) in Ee. apply app_inj_tail in Ee as [-> ->].
      assert (lb = b') by (apply wire_body_inj; auto; [apply tool_body_ok, Tb'|congruence]). subst b'.
      destruct X as [[V _]|(leaf & I & N & _ & E)]; [exfalso; eapply verify_defined; [exact Tb'|exact V]|]. rewrite E.
      destruct (file_put _ _ _ _) as [f' ok] eqn:E'. exists f', ok. split; [reflexivity|]. change f' with (fst (f', ok)). rewrite <- E'. apply put_history; [exact H|].
      assert (leaf = b) by (apply wire_body_inj; [apply (is_body _ _ _ _ I)|apply tool_body_ok, Tb|rewrite <- (proj2 (is_body _ _ _ _ I)); exact Eb]). subst leaf.
      cbn [app]. eapply made_two; eauto.
    + change [e1; e2] with ([e1] ++ [e2]) in Ee. apply app_inj_tail in Ee as [-> ->].
      assert (lb = b2) by (apply wire_body_inj; auto; [apply tool_body_ok, T2|congruence]). subst lb.
      destruct X as [[V _]|(leaf & I' & _)]; [exfalso; eapply verify_defined; [exact T2|exact V]|].
      exfalso. destruct (is_signing_key _ _ _ _ I') as [K _]. destruct N as [_ N]. congruence.
Qed.

Lemma run_commands_history P G l : prims_ok P -> signer_ok P G -> Forall (fun kc => command_ok (snd kc) /\ short_term (snd kc)) l ->
  forall f, history P f -> exists f', run_commands P G f l = Ok f' /\ history P f'.
Proof.
  intros OP S. induction 1 as [|[k c] l [Hc Hs] _ IH]; intros f H; cbn [run_commands]; [eauto|].
  destruct (run_history P G k f c OP S H Hc Hs) as (f1 & ok & -> & H1). cbn [obind fst]. apply IH, H1.
Qed.

(** ** Frame *)
Lemma put_other k f p d q : q <> p -> fst (file_put k f p d) q = f q.
Proof. intros H. unfold file_put. destruct (k p); cbn [fst]; try reflexivity; apply set_other, H. Qed.
Lemma write_other k f p t d q : q <> p -> fst (actions_write k f p t d) q = f q.
Proof. intros H. unfold actions_write, file_write. destruct (to_buffer _ _ _); [apply put_other, H|reflexivity]. Qed.
Lemma put_works k f p d : works k -> file_put k f p d = (set_file f p d, true).
Proof. intros W. unfold file_put. rewrite W. reflexivity. Qed.
