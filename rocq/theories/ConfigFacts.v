(** * ConfigFacts: proofs about the reader of the configuration *)
From Coq Require String Ascii.
From Verif Require Import Base BaseFacts Codec CodecSpec CodecFacts Link LinkLayer Primitives Session Handshake Endpoint Icf IcfSpec IcfFacts Qix Config ConfigSpec.
Import String.StringSyntax.
#[local] Open Scope string_scope.
#[local] Open Scope nat_scope.

(** ** The monad *)
Lemma rbind_iff {A B} (p : res A) (g : A -> res B) b : rbind p g = ret b <-> exists a, p = ret a /\ g a = ret b.
Proof.
  unfold ret. split.
  - destruct p as [[a|]| |]; cbn; try discriminate. intros H. exists a. auto.
  - intros (a & -> & H). exact H.
Qed.
Lemma ret_iff {A} (a b : A) : ret a = ret b <-> a = b.
Proof. unfold ret. split; congruence. Qed.
Lemma ret_inj {A} (a b : A) : ret a = ret b -> a = b.
Proof. unfold ret. congruence. Qed.
Lemma from_option_iff {A} (o : option A) b : from_option o = ret b <-> o = Some b.
Proof. unfold from_option, ret. split; congruence. Qed.
Lemma throw_iff {A} (b : A) : throw = ret b <-> False.
Proof. unfold throw, ret. split; [discriminate|tauto]. Qed.

Definition defined {A} (r : res A) : Prop := exists o, r = Ok o.
Lemma defined_ret {A} (a : A) : defined (ret a). Proof. eexists; reflexivity. Qed.
Lemma defined_throw {A} : defined (@throw A). Proof. eexists; reflexivity. Qed.
Lemma defined_from {A} (o : option A) : defined (from_option o). Proof. eexists; reflexivity. Qed.
Lemma defined_bind {A B} (p : res A) (g : A -> res B) : defined p -> (forall a, p = ret a -> defined (g a)) -> defined (rbind p g).
Proof. intros [[a|] ->] H; cbn; [apply H; reflexivity|eexists; reflexivity]. Qed.
#[export] Hint Resolve defined_ret defined_throw defined_from : dfd.

(** ** Maps *)
Lemma lookup_key_iff l key v : lookup_key l key = Some v <-> has (NMap l) key v.
Proof.
  cbn. induction l as [|[k x] l IH]; cbn.
  - split; [discriminate|]. intros (l1 & l2 & H & _). destruct l1; discriminate.
  - destruct (String.eqb_spec k key) as [->|Ne].
    + split.
      * intros [= ->]. exists [], l. split; [reflexivity|intros []].
      * intros (l1 & l2 & H & N). destruct l1 as [|y l1]; [injection H as -> ->; reflexivity|].
        injection H as <- H. destruct N. left. reflexivity.
    + rewrite IH. split.
      * intros (l1 & l2 & -> & N). exists ((k, x) :: l1), l2. split; [reflexivity|]. intros [H|H]; [exact (Ne H)|exact (N H)].
      * intros (l1 & l2 & H & N). destruct l1 as [|y l1]; [injection H as -> _ _; destruct Ne; reflexivity|].
        injection H as <- H. exists l1, l2. split; [exact H|]. intros I. apply N. right. exact I.
Qed.
Lemma lookup_key_none l key : lookup_key l key = None <-> ~ In key (map fst l).
Proof.
  induction l as [|[k x] l IH]; cbn; [tauto|]. destruct (String.eqb_spec k key) as [->|Ne]; [split; [discriminate|intros H; destruct H; auto]|].
  rewrite IH. tauto.
Qed.
Lemma require_iff n key v : require n key = ret v <-> has n key v.
Proof. destruct n; cbn; try (unfold throw, ret; split; [discriminate|intros []]). rewrite from_option_iff. apply (lookup_key_iff l). Qed.
Lemma subscript_some n key v : subscript n key = ret (Some v) <-> has n key v.
Proof.
  destruct n; cbn [subscript has]; try (unfold throw, ret; split; [discriminate|intros []]).
  rewrite ret_iff. apply (lookup_key_iff l).
Qed.
Lemma subscript_none n key : subscript n key = ret None <-> lacks n key.
Proof.
  destruct n; cbn [subscript lacks]; try (unfold throw, ret; split; [discriminate|intros []]); try (split; auto).
  - intros H. apply ret_iff, lookup_key_none in H. exact H.
  - intros H. apply ret_iff, lookup_key_none, H.
Qed.
Lemma has_unique n key v w : has n key v -> has n key w -> v = w.
Proof. rewrite <- !require_iff. unfold ret. congruence. Qed.
Lemma has_not_lacks n key v : has n key v -> lacks n key -> False.
Proof. rewrite <- subscript_some, <- subscript_none. unfold ret. congruence. Qed.

(** ** Scalars *)
Lemma require_string_iff n key s : require_string n key = ret s <-> text n key s.
Proof.
  unfold require_string, text. rewrite rbind_iff. split.
  - intros (c & H & G). apply require_iff in H. destruct c; try (apply throw_iff in G; tauto). apply ret_inj in G as ->. exact H.
  - intros H. exists (NScalar s). split; [apply require_iff, H|reflexivity].
Qed.
Lemma require_bool_iff L n key b : require_bool L n key = ret b <-> exists s, text n key s /\ as_bool L s = Some b.
Proof.
  unfold require_bool, text. rewrite rbind_iff. split.
  - intros (c & H & G). apply require_iff in H. destruct c; try (apply throw_iff in G; tauto). apply from_option_iff in G. eauto.
  - intros (s & H & G). exists (NScalar s). split; [apply require_iff, H|apply from_option_iff, G].
Qed.
Lemma extract_iff L low high n z : extract_integer L low high n = ret z <-> exists s, n = NScalar s /\ as_int64 L s = Some z /\ (low <= z <= high)%Z.
Proof.
  split.
  - destruct n; cbn; try (intros H; apply throw_iff in H; tauto). destruct (as_int64 L s) as [v|] eqn:E; [|intros H; apply throw_iff in H; tauto].
    destruct (v <? low)%Z eqn:E1; [intros H; apply throw_iff in H; tauto|]. destruct (v >? high)%Z eqn:E2; [intros H; apply throw_iff in H; tauto|].
    intros H. apply ret_inj in H as <-. exists s. repeat split; auto; lia.
  - intros (s & -> & E & B). cbn. rewrite E. replace (z <? low)%Z with false by lia. replace (z >? high)%Z with false by lia. reflexivity.
Qed.
Lemma require_integer_iff L low high n key z : require_integer L low high n key = ret z <-> exists s, text n key s /\ as_int64 L s = Some z /\ (low <= z <= high)%Z.
Proof.
  unfold require_integer. rewrite rbind_iff. split.
  - intros (c & H & G). apply require_iff in H. apply extract_iff in G as (s & -> & G). exists s. auto.
  - intros (s & H & G). exists (NScalar s). split; [apply require_iff, H|apply extract_iff; eauto].
Qed.
Lemma number_iff L n key high v : number L n key high v <-> exists z, require_integer L 0 high n key = ret z /\ v = Z.to_N z.
Proof.
  unfold number. split.
  - intros (s & z & T & E & B & ->). exists z. split; [apply require_integer_iff; eauto|reflexivity].
  - intros (z & H & ->). apply require_integer_iff in H as (s & T & E & B). eauto 6.
Qed.
Lemma optional_integer_iff L high n key d v : number_or L n key high d v <->
  exists z, optional_integer L 0 high n key (Z.of_N d) = ret z /\ v = Z.to_N z.
Proof.
  unfold number_or, optional_integer. split.
  - intros [(s & z & T & E & B & ->)|[H ->]].
    + exists z. split; [|reflexivity]. apply rbind_iff. exists (Some (NScalar s)). split; [apply subscript_some, T|apply extract_iff; eauto].
    + exists (Z.of_N d). split; [|rewrite N2Z.id; reflexivity]. apply rbind_iff. exists None. split; [apply subscript_none, H|reflexivity].
  - intros (z & H & ->). apply rbind_iff in H as ([c|] & H & G).
    + left. apply subscript_some in H. apply extract_iff in G as (s & -> & E & B). exists s, z. auto.
    + right. apply subscript_none in H. apply ret_inj in G. split; [exact H|subst z; rewrite N2Z.id; reflexivity].
Qed.
Lemma optional_string_iff n key d v : optional_string n key d = ret v <-> text n key v \/ (lacks n key /\ v = d).
Proof.
  unfold optional_string. rewrite rbind_iff. split.
  - intros ([c|] & H & G).
    + left. apply subscript_some in H. destruct c; try (apply throw_iff in G; tauto). apply ret_inj in G as <-. exact H.
    + right. apply subscript_none in H. apply ret_inj in G as <-. auto.
  - intros [H|[H ->]]; [exists (Some (NScalar v)); split; [apply subscript_some, H|reflexivity]|exists None; split; [apply subscript_none, H|reflexivity]].
Qed.

(** ** Durations *)
Lemma time_unit_iff n k : get_time_unit n = ret k <-> exists u, text n "unit" u /\ unit_ns u k.
Proof.
  unfold get_time_unit. rewrite rbind_iff. split.
  - intros (u & H & G). apply require_string_iff in H. exists u. split; [exact H|]. unfold unit_ns.
    destruct (String.eqb_spec u "milliseconds") as [->|_]; [apply ret_inj in G as <-; cbn; auto|].
    destruct (String.eqb_spec u "seconds") as [->|_]; [apply ret_inj in G as <-; cbn; auto|].
    destruct (String.eqb_spec u "minutes") as [->|_]; [apply ret_inj in G as <-; cbn; auto|].
    destruct (String.eqb_spec u "hours") as [->|_]; [apply ret_inj in G as <-; cbn; auto|].
    apply throw_iff in G. tauto.
  - intros (u & H & G). exists u. split; [apply require_string_iff, H|]. unfold unit_ns in G.
    destruct G as [G|[G|[G|[G|[]]]]]; injection G as <- <-; reflexivity.
Qed.
Lemma to_duration_iff v u ns : to_duration v u = ret ns <-> ns = (v * u)%Z /\ fits64 ns.
Proof.
  unfold to_duration, fits64, min_i64, max_i64. destruct (andb _ _) eqn:E.
  - rewrite ret_iff. split; [intros <-; split; [reflexivity|lia]|intros [-> _]; reflexivity].
  - split; [discriminate|]. intros [-> B]. exfalso. lia.
Qed.
Lemma get_duration_iff L d ns : library_ok L -> (get_duration_value L d = ret ns <-> says_duration L d ns /\ fits64 ns).
Proof.
  intros OL. unfold get_duration_value. rewrite rbind_iff. split.
  - intros (c & H & G). apply require_iff in H. apply rbind_iff in G as (z & G & K). apply extract_iff in G as (s & -> & E & B).
    apply rbind_iff in K as (k & K & T). apply time_unit_iff in K as (u & U & K). apply to_duration_iff in T as [-> F].
    split; [|exact F]. exists s, z, u, k. repeat split; auto; apply (OL s z E).
  - intros [(s & z & u & k & H & E & U & K & -> & F1) F]. exists (NScalar s). split; [apply require_iff, H|].
    apply rbind_iff. exists z. split; [apply extract_iff; exists s; repeat split; auto; unfold fits64, min_i64, max_i64 in *; lia|].
    apply rbind_iff. exists k. split; [apply time_unit_iff; eauto|]. apply to_duration_iff. auto.
Qed.
Lemma duration_iff L n key ns : library_ok L -> (require_duration L n key = ret ns <-> duration L n key ns).
Proof.
  intros OL. unfold require_duration, duration. rewrite rbind_iff. split.
  - intros (d & H & G). apply require_iff in H. apply get_duration_iff in G; eauto.
  - intros (d & H & G & F). exists d. split; [apply require_iff, H|]. apply get_duration_iff; auto.
Qed.
Lemma duration_or_iff L n key d ns : library_ok L -> (optional_duration L n key d = ret ns <-> duration_or L n key d ns).
Proof.
  intros OL. unfold optional_duration, duration_or, duration. rewrite rbind_iff. split.
  - intros ([c|] & H & G).
    + left. apply subscript_some in H. apply get_duration_iff in G; eauto.
    + right. apply subscript_none in H. apply ret_inj in G as <-. auto.
  - intros [(c & H & G & F)|[H ->]].
    + exists (Some c). split; [apply subscript_some, H|]. apply get_duration_iff; auto.
    + exists None. split; [apply subscript_none, H|reflexivity].
Qed.
Lemma unit_ms u k : unit_ns u k -> exists m, k = (m * 1000000)%Z.
Proof. intros [H|[H|[H|[H|[]]]]]; injection H as _ <-; [exists 1%Z|exists 1000%Z|exists 60000%Z|exists 3600000%Z]; reflexivity. Qed.
Lemma quot_ms a : Z.quot (a * 1000000) 1000000 = a. Proof. apply Z.quot_mul. lia. Qed.
Lemma ms_or_iff L n key d ms : library_ok L -> (d < 2 ^ 32)%N -> (ms_or L n key d ms <-> exists z, get_optional_ms L n key (Z.of_N d) = ret z /\ ms = Z.to_N z).
Proof.
  intros OL Hd. unfold get_optional_ms, ms_or. split.
  - intros [[H B]|[H ->]].
    + exists (Z.of_N ms). split; [|lia]. apply rbind_iff. exists (Z.of_N ms * 1000000)%Z. split; [apply duration_or_iff; [exact OL|left; exact H]|].
      rewrite quot_ms. unfold max_u32. replace (_ <? 0)%Z with false by lia. replace (_ >? _)%Z with false by lia. reflexivity.
    + exists (Z.of_N d). split; [|lia]. apply rbind_iff. exists (Z.of_N d * 1000000)%Z. split; [apply duration_or_iff; [exact OL|right; auto]|].
      rewrite quot_ms. unfold max_u32. replace (_ <? 0)%Z with false by lia. replace (_ >? _)%Z with false by lia. reflexivity.
  - intros (z & H & ->). apply rbind_iff in H as (ns & H & G). apply duration_or_iff in H; [|exact OL]. destruct H as [H|[H ->]].
    + left. pose proof H as H0. destruct H as (c & _ & (s & v & u & k & _ & _ & _ & U & -> & _) & _). apply unit_ms in U as (m & ->).
      rewrite Z.mul_assoc in *. rewrite quot_ms in G. unfold max_u32 in G.
      destruct (v * m <? 0)%Z eqn:E1; [apply throw_iff in G; tauto|]. destruct (v * m >? 4294967295)%Z eqn:E2; [apply throw_iff in G; tauto|].
      apply ret_inj in G as <-. rewrite Z2N.id by lia. split; [exact H0|lia].
    + right. split; [exact H|]. rewrite quot_ms in G. unfold max_u32 in G.
      destruct (Z.of_N d <? 0)%Z eqn:E1; [apply throw_iff in G; tauto|]. destruct (_ >? 4294967295)%Z eqn:E2; [apply throw_iff in G; tauto|].
      apply ret_inj in G as <-. lia.
Qed.

(** ** Files *)
Lemma entry_eqb_iff a b : entry_eqb a b = true <-> a = b.
Proof. destruct a, b; cbn; split; congruence. Qed.
Lemma file_of_bytes t k : bytes_ok (file_of t k) -> bytes_ok k.
Proof.
  unfold file_of, wire_container, wire_seq. cbn [cf_type cf_payload]. unfold bytes_ok. rewrite !Forall_app. tauto.
Qed.
Lemma get_crypto_key_iff L f path t k : files_ok f -> (get_crypto_key L f path t = ret k <-> readable f (file_at L path) (file_of t k) /\ length k = 32).
Proof.
  intros F. unfold get_crypto_key. split.
  - destruct (read_container f (file_at L path)) as [c|] eqn:E; [|intros H; apply throw_iff in H; tauto].
    apply read_container_iff in E as [Q R]; [|exact F].
    destruct (entry_eqb (cf_type c) t) eqn:E1; cbn [negb]; [|intros H; apply throw_iff in H; tauto].
    destruct (length (cf_payload c) =? 32) eqn:E2; cbn [negb]; [|intros H; apply throw_iff in H; tauto].
    intros H. apply ret_inj in H. apply entry_eqb_iff in E1. apply Nat.eqb_eq in E2. destruct c as [t' k']. cbn [cf_type cf_payload] in *. subst. auto.
  - intros [R Lk]. assert (E : read_container f (file_at L path) = Some {| cf_type := t; cf_payload := k |}).
    { apply read_container_iff; [exact F|]. split; [|exact R]. apply (seq_ok_len _ 32); [exact Lk|reflexivity|].
      apply (file_of_bytes t). eapply F, R. }
    rewrite E. cbn [cf_type cf_payload]. rewrite (proj2 (entry_eqb_iff t t) eq_refl), Lk. reflexivity.
Qed.
Lemma key_in_iff L f n key t k : files_ok f -> (key_in L f n key t k <-> rbind (require_string n key) (fun path => get_crypto_key L f path t) = ret k).
Proof.
  intros F. unfold key_in. rewrite rbind_iff. split.
  - intros (p & T & R & Lk). exists p. split; [apply require_string_iff, T|]. apply get_crypto_key_iff; auto.
  - intros (p & T & R). apply require_string_iff in T. apply get_crypto_key_iff in R; [|exact F]. exists p. tauto.
Qed.
Lemma file_read_iff f p d : file_read f p = Some d <-> readable f p d.
Proof.
  unfold file_read, readable. destruct (f p) as [x|]; [|split; [discriminate|intros [? _]; discriminate]].
  destruct (length x <=? 0) eqn:E1; [split; [discriminate|intros [[= ->] ?]; lia]|].
  destruct (4096 <? length x) eqn:E2; [split; [discriminate|intros [[= ->] ?]; lia]|].
  split; [intros [= ->]; split; [reflexivity|lia]|intros [[= ->] _]; reflexivity].
Qed.
Lemma data_in_iff L f n key d : data_in L f n key d <-> get_file_data L f n key = ret d.
Proof.
  unfold data_in, get_file_data. rewrite rbind_iff. split.
  - intros (p & T & R). exists p. split; [apply require_string_iff, T|]. apply from_option_iff, file_read_iff, R.
  - intros (p & T & R). exists p. split; [apply require_string_iff, T|]. apply from_option_iff, file_read_iff in R. exact R.
Qed.
Lemma static_keys_iff L f n a b : files_ok f -> (get_local_static_keys L f n = ret (a, b) <->
  key_in L f n "local_public_key_path" ce_x25519_public_key a /\ key_in L f n "local_private_key_path" ce_x25519_private_key b).
Proof.
  intros F. rewrite !key_in_iff by exact F. unfold get_local_static_keys. split.
  - intros H. apply rbind_iff in H as (p1 & H1 & H). apply rbind_iff in H as (x & H2 & H). apply rbind_iff in H as (p2 & H3 & H). apply rbind_iff in H as (y & H4 & H).
    apply ret_inj in H. injection H as -> ->. split; apply rbind_iff; eauto.
  - intros [H G]. apply rbind_iff in H as (p1 & H1 & H2). apply rbind_iff in G as (p2 & H3 & H4). rewrite rbind_iff. exists p1. split; [exact H1|].
    rewrite rbind_iff. exists a. split; [exact H2|]. rewrite rbind_iff. exists p2. split; [exact H3|]. rewrite rbind_iff. exists b. split; [exact H4|reflexivity].
Qed.

(** ** Groups of settings *)
Lemma number16 L n key d v : number_or L n key 65535 d v <-> exists z, optional_integer L 0 max_u16 n key (Z.of_N d) = ret z /\ v = Z.to_N z.
Proof. apply optional_integer_iff. Qed.
Lemma number32 L n key d v : number_or L n key 4294967295 d v <-> exists z, optional_integer L 0 max_u32 n key (Z.of_N d) = ret z /\ v = Z.to_N z.
Proof. apply optional_integer_iff. Qed.
Lemma bind_ret {A B} (p : res A) (g : A -> res B) a b : p = ret a -> g a = ret b -> rbind p g = ret b.
Proof. intros -> H. exact H. Qed.

Lemma responder_config_iff L s g : library_ok L -> (get_responder_config L s = ret g <-> responder_settings L s g).
Proof.
  intros OL. unfold get_responder_config, responder_settings, get_crypto_layer_config, get_session_config. split.
  - intros H. apply rbind_iff in H as (z1 & H1 & H). apply rbind_iff in H as (z2 & H2 & H). apply ret_inj in H as <-. cbn [rg_max_payload rg_ttl_pad_ms].
    split; [apply number16; eauto|apply ms_or_iff; eauto; reflexivity].
  - intros [H1 H2]. apply number16 in H1 as (z1 & H1 & E1). apply ms_or_iff in H2 as (z2 & H2 & E2); [|exact OL|reflexivity].
    apply (bind_ret _ _ z1); [exact H1|]. apply (bind_ret _ _ z2); [exact H2|]. destruct g. cbn in *. subst. reflexivity.
Qed.
Lemma initiator_config_iff L h s g : library_ok L -> (get_initiator_config L h s = ret g <-> initiator_settings L h s g).
Proof.
  intros OL. unfold get_initiator_config, initiator_settings, get_crypto_layer_config, get_session_config, get_session_limits. split.
  - intros H. apply rbind_iff in H as (z1 & H1 & H). apply rbind_iff in H as (z2 & H2 & H). apply rbind_iff in H as (l & H3 & H).
    apply rbind_iff in H3 as (z3 & H3 & H4). apply rbind_iff in H4 as (z4 & H4 & H5). apply ret_inj in H5 as <-.
    apply rbind_iff in H as (z5 & H5 & H). apply rbind_iff in H as (z6 & H6 & H). apply rbind_iff in H as (z7 & H7 & H). apply rbind_iff in H as (z8 & H8 & H).
    apply ret_inj in H as <-. cbn [ig_max_payload ig_ttl_pad_ms ig_limits ig_nonce_trigger ig_time_trigger_ms ig_response_timeout ig_retry_timeout l_max_nonce l_max_time_ms].
    repeat split.
    + apply number16; eauto.
    + apply ms_or_iff; eauto; reflexivity.
    + apply number16; eauto.
    + apply number32; eauto.
    + apply number16; eauto.
    + apply ms_or_iff; eauto; reflexivity.
    + apply duration_or_iff; auto.
    + apply duration_or_iff; auto.
  - intros (H1 & H2 & H3 & H4 & H5 & H8 & H6 & H7).
    apply number16 in H1 as (z1 & H1 & E1). apply ms_or_iff in H2 as (z2 & H2 & E2); [|exact OL|reflexivity].
    apply number16 in H3 as (z3 & H3 & E3). apply number32 in H4 as (z4 & H4 & E4). apply number16 in H5 as (z5 & H5 & E5).
    apply ms_or_iff in H8 as (z8 & H8 & E8); [|exact OL|reflexivity]. apply duration_or_iff in H6; [|exact OL]. apply duration_or_iff in H7; [|exact OL].
    apply (bind_ret _ _ z1); [exact H1|]. apply (bind_ret _ _ z2); [exact H2|].
    apply (bind_ret _ _ {| l_max_nonce := Z.to_N z3; l_max_time_ms := Z.to_N z4 |}); [apply (bind_ret _ _ z3); [exact H3|]; apply (bind_ret _ _ z4); [exact H4|reflexivity]|].
    apply (bind_ret _ _ z5); [exact H5|]. apply (bind_ret _ _ _ _ H6). apply (bind_ret _ _ _ _ H7). apply (bind_ret _ _ z8); [exact H8|].
    destruct g as [? ? ? ? [? ?] ? ?]. cbn in *. subst. reflexivity.
Qed.

(** ** Modes *)
Lemma get_mode_iff n m : get_mode n = ret m <-> text n "type" (mode_name m).
Proof.
  unfold get_mode. rewrite rbind_iff. split.
  - intros (u & H & G). apply require_string_iff in H.
    destruct (String.eqb_spec u "shared_secret") as [->|_]; [apply ret_inj in G as <-; exact H|].
    destruct (String.eqb_spec u "qkd") as [->|_]; [apply ret_inj in G as <-; exact H|].
    destruct (String.eqb_spec u "preshared_public_key") as [->|_]; [apply ret_inj in G as <-; exact H|].
    destruct (String.eqb_spec u "certificate") as [->|_]; [apply ret_inj in G as <-; exact H|].
    apply throw_iff in G. tauto.
  - intros H. exists (mode_name m). split; [apply require_string_iff, H|destruct m; reflexivity].
Qed.
Lemma get_stack_type_iff n t : get_stack_type n = ret t <-> text n "mode" (match t with TInitiator => "initiator" | TResponder => "responder" end).
Proof.
  unfold get_stack_type. rewrite rbind_iff. split.
  - intros (u & H & G). apply require_string_iff in H.
    destruct (String.eqb_spec u "initiator") as [->|_]; [apply ret_inj in G as <-; exact H|].
    destruct (String.eqb_spec u "responder") as [->|_]; [apply ret_inj in G as <-; exact H|].
    apply throw_iff in G. tauto.
  - intros H. eexists. split; [apply require_string_iff, H|destruct t; reflexivity].
Qed.
Lemma get_suite_iff h c : get_crypto_suite h = ret c <-> exists m, c = suite_of m /\ says_algorithm h m.
Proof.
  unfold get_crypto_suite, get_session_crypto_mode, says_algorithm. split.
  - intros H. apply rbind_iff in H as (a & H & G). apply require_iff in H. apply rbind_iff in G as (m & G & E). apply ret_inj in E as <-.
    exists m. split; [reflexivity|]. exists a. split; [exact H|]. apply rbind_iff in G as (u & G & E). apply require_string_iff in G.
    destruct (String.eqb_spec u "hmac_sha256_16") as [->|_]; [apply ret_inj in E as <-; exact G|].
    destruct (String.eqb_spec u "aes_256_gcm") as [->|_]; [apply ret_inj in E as <-; exact G|]. apply throw_iff in E. tauto.
  - intros (m & -> & a & H & G). apply require_iff in H. apply require_string_iff in G. apply (bind_ret _ _ _ _ H). apply (bind_ret _ _ m); [|reflexivity].
    apply (bind_ret _ _ _ _ G). destruct m; reflexivity.
Qed.
Lemma addresses_iff L d a : get_addresses L d = ret a <-> number L d "local" 65535 (a_source a) /\ number L d "remote" 65535 (a_destination a).
Proof.
  rewrite !number_iff. unfold get_addresses. split.
  - intros H. apply rbind_iff in H as (x & H & G). apply rbind_iff in G as (y & G & E). apply ret_inj in E as <-. cbn. split; eauto.
  - intros [(x & H & Ex) (y & G & Ey)]. apply (bind_ret _ _ _ _ G). apply (bind_ret _ _ _ _ H). destruct a. cbn in *. subst. reflexivity.
Qed.

(** ** Key stores *)
Definition binds_to (r : registry) (c : credentials) (r' : registry) : Prop :=
  match c with
  | CQkd s => exists src src', find_source r (sr_source s) = Some src /\ bind_key_store src (sr_subscriber s) (N.to_nat (sr_cache s)) = Some src' /\
                               r' = put_source r (sr_source s) src'
  | _ => r' = r
  end.
Lemma bind_store_iff L r n r' s : bind_store L r n = ret (r', s) <->
  text n "key_source_id" (sr_source s) /\ number L n "subscriber_id" 65535 (sr_subscriber s) /\ number L n "max_key_cache_size" 65535 (sr_cache s) /\ binds_to r (CQkd s) r'.
Proof.
  unfold bind_store, binds_to. rewrite !number_iff. split.
  - intros H. apply rbind_iff in H as (id & H1 & H). apply require_string_iff in H1. destruct (find_source r id) as [src|] eqn:E; [|apply throw_iff in H; tauto].
    apply rbind_iff in H as (x & H2 & H). apply rbind_iff in H as (y & H3 & H).
    destruct (bind_key_store src (Z.to_N x) (Z.to_nat y)) as [src'|] eqn:B; [|apply throw_iff in H; tauto]. apply ret_inj in H. injection H as <- <-. cbn [sr_source sr_subscriber sr_cache].
    split; [exact H1|]. split; [eauto|]. split; [eauto|]. exists src, src'. rewrite Z_N_nat. auto.
  - intros (H1 & (x & H2 & Ex) & (y & H3 & Ey) & src & src' & E & B & ->). apply require_string_iff in H1. apply (bind_ret _ _ _ _ H1). rewrite E.
    apply (bind_ret _ _ _ _ H2). apply (bind_ret _ _ _ _ H3). rewrite Ey, Z_N_nat, Ex in B. rewrite B. destruct s. cbn in *. subst. reflexivity.
Qed.

Lemma initiator_credentials_iff L f r mode h r' suite c : files_ok f ->
  (get_initiator_credentials L f r mode h = ret (r', (suite, c)) /\ text h "type" (mode_name mode)) <->
  (says_credentials L f h c /\ credentials_mode c = mode /\ binds_to r c r' /\
   exists m, suite = suite_of m /\ if mode_eqb (credentials_mode c) hm_industrial_certificates then m = hmac_sha256_16 /\ exists a, has h "algorithms" a else says_algorithm h m).
Proof.
  intros F. split.
  - intros [H T]. destruct mode; cbn [get_initiator_credentials] in H.
    + apply rbind_iff in H as (k & H1 & H). apply rbind_iff in H as (s & H2 & H). apply ret_inj in H. injection H as <- <- <-.
      apply get_suite_iff in H2. apply key_in_iff in H1; [|exact F]. split; [split; assumption|]. split; [reflexivity|]. split; [reflexivity|exact H2].
    + apply rbind_iff in H as ([a b] & H1 & H). apply rbind_iff in H as (k & H2 & H). apply rbind_iff in H as (s & H3 & H). apply ret_inj in H. injection H as <- <- <-.
      apply static_keys_iff in H1 as [H1 H1']; [|exact F]. apply key_in_iff in H2; [|exact F]. apply get_suite_iff in H3.
      split; [repeat split; assumption|]. split; [reflexivity|]. split; [reflexivity|exact H3].
    + apply rbind_iff in H as ([r1 st] & H1 & H). apply rbind_iff in H as (s & H2 & H). apply ret_inj in H. injection H as <- <- <-.
      apply get_suite_iff in H2. apply bind_store_iff in H1 as (A & B & C & D). split; [repeat split; assumption|]. split; [reflexivity|]. split; [exact D|exact H2].
    + apply rbind_iff in H as ([a b] & H1 & H). apply rbind_iff in H as (x & H2 & H). apply rbind_iff in H as (y & H3 & H). apply rbind_iff in H as (z & H4 & H). apply ret_inj in H. injection H as <- <- <-.
      apply static_keys_iff in H1 as [H1 H1']; [|exact F]. apply data_in_iff in H2. apply data_in_iff in H3. apply require_iff in H4.
      split; [repeat split; assumption|]. split; [reflexivity|]. split; [reflexivity|]. exists hmac_sha256_16. split; [reflexivity|]. cbn. eauto.
  - intros (H & M & B & m & E & A). destruct H as [T H]. rewrite M in T. split; [|exact T]. subst suite. rewrite M in A.
    destruct c; cbn [credentials_mode] in M; subst mode; cbn [get_initiator_credentials mode_eqb] in *.
    + apply key_in_iff in H; [|exact F]. apply (bind_ret _ _ _ _ H). cbn in B, A. subst r'. apply (bind_ret _ _ (suite_of m)); [apply get_suite_iff; eauto|reflexivity].
    + cbn in A. destruct H as (H1 & H2 & H3). apply (bind_ret _ _ (r', store)); [apply bind_store_iff; auto|]. apply (bind_ret _ _ (suite_of m)); [apply get_suite_iff; eauto|reflexivity].
    + cbn in A, B. destruct H as (H1 & H2 & H3). subst r'. apply (bind_ret _ _ (public, private)); [apply static_keys_iff; auto|]. cbn iota beta.
      apply key_in_iff in H3; [|exact F]. apply (bind_ret _ _ _ _ H3). apply (bind_ret _ _ (suite_of m)); [apply get_suite_iff; eauto|reflexivity].
    + cbn in A, B. destruct H as (H1 & H2 & H3 & H4). destruct A as [-> (al & A)]. subst r'. apply (bind_ret _ _ (public, private)); [apply static_keys_iff; auto|]. cbn iota beta.
      apply data_in_iff in H3, H4. apply (bind_ret _ _ _ _ H3). apply (bind_ret _ _ _ _ H4). apply require_iff in A. apply (bind_ret _ _ _ _ A). reflexivity.
Qed.
Lemma responder_credentials_iff L f r mode h r' c : files_ok f ->
  (get_responder_credentials L f r mode h = ret (r', c) /\ text h "type" (mode_name mode)) <->
  (says_credentials L f h c /\ credentials_mode c = mode /\ binds_to r c r').
Proof.
  intros F. split.
  - intros [H T]. destruct mode; cbn [get_responder_credentials] in H.
    + apply rbind_iff in H as (k & H1 & H). apply ret_inj in H. injection H as <- <-.
      apply key_in_iff in H1; [|exact F]. split; [split; assumption|]. split; reflexivity.
    + apply rbind_iff in H as ([a b] & H1 & H). apply rbind_iff in H as (k & H2 & H). apply ret_inj in H. injection H as <- <-.
      apply static_keys_iff in H1 as [H1 H1']; [|exact F]. apply key_in_iff in H2; [|exact F].
      split; [repeat split; assumption|]. split; reflexivity.
    + apply rbind_iff in H as ([r1 st] & H1 & H). apply ret_inj in H. injection H as <- <-.
      apply bind_store_iff in H1 as (A & B & C & D). split; [repeat split; assumption|]. split; [reflexivity|]. exact D.
    + apply rbind_iff in H as ([a b] & H1 & H). apply rbind_iff in H as (x & H2 & H). apply rbind_iff in H as (y & H3 & H). apply ret_inj in H. injection H as <- <-.
      apply static_keys_iff in H1 as [H1 H1']; [|exact F]. apply data_in_iff in H2. apply data_in_iff in H3.
      split; [repeat split; assumption|]. split; reflexivity.
  - intros (H & M & B). destruct H as [T H]. rewrite M in T. split; [|exact T].
    destruct c; cbn [credentials_mode] in M; subst mode; cbn [get_responder_credentials] in *.
    + apply key_in_iff in H; [|exact F]. apply (bind_ret _ _ _ _ H). cbn in B. subst r'. reflexivity.
    + destruct H as (H1 & H2 & H3). apply (bind_ret _ _ (r', store)); [apply bind_store_iff; auto|]. reflexivity.
    + cbn in B. destruct H as (H1 & H2 & H3). subst r'. apply (bind_ret _ _ (public, private)); [apply static_keys_iff; auto|]. cbn iota beta.
      apply key_in_iff in H3; [|exact F]. apply (bind_ret _ _ _ _ H3). reflexivity.
    + cbn in B. destruct H as (H1 & H2 & H3 & H4). subst r'. apply (bind_ret _ _ (public, private)); [apply static_keys_iff; auto|]. cbn iota beta.
      apply data_in_iff in H3, H4. apply (bind_ret _ _ _ _ H3). apply (bind_ret _ _ _ _ H4). reflexivity.
Qed.

(** ** Stacks *)
Definition role_credentials (r : frole) : credentials := match r with FInitiator _ _ c | FResponder _ c => c end.
Lemma stack_factory_iff L f r n r' fac : library_ok L -> files_ok f ->
  (get_stack_factory L f r n = ret (r', fac) <-> says_stack L f n fac /\ binds_to r (role_credentials (fa_role fac)) r').
Proof.
  intros OL F. unfold get_stack_factory, says_stack, says_link, says_role. split.
  - intros H. apply rbind_iff in H as (l & H1 & H). apply require_iff in H1. apply rbind_iff in H as (sec & H2 & H). apply require_iff in H2.
    apply rbind_iff in H as (ty & H3 & H). apply get_stack_type_iff in H3. apply rbind_iff in H as (en & H4 & H). apply require_bool_iff in H4 as (s & T & H4).
    apply rbind_iff in H as (ad & H5 & H). apply rbind_iff in H as ([r1 role] & H6 & H). apply ret_inj in H. injection H as <- <-. cbn [fa_addresses fa_role].
    assert (A : match ad with None => as_bool L s = Some false
       | Some a => as_bool L s = Some true /\ exists d, has l "address" d /\ number L d "local" 65535 (a_source a) /\ number L d "remote" 65535 (a_destination a) end).
    { destruct en.
      - apply rbind_iff in H5 as (d & G1 & G). apply require_iff in G1. apply rbind_iff in G as (a & G2 & G). apply ret_inj in G as <-. apply addresses_iff in G2. eauto.
      - apply ret_inj in H5 as <-. exact H4. }
    destruct ty.
    + unfold get_initiator_factory in H6. apply rbind_iff in H6 as (h & K1 & H). apply require_iff in K1. apply rbind_iff in H as (se & K2 & H). apply require_iff in K2.
      apply rbind_iff in H as (g & K3 & H). apply initiator_config_iff in K3; [|exact OL]. apply rbind_iff in H as (m & K4 & H). apply get_mode_iff in K4.
      apply rbind_iff in H as ([r2 [su c]] & K5 & H). apply ret_inj in H. injection H as <- <-.
      destruct (proj1 (initiator_credentials_iff L f r m h r2 su c F) (conj K5 K4)) as (C1 & C2 & C3 & C4).
      split; [|exact C3]. split; [eauto|]. exists sec. split; [exact H2|]. exists h, se. auto 8.
    + unfold get_responder_factory in H6. apply rbind_iff in H6 as (h & K1 & H). apply require_iff in K1. apply rbind_iff in H as (se & K2 & H). apply require_iff in K2.
      apply rbind_iff in H as (g & K3 & H). apply responder_config_iff in K3; [|exact OL]. apply rbind_iff in H as (m & K4 & H). apply get_mode_iff in K4.
      apply rbind_iff in H as ([r2 c] & K5 & H). apply ret_inj in H. injection H as <- <-.
      destruct (proj1 (responder_credentials_iff L f r m h r2 c F) (conj K5 K4)) as (C1 & C2 & C3).
      split; [|exact C3]. split; [eauto|]. exists sec. split; [exact H2|]. exists h, se. auto 8.
  - intros [[(l & s & H1 & T & A) (sec & H2 & h & se & K1 & K2 & R)] B]. destruct fac as [ad role]. cbn [fa_addresses fa_role] in *.
    apply require_iff in H1. apply (bind_ret _ _ _ _ H1). apply require_iff in H2. apply (bind_ret _ _ _ _ H2). apply require_iff in K1. apply require_iff in K2.
    set (ty := match role with FInitiator _ _ _ => TInitiator | _ => TResponder end).
    apply (bind_ret _ _ ty). { apply get_stack_type_iff. unfold ty. destruct role; apply R. }
    apply (bind_ret _ _ (match ad with Some _ => true | None => false end)).
    { apply require_bool_iff. exists s. split; [exact T|]. destruct ad; [apply A|exact A]. }
    apply (bind_ret _ _ ad).
    { destruct ad as [a|]; [|reflexivity]. destruct A as (_ & d & A1 & A2). apply require_iff in A1. apply (bind_ret _ _ _ _ A1). apply (bind_ret _ _ a); [apply addresses_iff, A2|reflexivity]. }
    apply (bind_ret _ _ (r', role)); [|reflexivity]. destruct role as [g su c|g c]; unfold ty; clear ty; cbn [role_credentials] in B.
    + destruct R as (_ & R1 & R2 & R3). unfold get_initiator_factory. apply (bind_ret _ _ _ _ K1). apply (bind_ret _ _ _ _ K2). apply initiator_config_iff in R1; [|exact OL]. apply (bind_ret _ _ _ _ R1).
      destruct (proj2 (initiator_credentials_iff L f r (credentials_mode c) h r' su c F)) as [G1 G2]; [auto|]. apply get_mode_iff in G2. apply (bind_ret _ _ _ _ G2). apply (bind_ret _ _ _ _ G1). reflexivity.
    + destruct R as (_ & R1 & R2). unfold get_responder_factory. apply (bind_ret _ _ _ _ K1). apply (bind_ret _ _ _ _ K2). apply responder_config_iff in R1; [|exact OL]. apply (bind_ret _ _ _ _ R1).
      destruct (proj2 (responder_credentials_iff L f r (credentials_mode c) h r' c F)) as [G1 G2]; [auto|]. apply get_mode_iff in G2. apply (bind_ret _ _ _ _ G2). apply (bind_ret _ _ _ _ G1). reflexivity.
Qed.

(** ** Sessions *)
Lemma endpoint_iff L t key e : get_endpoint L t key = ret e <-> says_endpoint L t key e.
Proof.
  unfold get_endpoint, says_endpoint. split.
  - intros H. apply rbind_iff in H as (c & H1 & H). apply require_iff in H1. apply rbind_iff in H as (a & H2 & H). apply require_string_iff in H2.
    apply rbind_iff in H as (p & H3 & H). apply ret_inj in H as <-. exists c. cbn. rewrite number_iff. eauto 6.
  - intros (c & H1 & H2 & H3). apply number_iff in H3 as (z & H3 & E). apply require_iff in H1. apply require_string_iff in H2.
    apply (bind_ret _ _ _ _ H1). apply (bind_ret _ _ _ _ H2). apply (bind_ret _ _ _ _ H3). destruct e. cbn in *. subst. reflexivity.
Qed.
Lemma contains_iff c s : contains c s = true <-> In c (letters s).
Proof.
  induction s as [|d s IH]; cbn; [split; [discriminate|tauto]|]. rewrite orb_true_iff, IH, Ascii.eqb_eq. split; intros [H|H]; auto.
Qed.
Lemma levels_iff s : levels_known s = true <-> incl (letters s) (letters "vewidcfm").
Proof.
  induction s as [|c s IH].
  - cbn. split; [intros _ x []|reflexivity].
  - change (levels_known (String.String c s)) with (contains c "vewidcfm" && levels_known s). change (letters (String.String c s)) with (c :: letters s).
    rewrite andb_true_iff, IH, contains_iff. split.
    + intros [A B] x [<-|X]; auto.
    + intros H. split; [apply H; left; reflexivity|intros x X; apply H; right; exact X].
Qed.
Lemma session_iff L f r n r' p : library_ok L -> files_ok f ->
  (get_session_factory L f r n = ret (r', p) <-> says_session L f n p /\ binds_to r (role_credentials (fa_role (pl_factory p))) r').
Proof.
  intros OL F. unfold get_session_factory, says_session, says_transport. split.
  - intros H. apply rbind_iff in H as (id & H1 & H). apply require_string_iff in H1. apply rbind_iff in H as (lv & H2 & H). apply require_string_iff in H2.
    destruct (levels_known lv) eqn:E; cbn [negb] in H; [|apply throw_iff in H; tauto]. apply levels_iff in E.
    apply rbind_iff in H as ([r1 fac] & H3 & H). apply stack_factory_iff in H3 as [H3 B]; auto. apply rbind_iff in H as (t & H4 & H). apply require_iff in H4.
    apply rbind_iff in H as (ty & H5 & H). apply require_string_iff in H5. apply rbind_iff in H as (tr & H6 & H). apply ret_inj in H. injection H as <- <-.
    cbn [pl_id pl_levels pl_factory pl_transport]. split; [|exact B]. repeat (split; [assumption|]).
    destruct (String.eqb_spec ty "tcp") as [->|_].
    + unfold uses_link_layer in H6. destruct (fa_addresses fac) as [a|]; cbn [negb] in H6; [|apply throw_iff in H6; tauto].
      apply rbind_iff in H6 as (mx & K1 & H6). apply rbind_iff in H6 as (li & K2 & H6). apply endpoint_iff in K2. apply rbind_iff in H6 as (co & K3 & H6). apply endpoint_iff in K3. apply ret_inj in H6 as <-.
      split; [|eauto]. exists t. split; [exact H4|]. split; [exact H5|]. split; [apply number_iff; eauto|auto].
    + destruct (String.eqb_spec ty "udp") as [->|_]; [|apply throw_iff in H6; tauto].
      apply rbind_iff in H6 as (a & K1 & H6). apply rbind_iff in H6 as (b & K2 & H6). apply rbind_iff in H6 as (c & K3 & H6). apply rbind_iff in H6 as (d & K4 & H6). apply ret_inj in H6 as <-.
      apply endpoint_iff in K1, K2, K3, K4. split; [|exact I]. exists t. auto 8.
  - intros [(H1 & H2 & E & H3 & (t & H4 & H5) & H6) B]. apply require_string_iff in H1, H2. apply (bind_ret _ _ _ _ H1). apply (bind_ret _ _ _ _ H2).
    apply levels_iff in E. rewrite E. cbn [negb]. destruct p as [id lv fac tr]. cbn [pl_id pl_levels pl_factory pl_transport] in *.
    apply (bind_ret _ _ (r', fac)); [apply stack_factory_iff; auto|]. cbn iota beta. apply require_iff in H4. apply (bind_ret _ _ _ _ H4). destruct tr as [mx li co|a b c d].
    + destruct H5 as (K0 & K1 & K2 & K3). apply require_string_iff in K0. apply (bind_ret _ _ _ _ K0). apply (bind_ret _ _ (Tcp mx li co)); [|reflexivity].
      change (String.eqb "tcp" "tcp") with true. cbn iota. unfold uses_link_layer. destruct H6 as [a ->]. cbn [negb]. apply number_iff in K1 as (z & K1 & ->).
      apply (bind_ret _ _ _ _ K1). apply endpoint_iff in K2, K3. apply (bind_ret _ _ _ _ K2). apply (bind_ret _ _ _ _ K3). reflexivity.
    + destruct H5 as (K0 & K1 & K2 & K3 & K4). apply require_string_iff in K0. apply (bind_ret _ _ _ _ K0). apply (bind_ret _ _ (Udp a b c d)); [|reflexivity].
      change (String.eqb "udp" "tcp") with false. change (String.eqb "udp" "udp") with true. cbn iota. apply endpoint_iff in K1, K2, K3, K4.
      apply (bind_ret _ _ _ _ K1). apply (bind_ret _ _ _ _ K2). apply (bind_ret _ _ _ _ K3). apply (bind_ret _ _ _ _ K4). reflexivity.
Qed.

(** ** Sources *)
Lemma one_of_iff n key allowed d v : rbind (optional_string n key d) (one_of allowed) = ret v <-> one_of_or n key allowed d v.
Proof.
  unfold one_of_or. rewrite rbind_iff. unfold one_of. split.
  - intros (u & H & G). apply optional_string_iff in H. destruct (existsb (String.eqb u) allowed) eqn:E; [|apply throw_iff in G; tauto]. apply ret_inj in G as <-.
    apply existsb_exists in E as (x & I & E). apply String.eqb_eq in E as ->. auto.
  - intros [I H]. exists v. split; [apply optional_string_iff, H|]. replace (existsb _ _) with true; [reflexivity|]. symmetry. apply existsb_exists. exists v. split; [exact I|apply String.eqb_refl].
Qed.
Lemma opt_nonneg L high n key d z : (0 <= d)%Z -> optional_integer L 0 high n key d = ret z -> (0 <= z)%Z.
Proof.
  intros D H. apply rbind_iff in H as ([c|] & H & G); [apply extract_iff in G as (s & _ & _ & B); lia|]. apply ret_inj in G. lia.
Qed.
Lemma serial_iff L n s : read_serial_settings L n = ret s <-> says_serial L n s.
Proof.
  unfold read_serial_settings, says_serial, get_flow_control, get_stop_bits. split.
  - intros H. apply rbind_iff in H as (a & H1 & H). apply rbind_iff in H as (b & H2 & H). apply rbind_iff in H as (c & H3 & H). apply rbind_iff in H as (d & H4 & H). apply rbind_iff in H as (e & H5 & H).
    apply ret_inj in H as <-. cbn [se_device se_baud se_bits se_flow se_stop]. apply require_string_iff in H1. apply one_of_iff in H4, H5.
    assert (G2 := H2). apply opt_nonneg in G2; [|discriminate]. assert (G3 := H3). apply opt_nonneg in G3; [|discriminate].
    split; [exact H1|]. split; [apply number32; eauto|]. split; [apply number32; eauto|]. auto.
  - intros (H1 & H2 & H3 & B1 & B2 & H4 & H5). apply require_string_iff in H1. apply one_of_iff in H4, H5. apply number32 in H2 as (x & H2 & E2). apply number32 in H3 as (y & H3 & E3).
    assert (G2 := H2). apply opt_nonneg in G2; [|discriminate]. assert (G3 := H3). apply opt_nonneg in G3; [|discriminate].
    apply (bind_ret _ _ _ _ H1). apply (bind_ret _ _ _ _ H2). apply (bind_ret _ _ _ _ H3). apply (bind_ret _ _ _ _ H4). apply (bind_ret _ _ _ _ H5).
    destruct s as [dv bd bt fl st]. cbn [se_device se_baud se_bits se_flow se_stop] in *. apply Z2N.inj in E2, E3; try assumption. subst x y. reflexivity.
Qed.
Lemma source_iff L M r n r' id : library_ok L -> (configure_qkd_source L M r n = ret (r', id) <->
  find_source r id = None /\ exists k, says_source L M n id k /\ r' = (id, new_source k) :: r).
Proof.
  intros OL. unfold configure_qkd_source, says_source, new_qix_source. split.
  - intros H. apply rbind_iff in H as (i & H1 & H). apply require_string_iff in H1. destruct (find_source r i) eqn:E; [apply throw_iff in H; tauto|].
    apply rbind_iff in H as (ty & H2 & H). apply require_string_iff in H2. destruct (String.eqb_spec ty "qix") as [->|_]; [|apply throw_iff in H; tauto].
    apply rbind_iff in H as (s & H3 & H). apply ret_inj in H. injection H as <- <-. split; [exact E|].
    apply rbind_iff in H3 as (m & K1 & H). apply require_iff in K1. apply rbind_iff in H as (z & K2 & H). apply rbind_iff in H as (pe & K3 & H). apply duration_iff in K3; [|exact OL].
    apply rbind_iff in H as (b & K4 & H). apply rbind_iff in H as (c & K5 & H). apply require_iff in K5. apply rbind_iff in H as (se & K6 & H). apply serial_iff in K6.
    destruct (opens M se) eqn:O; [|apply throw_iff in H; tauto]. apply ret_inj in H as <-. exists (Z.to_N z). split; [|reflexivity].
    split; [exact H1|]. split; [exact H2|]. split; [apply number_iff; eauto|]. split; [|eauto]. exists m. split; [exact K1|]. split; [eauto|]. exists (Z.to_N b). apply number_iff. eauto.
  - intros (E & k & (H1 & H2 & H3 & (m & K1 & (pe & K3) & (b & K4)) & (c & se & K5 & K6 & O)) & ->). apply require_string_iff in H1. apply (bind_ret _ _ _ _ H1). rewrite E.
    apply require_string_iff in H2. apply (bind_ret _ _ _ _ H2). change (String.eqb "qix" "qix") with true. cbn iota. apply (bind_ret _ _ (new_source k)); [|reflexivity].
    apply require_iff in K1. apply (bind_ret _ _ _ _ K1). apply number_iff in H3 as (z & H3 & ->). apply (bind_ret _ _ _ _ H3). apply duration_iff in K3; [|exact OL]. apply (bind_ret _ _ _ _ K3).
    apply number_iff in K4 as (y & K4 & _). apply (bind_ret _ _ _ _ K4). apply require_iff in K5. apply (bind_ret _ _ _ _ K5). apply serial_iff in K6. apply (bind_ret _ _ _ _ K6). rewrite O. reflexivity.
Qed.

(** ** The registry *)
(** Which stores are bound, and the numbers of subscribers *)
Definition reg_inv (r : registry) (ids : list (string * N)) (bound : list (string * N)) : Prop :=
  (forall id k, In (id, k) ids <-> exists s, find_source r id = Some s /\ src_subscribers s = k) /\
  (forall id s sub, find_source r id = Some s -> (existsb (fun x => (sub_id x =? sub)%N) (src_stores s) = true <-> In (id, sub) bound)).
Lemma find_source_put r id s j : find_source (put_source r id s) j = if String.eqb id j then match find_source r j with Some _ => Some s | None => None end else find_source r j.
Proof.
  induction r as [|[k x] r IH]; cbn; [destruct (String.eqb id j); reflexivity|]. destruct (String.eqb_spec k id) as [->|Ne]; cbn.
  - destruct (String.eqb_spec id j); [reflexivity|]. reflexivity.
  - destruct (String.eqb_spec k j) as [->|Nj]; [|exact IH]. destruct (String.eqb_spec id j) as [->|_]; [destruct Ne; reflexivity|reflexivity].
Qed.
Lemma NoDup_snoc {A} (l : list A) x : NoDup l -> ~ In x l -> NoDup (l ++ [x]).
Proof. intros N I. rewrite <- (rev_involutive (l ++ [x])). apply NoDup_rev. rewrite rev_app_distr. cbn. constructor; [rewrite <- in_rev; exact I|apply NoDup_rev, N]. Qed.
Lemma sources_step r ids id k : reg_inv r ids [] -> find_source r id = None -> reg_inv ((id, new_source k) :: r) (ids ++ [(id, k)]) [].
Proof.
  intros [A B] E. split.
  - intros j m. cbn. rewrite in_app_iff. cbn. destruct (String.eqb_spec id j) as [->|Ne].
    + split.
      * intros [H|[H|[]]]; [apply A in H as (s & H & _); congruence|injection H as ->; exists (new_source m); auto].
      * intros (s & [= <-] & H). right. left. cbn in H. congruence.
    + rewrite A. split; [intros [H|[H|[]]]; [exact H|congruence]|auto].
  - intros j s sub. cbn. destruct (String.eqb_spec id j) as [->|Ne]; [intros [= <-]; cbn; split; [discriminate|tauto]|apply B].
Qed.
Lemma sources_read L M : library_ok L -> forall l r ids0 r' js, reg_inv r ids0 [] -> each (configure_qkd_source L M) r l = ret (r', js) ->
  exists ids, reg_inv r' (ids0 ++ ids) [] /\ Forall2 (fun n x => says_source L M n (fst x) (snd x)) l ids /\
    (NoDup (map fst ids0) -> NoDup (map fst (ids0 ++ ids))).
Proof.
  intros OL. induction l as [|n l IH]; cbn [each]; intros r ids0 r' js I H.
  - apply ret_inj in H. injection H as <- <-. exists []. rewrite app_nil_r. auto.
  - apply rbind_iff in H as ([r1 id] & H1 & H). apply rbind_iff in H as ([r2 js2] & H2 & H). apply ret_inj in H. injection H as <- <-.
    apply source_iff in H1 as (E & k & S & ->); [|exact OL]. pose proof (sources_step _ _ _ k I E) as I1. apply (IH _ _ _ _ I1) in H2 as (ids & I2 & F & D).
    exists ((id, k) :: ids). rewrite <- app_assoc in I2, D. split; [exact I2|]. split; [constructor; auto|]. intros N. apply D. rewrite map_app. cbn.
    apply NoDup_snoc; [exact N|]. intros X. apply in_map_iff in X as ([j m] & X1 & X). cbn in X1. subst j. apply (proj1 I) in X as (s & X & _). congruence.
Qed.
Lemma sources_complete L M : library_ok L -> forall l ids r ids0, reg_inv r ids0 [] -> Forall2 (fun n x => says_source L M n (fst x) (snd x)) l ids ->
  NoDup (map fst (ids0 ++ ids)) -> exists r' js, each (configure_qkd_source L M) r l = ret (r', js) /\ reg_inv r' (ids0 ++ ids) [].
Proof.
  intros OL l ids. revert l. induction ids as [|[id k] ids IH]; intros l r ids0 I F D; inversion F as [|n ? l' ? S F']; subst; cbn [each].
  - exists r, []. rewrite app_nil_r. auto.
  - assert (E : find_source r id = None).
    { destruct (find_source r id) as [s|] eqn:E; [|reflexivity]. exfalso. assert (X : In (id, src_subscribers s) ids0) by (apply (proj1 I); eauto).
      rewrite map_app in D. cbn in D. apply NoDup_remove_2 in D. apply D. apply in_app_iff. left. apply in_map_iff. exists (id, src_subscribers s). auto. }
    pose proof (sources_step _ _ _ k I E) as I1. destruct (IH l' _ _ I1 F') as (r' & js & H & I2); [rewrite <- app_assoc; exact D|].
    exists r', (id :: js). rewrite <- app_assoc in I2. split; [|exact I2]. apply (bind_ret _ _ ((id, new_source k) :: r, id)); [apply source_iff; eauto|].
    cbn iota beta. apply (bind_ret _ _ _ _ H). reflexivity.
Qed.
Lemma store_step r ids bound c r' : reg_inv r ids bound -> binds_to r c r' ->
  match c with
  | CQkd s => In (sr_source s) (map fst ids) /\ ~ In (sr_source s, sr_subscriber s) bound /\ reg_inv r' ids (bound ++ [(sr_source s, sr_subscriber s)])
  | _ => reg_inv r' ids bound
  end.
Proof.
  intros [A B] H. destruct c as [k|s| |]; cbn in H; try (subst r'; split; assumption).
  destruct H as (src & src' & E & K & ->). unfold bind_key_store in K. destruct (existsb _ _) eqn:X in K; [discriminate|]. injection K as <-.
  assert (NB : ~ In (sr_source s, sr_subscriber s) bound) by (intros Y; apply (B _ _ _ E) in Y; congruence).
  split; [apply in_map_iff; exists (sr_source s, src_subscribers src); split; [reflexivity|apply A; eauto]|]. split; [exact NB|]. split.
  - intros id k. rewrite A, find_source_put. destruct (String.eqb_spec (sr_source s) id) as [<-|Ne]; [|reflexivity]. rewrite E. split; intros (x & [= <-] & <-); eexists; (split; [reflexivity|]); reflexivity.
  - intros id x sub. rewrite find_source_put, in_app_iff. destruct (String.eqb_spec (sr_source s) id) as [<-|Ne].
    + rewrite E. intros [= <-]. cbn [src_stores existsb sub_id]. rewrite orb_true_iff, (B _ _ _ E), N.eqb_eq. cbn. split; [intros [->|Y]; auto|intros [Y|[Y|[]]]; [auto|left; congruence]].
    + intros Y. rewrite (B _ _ _ Y). cbn. split; [auto|intros [Z|[Z|[]]]; [exact Z|congruence]].
Qed.
Lemma store_of_alt p : store_of p = match role_credentials (fa_role (pl_factory p)) with CQkd s => [(sr_source s, sr_subscriber s)] | _ => [] end.
Proof. unfold store_of, role_credentials. destruct (fa_role (pl_factory p)) as [? ? []|? []]; reflexivity. Qed.
Lemma sessions_read L f : library_ok L -> files_ok f -> forall l r ids bound r' ps, reg_inv r ids bound -> each (get_session_factory L f) r l = ret (r', ps) ->
  Forall2 (says_session L f) l ps /\ reg_inv r' ids (bound ++ concat (map store_of ps)) /\
  (NoDup bound -> NoDup (bound ++ concat (map store_of ps))) /\ incl (map fst (concat (map store_of ps))) (map fst ids).
Proof.
  intros OL F. induction l as [|n l IH]; cbn [each]; intros r ids bound r' ps I H.
  - apply ret_inj in H. injection H as <- <-. cbn. rewrite app_nil_r. split; [constructor|]. split; [exact I|]. split; [auto|intros x []].
  - apply rbind_iff in H as ([r1 p] & H1 & H). apply rbind_iff in H as ([r2 ps2] & H2 & H). apply ret_inj in H. injection H as <- <-.
    apply session_iff in H1 as [S B]; auto. pose proof (store_step _ _ _ _ _ I B) as I1. cbn [map concat]. rewrite store_of_alt.
    destruct (role_credentials (fa_role (pl_factory p))) as [k|s| |];
      try (apply (IH _ _ _ _ _ I1) in H2 as (F2 & I2 & D & Inc); split; [constructor; auto|]; split; [exact I2|]; split; [exact D|exact Inc]).
    destruct I1 as (A & NB & I1). apply (IH _ _ _ _ _ I1) in H2 as (F2 & I2 & D & Inc). rewrite <- app_assoc in I2, D. cbn in I2, D.
    split; [constructor; auto|]. split; [exact I2|]. split; [intros N; apply D, NoDup_snoc; auto|]. cbn. intros x [<-|X]; [exact A|apply Inc, X].
Qed.
Lemma can_bind r ids bound s : reg_inv r ids bound -> In (sr_source s) (map fst ids) -> ~ In (sr_source s, sr_subscriber s) bound -> exists r', binds_to r (CQkd s) r'.
Proof.
  intros [A B] I N. apply in_map_iff in I as ([id k] & E & I). cbn in E. subst id. apply A in I as (src & E & _). cbn. unfold bind_key_store.
  destruct (existsb (fun x => (sub_id x =? sr_subscriber s)%N) (src_stores src)) eqn:X; [destruct N; apply (B _ _ _ E), X|]. do 3 eexists. split; [exact E|]. rewrite X. split; reflexivity.
Qed.
Lemma sessions_complete L f : library_ok L -> files_ok f -> forall l ps r ids bound, reg_inv r ids bound -> Forall2 (says_session L f) l ps ->
  NoDup (bound ++ concat (map store_of ps)) -> incl (map fst (concat (map store_of ps))) (map fst ids) -> exists r', each (get_session_factory L f) r l = ret (r', ps).
Proof.
  intros OL F l ps. revert l. induction ps as [|p ps IH]; intros l r ids bound I FF D Inc; inversion FF as [|n ? l' ? S F']; subst; cbn [each]; [exists r; reflexivity|].
  cbn [map concat] in D, Inc. rewrite store_of_alt in D, Inc.
  assert (X : exists r1, binds_to r (role_credentials (fa_role (pl_factory p))) r1 /\ exists b, reg_inv r1 ids b /\ NoDup (b ++ concat (map store_of ps)) /\ incl (map fst (concat (map store_of ps))) (map fst ids)).
  { destruct (role_credentials (fa_role (pl_factory p))) as [k|s| |] eqn:E; try (exists r; split; [reflexivity|]; exists bound; auto).
    destruct (can_bind r ids bound s I) as [r1 B].
    - apply Inc. left. reflexivity.
    - cbn in D. apply NoDup_remove_2 in D. intros Y. apply D. apply in_app_iff. auto.
    - exists r1. split; [exact B|]. pose proof (store_step _ _ _ _ _ I B) as (_ & _ & I1). eexists. split; [exact I1|]. rewrite <- app_assoc. split; [exact D|]. intros y Y. apply Inc. right. exact Y. }
  destruct X as (r1 & B & b & I1 & D1 & Inc1). destruct (IH l' r1 ids b I1 F' D1 Inc1) as [r' H]. exists r'.
  apply (bind_ret _ _ (r1, p)); [apply session_iff; auto|]. cbn iota beta. apply (bind_ret _ _ _ _ H). reflexivity.
Qed.
Lemma reg_nil : reg_inv [] [] []. Proof. split; [intros id k; cbn; split; [tauto|intros (s & H & _); discriminate]|intros id s sub H; discriminate]. Qed.

Lemma read_iff L M f root ps : library_ok L -> files_ok f -> ((exists r, read L M f root = ret (r, ps)) <-> exists ids, says L M f root ids ps).
Proof.
  intros OL F. unfold read, says. split.
  - intros (r & H). apply rbind_iff in H as (n1 & H1 & H). apply require_iff in H1. apply rbind_iff in H as ([r1 js] & H2 & H). apply rbind_iff in H as (n2 & H3 & H). apply require_iff in H3.
    destruct n1 as [| |l1|]; try (apply throw_iff in H2; tauto). destruct n2 as [| |l2|]; try (apply throw_iff in H; tauto). cbn [foreach] in *.
    apply (sources_read L M OL _ _ [] _ _ reg_nil) in H2 as (ids & I & S & D). cbn in I, D. apply (sessions_read L f OL F _ _ _ _ _ _ I) in H as (S2 & I2 & D2 & Inc).
    exists ids. split; [eauto|]. split; [eauto|]. split; [apply D; constructor|]. split; [apply D2; constructor|exact Inc].
  - intros (ids & (l1 & H1 & S1) & (l2 & H2 & S2) & D1 & D2 & Inc). destruct (sources_complete L M OL l1 ids [] [] reg_nil S1 D1) as (r1 & js & E & I).
    destruct (sessions_complete L f OL F l2 ps r1 ids [] I S2 D2 Inc) as [r E2]. exists r. apply require_iff in H1, H2. apply (bind_ret _ _ _ _ H1). apply (bind_ret _ _ (r1, js)); [exact E|].
    cbn iota beta. apply (bind_ret _ _ _ _ H2). exact E2.
Qed.

(** ** Nothing is undefined if the durations fit *)
Lemma subnodes_has n key v : has n key v -> incl (subnodes v) (subnodes n).
Proof.
  destruct n; cbn [has]; try tauto. intros (l1 & l2 & -> & _) x X. cbn [subnodes]. right. apply in_concat. exists (subnodes v). split; [|exact X].
  apply in_map_iff. exists (key, v). split; [reflexivity|apply in_elt].
Qed.
Lemma subnodes_seq l v : In v l -> incl (subnodes v) (subnodes (NSeq l)).
Proof. intros I x X. cbn [subnodes]. right. apply in_concat. exists (subnodes v). split; [apply in_map, I|exact X]. Qed.
Lemma subnodes_self n : In n (subnodes n). Proof. destruct n; left; reflexivity. Qed.
Lemma fit_has L n key v : durations_fit L n -> has n key v -> durations_fit L v.
Proof. intros D H d ns I. apply D. apply (subnodes_has n key v H), I. Qed.
Lemma fit_seq L l v : durations_fit L (NSeq l) -> In v l -> durations_fit L v.
Proof. intros D H d ns I. apply D. apply (subnodes_seq l v H), I. Qed.

Lemma d_require n key : defined (require n key). Proof. destruct n; cbn; auto with dfd. Qed.
Lemma d_subscript n key : defined (subscript n key). Proof. destruct n; cbn; auto with dfd. Qed.
Lemma d_string n key : defined (require_string n key).
Proof. apply defined_bind; [apply d_require|]. intros [] _; auto with dfd. Qed.
Lemma d_bool L n key : defined (require_bool L n key).
Proof. apply defined_bind; [apply d_require|]. intros [] _; auto with dfd. Qed.
Lemma d_extract L low high n : defined (extract_integer L low high n).
Proof. destruct n; cbn; auto with dfd. destruct (as_int64 L s); auto with dfd. destruct (_ <? _)%Z; auto with dfd. destruct (_ >? _)%Z; auto with dfd. Qed.
Lemma d_require_integer L low high n key : defined (require_integer L low high n key).
Proof. apply defined_bind; [apply d_require|]. intros c _. apply d_extract. Qed.
Lemma d_optional_integer L low high n key d : defined (optional_integer L low high n key d).
Proof. apply defined_bind; [apply d_subscript|]. intros [c|] _; [apply d_extract|auto with dfd]. Qed.
Lemma d_optional_string n key d : defined (optional_string n key d).
Proof. apply defined_bind; [apply d_subscript|]. intros [[]|] _; auto with dfd. Qed.
Lemma d_one_of a v : defined (one_of a v). Proof. unfold one_of. destruct (existsb _ _); auto with dfd. Qed.
Lemma d_unit n : defined (get_time_unit n).
Proof. apply defined_bind; [apply d_string|]. intros u _. repeat (destruct (String.eqb _ _); [auto with dfd|]). auto with dfd. Qed.
Lemma d_duration L d : library_ok L -> durations_fit L d -> defined (get_duration_value L d).
Proof.
  intros OL D. apply defined_bind; [apply d_require|]. intros c H. apply defined_bind; [apply d_extract|]. intros z G. apply defined_bind; [apply d_unit|]. intros k K.
  apply require_iff in H. apply extract_iff in G as (s & -> & E & B). apply time_unit_iff in K as (u & T & K).
  assert (F : fits64 (z * k)). { apply (D d); [apply subnodes_self|]. exists s, z, u, k. repeat split; auto; apply (OL s z E). }
  exists (Some (z * k)%Z). apply to_duration_iff. auto.
Qed.
Lemma d_optional_duration L n key d : library_ok L -> durations_fit L n -> defined (optional_duration L n key d).
Proof. intros OL D. apply defined_bind; [apply d_subscript|]. intros [c|] H; [|auto with dfd]. apply d_duration; [exact OL|]. apply subscript_some in H. apply (fit_has L n key c D H). Qed.
Lemma d_require_duration L n key : library_ok L -> durations_fit L n -> defined (require_duration L n key).
Proof. intros OL D. apply defined_bind; [apply d_require|]. intros c H. apply d_duration; [exact OL|]. apply require_iff in H. apply (fit_has L n key c D H). Qed.
Lemma d_ms L n key d : library_ok L -> durations_fit L n -> defined (get_optional_ms L n key d).
Proof. intros OL D. apply defined_bind; [apply d_optional_duration; auto|]. intros z _. cbn zeta. destruct (_ <? _)%Z; auto with dfd. destruct (_ >? _)%Z; auto with dfd. Qed.
Lemma d_key L f p t : defined (get_crypto_key L f p t).
Proof. unfold get_crypto_key. destruct (read_container _ _); auto with dfd. destruct (negb _); auto with dfd. destruct (negb _); auto with dfd. Qed.
#[export] Hint Resolve d_require d_subscript d_string d_bool d_extract d_require_integer d_optional_integer d_optional_string d_one_of d_unit d_optional_duration d_require_duration d_ms d_key : dfd.
Ltac dfd := repeat first [solve [auto with dfd] | apply defined_bind; [solve [auto with dfd]|intros ? ?; try match goal with x : _ * _ |- _ => destruct x end]].
Lemma d_static L f n : defined (get_local_static_keys L f n). Proof. unfold get_local_static_keys. dfd. Qed.
Lemma d_secret L f n : defined (get_shared_secret L f n). Proof. unfold get_shared_secret. dfd. Qed.
Lemma d_remote L f n : defined (get_remote_public_key L f n). Proof. unfold get_remote_public_key. dfd. Qed.
Lemma d_data L f n key : defined (get_file_data L f n key). Proof. unfold get_file_data. dfd. Qed.
Lemma d_suite n : defined (get_crypto_suite n).
Proof.
  unfold get_crypto_suite, get_session_crypto_mode. apply defined_bind; [auto with dfd|]. intros a _. apply defined_bind; [|auto with dfd].
  apply defined_bind; [auto with dfd|]. intros s _. repeat (destruct (String.eqb _ _); [auto with dfd|]). auto with dfd.
Qed.
Lemma d_store L r n : defined (bind_store L r n).
Proof. unfold bind_store. apply defined_bind; [auto with dfd|]. intros id _. destruct (find_source r id); dfd. destruct (bind_key_store _ _ _); auto with dfd. Qed.
#[export] Hint Resolve d_static d_secret d_remote d_data d_suite d_store : dfd.
Lemma d_mode n : defined (get_mode n).
Proof. apply defined_bind; [auto with dfd|]. intros s _. repeat (destruct (String.eqb _ _); [auto with dfd|]). auto with dfd. Qed.
Lemma d_type n : defined (get_stack_type n).
Proof. apply defined_bind; [auto with dfd|]. intros s _. repeat (destruct (String.eqb _ _); [auto with dfd|]). auto with dfd. Qed.
Lemma d_icred L f r m n : defined (get_initiator_credentials L f r m n). Proof. destruct m; cbn [get_initiator_credentials]; dfd. Qed.
Lemma d_rcred L f r m n : defined (get_responder_credentials L f r m n). Proof. destruct m; cbn [get_responder_credentials]; dfd. Qed.
Lemma d_addresses L n : defined (get_addresses L n). Proof. unfold get_addresses. dfd. Qed.
Lemma d_endpoint L n key : defined (get_endpoint L n key). Proof. unfold get_endpoint. dfd. Qed.
#[export] Hint Resolve d_mode d_type d_icred d_rcred d_addresses d_endpoint : dfd.
Lemma d_iconfig L h s : library_ok L -> durations_fit L h -> durations_fit L s -> defined (get_initiator_config L h s).
Proof. intros OL Dh Ds. unfold get_initiator_config, get_crypto_layer_config, get_session_config, get_session_limits. apply defined_bind; [auto with dfd|]. intros ? _. apply defined_bind; [auto with dfd|]. intros ? _. apply defined_bind; [dfd|]. intros ? _. dfd. Qed.
Lemma d_rconfig L s : library_ok L -> durations_fit L s -> defined (get_responder_config L s).
Proof. intros OL Ds. unfold get_responder_config, get_crypto_layer_config, get_session_config. dfd. Qed.
Lemma d_stack L f r n : library_ok L -> durations_fit L n -> defined (get_stack_factory L f r n).
Proof.
  intros OL D. unfold get_stack_factory. apply defined_bind; [auto with dfd|]. intros l H1. apply defined_bind; [auto with dfd|]. intros s H2. apply defined_bind; [auto with dfd|]. intros ty _.
  apply defined_bind; [auto with dfd|]. intros en _. apply require_iff in H2. pose proof (fit_has _ _ _ _ D H2) as Ds.
  apply defined_bind; [destruct en; dfd|]. intros ad _. apply defined_bind; [|intros [r' ro] _; auto with dfd]. destruct ty; unfold get_initiator_factory, get_responder_factory.
  - apply defined_bind; [auto with dfd|]. intros h K1. apply defined_bind; [auto with dfd|]. intros se K2. apply require_iff in K1, K2.
    apply defined_bind; [apply d_iconfig; eauto using fit_has|]. intros g _. apply defined_bind; [auto with dfd|]. intros m _. apply defined_bind; [auto with dfd|]. intros [r1 [su c]] _. auto with dfd.
  - apply defined_bind; [auto with dfd|]. intros h K1. apply defined_bind; [auto with dfd|]. intros se K2. apply require_iff in K1, K2.
    apply defined_bind; [apply d_rconfig; eauto using fit_has|]. intros g _. dfd.
Qed.
Lemma d_session L f r n : library_ok L -> durations_fit L n -> defined (get_session_factory L f r n).
Proof.
  intros OL D. unfold get_session_factory. apply defined_bind; [auto with dfd|]. intros id _. apply defined_bind; [auto with dfd|]. intros lv _. destruct (negb _); [auto with dfd|].
  apply defined_bind; [apply d_stack; auto|]. intros [r1 fa] _. apply defined_bind; [auto with dfd|]. intros t _. apply defined_bind; [auto with dfd|]. intros ty _. apply defined_bind; [|auto with dfd].
  destruct (String.eqb _ _); [destruct (negb _); [auto with dfd|]|destruct (String.eqb _ _); [|auto with dfd]]; dfd.
Qed.
Lemma d_source L M r n : library_ok L -> durations_fit L n -> defined (configure_qkd_source L M r n).
Proof.
  intros OL D. unfold configure_qkd_source, new_qix_source. apply defined_bind; [auto with dfd|]. intros id _. destruct (find_source r id); [auto with dfd|]. apply defined_bind; [auto with dfd|]. intros ty _.
  destruct (String.eqb _ _); [|auto with dfd]. apply defined_bind; [|auto with dfd]. apply defined_bind; [auto with dfd|]. intros m H. apply require_iff in H. pose proof (fit_has _ _ _ _ D H).
  apply defined_bind; [auto with dfd|]. intros k _. apply defined_bind; [auto with dfd|]. intros p _. apply defined_bind; [auto with dfd|]. intros b _. apply defined_bind; [auto with dfd|]. intros c _.
  apply defined_bind; [|intros s _; destruct (opens M s); auto with dfd]. unfold read_serial_settings, get_flow_control, get_stop_bits.
  apply defined_bind; [auto with dfd|]. intros ? _. apply defined_bind; [auto with dfd|]. intros ? _. apply defined_bind; [auto with dfd|]. intros ? _. apply defined_bind; [dfd|]. intros ? _. apply defined_bind; [dfd|]. intros ? _. auto with dfd.
Qed.
Lemma d_each {S A} (act : S -> node -> res (S * A)) : forall l s, (forall n s, In n l -> defined (act s n)) -> defined (each act s l).
Proof.
  induction l as [|n l IH]; intros s H; cbn [each]; [auto with dfd|]. apply defined_bind; [apply H; left; reflexivity|]. intros [s1 a] _.
  apply defined_bind; [apply IH; intros; apply H; right; assumption|]. intros [s2 r] _. auto with dfd.
Qed.
Lemma d_read L M f root : library_ok L -> durations_fit L root -> defined (read L M f root).
Proof.
  intros OL D. unfold read. apply defined_bind; [auto with dfd|]. intros a H1. apply require_iff in H1. pose proof (fit_has _ _ _ _ D H1) as D1.
  apply defined_bind. { destruct a; cbn [foreach]; auto with dfd. apply d_each. intros n s I. apply d_source; [exact OL|]. apply (fit_seq _ _ _ D1 I). }
  intros [r js] _. apply defined_bind; [auto with dfd|]. intros b H2. apply require_iff in H2. pose proof (fit_has _ _ _ _ D H2) as D2.
  destruct b; cbn [foreach]; auto with dfd. apply d_each. intros n s I. apply d_session; [exact OL|]. apply (fit_seq _ _ _ D2 I).
Qed.
