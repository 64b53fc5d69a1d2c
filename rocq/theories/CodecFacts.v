(** * CodecFacts: every codec is lawful *)
From Verif Require Import Base BaseFacts Codec CodecSpec.

Ltac Zify.zify_post_hook ::= Z.div_mod_to_equations.

(** Reader law: reads back exactly the encoding of admissible values, and accepts nothing else. *)
Definition rlaw {A} (ok : A -> Prop) (enc : A -> list N) (rd : parser A) : Prop :=
  (forall a rest, ok a -> rd (enc a ++ rest) = POk a rest) /\
  (forall inp a rest, bytes_ok inp -> rd inp = POk a rest -> ok a /\ inp = enc a ++ rest).

(** Writer law: writes exactly the encoding when it fits, and fails otherwise. *)
Definition wlaw (enc : list N) (w : writer) : Prop :=
  forall space, w space = if length enc <=? space then WOk enc else WErr.

Lemma pbind_ok {A B} (p : parser A) (f : A -> parser B) inp a rest :
  p inp = POk a rest -> pbind p f inp = f a rest.
Proof. intros H. unfold pbind. rewrite H. reflexivity. Qed.

Lemma pbind_inv {A B} (p : parser A) (f : A -> parser B) inp b rest :
  pbind p f inp = POk b rest -> exists a mid, p inp = POk a mid /\ f a mid = POk b rest.
Proof. unfold pbind. destruct (p inp) as [a mid|e]; [|discriminate]. intros H. eauto. Qed.

Lemma wlaw_nil : wlaw [] wnil.
Proof. intros space. reflexivity. Qed.

Lemma wlaw_app e1 e2 w1 w2 : wlaw e1 w1 -> wlaw e2 w2 -> wlaw (e1 ++ e2) (w1 +w+ w2).
Proof.
  intros H1 H2 space. unfold wapp. rewrite H1.
  destruct (Nat.leb_spec (length e1) space) as [L1|L1].
  - rewrite H2, app_length.
    destruct (Nat.leb_spec (length e2) (space - length e1)), (Nat.leb_spec (length e1 + length e2) space);
      try reflexivity; lia.
  - rewrite app_length. destruct (Nat.leb_spec (length e1 + length e2) space); [lia|reflexivity].
Qed.

Lemma wlaw_uint n v : wlaw (be_bytes n v) (write_uint n v).
Proof.
  intros space. unfold write_uint. rewrite be_bytes_length.
  destruct (Nat.ltb_spec space n), (Nat.leb_spec n space); try reflexivity; lia.
Qed.

Lemma wlaw_eq e e' w : e = e' -> wlaw e w -> wlaw e' w.
Proof. intros ->. auto. Qed.

(** Integers *)
Lemma rlaw_uint n : rlaw (fun v => (v < 256 ^ N.of_nat n)%N) (be_bytes n) (read_uint n).
Proof.
  split.
  - intros v rest Hv. unfold read_uint. rewrite app_length, be_bytes_length.
    destruct (Nat.ltb_spec (n + length rest) n) as [|_]; [lia|].
    rewrite firstn_app_len, skipn_app_len by apply be_bytes_length.
    rewrite be_value_be_bytes_small by exact Hv. reflexivity.
  - intros inp v rest Hi. unfold read_uint.
    destruct (Nat.ltb_spec (length inp) n) as [|Hl]; [discriminate|]. intros [= <- <-].
    assert (Hlen : length (firstn n inp) = n) by (rewrite firstn_length; lia).
    pose proof (bytes_ok_firstn n inp Hi) as Hf. split.
    + pose proof (be_value_bound _ Hf) as Hb. rewrite Hlen in Hb. exact Hb.
    + pose proof (be_bytes_be_value _ Hf) as Hb. rewrite Hlen in Hb. rewrite Hb, firstn_skipn. reflexivity.
Qed.

Lemma read_uint1_cons b rest : read_uint 1 (b :: rest) = POk b rest.
Proof. unfold read_uint. cbn. unfold be_value. cbn. reflexivity. Qed.

Lemma read_uint1_inv inp b rest : read_uint 1 inp = POk b rest -> inp = b :: rest.
Proof.
  unfold read_uint. destruct inp as [|x inp]; cbn; [discriminate|]. unfold be_value; cbn. intros [= <- <-]. reflexivity.
Qed.

(** ** VLength *)

Definition byte_cases : list N := map N.of_nat (seq 0 256).
Lemma byte_cases_in b : (b < 256)%N -> In b byte_cases.
Proof. intros H. unfold byte_cases. rewrite <- (N2Nat.id b). apply in_map, in_seq. lia. Qed.

Lemma land_80 b : (b < 256)%N -> N.land b 0x80 = if (b <? 128)%N then 0%N else 128%N.
Proof.
  intros H. assert (C : forallb (fun b => N.eqb (N.land b 0x80) (if (b <? 128)%N then 0%N else 128%N)) byte_cases = true)
    by (vm_compute; reflexivity).
  rewrite forallb_forall in C. apply N.eqb_eq, C, byte_cases_in, H.
Qed.
Lemma land_7f b : (b < 256)%N -> N.land b 0x7F = if (b <? 128)%N then b else (b - 128)%N.
Proof.
  intros H. assert (C : forallb (fun b => N.eqb (N.land b 0x7F) (if (b <? 128)%N then b else (b - 128)%N)) byte_cases = true)
    by (vm_compute; reflexivity).
  rewrite forallb_forall in C. apply N.eqb_eq, C, byte_cases_in, H.
Qed.

Lemma num_values_bytes_log v : (128 <= v)%N -> (v < 2 ^ 32)%N ->
  N.of_nat (num_values_bytes v) = (N.log2 v / 8 + 1)%N.
Proof.
  intros H Hm. unfold num_values_bytes.
  destruct (N.leb_spec v 127); [lia|].
  assert (L : forall a b, (2 ^ a <= v)%N -> (v < 2 ^ b)%N -> (a <= N.log2 v < b)%N).
  { intros a b H1 H2. split; [apply N.log2_le_pow2; lia|apply N.log2_lt_pow2; lia]. }
  assert (P8 : (2 ^ 8 = 256)%N) by reflexivity. assert (P16 : (2 ^ 16 = 65536)%N) by reflexivity.
  assert (P24 : (2 ^ 24 = 16777216)%N) by reflexivity.  assert (P0 : (2 ^ 0 = 1)%N) by reflexivity.
  destruct (N.leb_spec v 255); [pose proof (L 0 8)%N; lia|].
  destruct (N.leb_spec v 65535); [pose proof (L 8 16)%N; lia|].
  destruct (N.leb_spec v 16777215); [pose proof (L 16 24)%N; lia|].
  pose proof (L 24 32)%N. lia.
Qed.

Lemma der_length_long v : (128 <= v)%N -> (v < 2 ^ 32)%N ->
  der_length v = (128 + N.of_nat (num_values_bytes v))%N :: be_bytes (num_values_bytes v) v.
Proof.
  intros H Hm. unfold der_length. destruct (N.ltb_spec v 128); [lia|]. cbv zeta.
  rewrite <- num_values_bytes_log by assumption. rewrite Nat2N.id. reflexivity.
Qed.

Lemma num_values_bytes_range v : (128 <= v)%N -> 1 <= num_values_bytes v <= 4.
Proof.
  intros H. unfold num_values_bytes. destruct (N.leb_spec v 127); [lia|].
  destruct (N.leb_spec v 255); [lia|]. destruct (N.leb_spec v 65535); [lia|].
  destruct (N.leb_spec v 16777215); lia.
Qed.

Lemma vlength_size_ok v : (v < 2 ^ 32)%N -> length (der_length v) = vlength_size v.
Proof.
  intros Hm. unfold vlength_size. destruct (N.lt_ge_cases v 128) as [H|H].
  - unfold der_length, num_values_bytes. destruct (N.ltb_spec v 128); [|lia].
    destruct (N.leb_spec v 127); [reflexivity|lia].
  - rewrite der_length_long by assumption. cbn [length]. rewrite be_bytes_length. lia.
Qed.

Lemma be_bytes_app n m v : be_bytes (n + m) v = be_bytes n (v / 256 ^ N.of_nat m) ++ be_bytes m v.
Proof.
  induction n as [|n IH]; [reflexivity|]. cbn [Nat.add be_bytes app]. rewrite IH. f_equal.
  pose proof (pow256_pos n). pose proof (pow256_pos m).
  rewrite N.div_div by lia. rewrite <- N.pow_add_r. f_equal. f_equal. f_equal. lia.
Qed.

Lemma be_bytes_1 v : (v < 256)%N -> be_bytes 1 v = [v].
Proof. intros H. cbn. rewrite N.div_1_r, N.mod_small by exact H. reflexivity. Qed.

Lemma wlaw_vlength v : (v < 2 ^ 32)%N -> wlaw (der_length v) (vlength_write v).
Proof.
  intros Hm. destruct (N.lt_ge_cases v 128) as [H|H].
  - unfold vlength_write, num_values_bytes. destruct (N.leb_spec v 127); [|lia].
    unfold der_length. destruct (N.ltb_spec v 128); [|lia].
    eapply wlaw_eq; [|apply wlaw_uint]. apply be_bytes_1. lia.
  - rewrite der_length_long by assumption. unfold vlength_write. cbv zeta.
    pose proof (num_values_bytes_range v H) as Hr.
    assert (Hhead : forall n, 1 <= n <= 4 ->
       wlaw [(128 + N.of_nat n)%N] (write_uint 1 (N.lor 0x80 (N.of_nat n)))).
    { intros n Hn. eapply wlaw_eq; [|apply wlaw_uint].
      assert (n = 1 \/ n = 2 \/ n = 3 \/ n = 4) as [->|[->|[->| ->]]] by lia; reflexivity. }
    change (?x :: ?l) with ([x] ++ l).
    assert (Hu : (v < 4294967296)%N) by exact Hm.
    unfold num_values_bytes in *. destruct (N.leb_spec v 127); [lia|].
    destruct (N.leb_spec v 255); [|destruct (N.leb_spec v 65535); [|destruct (N.leb_spec v 16777215)]];
      (apply wlaw_app; [apply Hhead; lia|]).
    + apply wlaw_uint.
    + eapply wlaw_eq; [|apply wlaw_uint]. unfold u16, trunc. change (2 ^ 16)%N with (256 ^ N.of_nat 2)%N.
      apply be_bytes_mod. lia.
    + change 3 with (1 + 2) at 1. rewrite be_bytes_app. apply wlaw_app.
      * eapply wlaw_eq; [|apply wlaw_uint]. f_equal. unfold u8, trunc.
        rewrite N.shiftr_div_pow2. change 0xFF%N with (N.ones 8). rewrite N.land_ones.
        rewrite N.mod_mod by discriminate. apply N.mod_small.
        apply N.div_lt_upper_bound; [discriminate|]. lia.
      * eapply wlaw_eq; [|apply wlaw_uint]. unfold u16, trunc. change 0xFFFF%N with (N.ones 16).
        rewrite N.land_ones, N.mod_mod by discriminate. change (2 ^ 16)%N with (256 ^ N.of_nat 2)%N.
        apply be_bytes_mod. lia.
    + apply wlaw_uint.
Qed.

(** shifting and or-ing bytes is big-endian accumulation while it fits in 32 bits *)
Lemma lor_shift_byte ret b : (ret < 2 ^ 24)%N -> (b < 256)%N ->
  N.lor (u32 (N.shiftl ret 8)) b = (ret * 256 + b)%N.
Proof.
  intros Hr Hb. unfold u32, trunc. rewrite N.shiftl_mul_pow2. change (2 ^ 8)%N with 256%N.
  rewrite N.mod_small by (change (2^32)%N with (2 ^ 24 * 256)%N; change (2^24)%N with 16777216%N in *; lia).
  assert (Hl : N.land (ret * 256) b = 0%N).
  { apply N.bits_inj; intros k. rewrite N.land_spec, N.bits_0. change 256%N with (2 ^ 8)%N.
    destruct (N.lt_ge_cases k 8) as [Hk|Hk].
    - rewrite N.mul_pow2_bits_low by exact Hk. reflexivity.
    - replace (N.testbit b k) with false; [apply andb_false_r|]. symmetry.
      destruct (N.eq_dec b 0) as [->|Hz]; [apply N.bits_0|]. apply N.bits_above_log2.
      assert (N.log2 b < 8)%N by (apply N.log2_lt_pow2; [lia|exact Hb]). lia. }
  rewrite <- N.lxor_lor by exact Hl. symmetry. apply N.add_nocarry_lxor. exact Hl.
Qed.

Lemma vlength_loop_ok n : forall ret l rest, length l = n -> bytes_ok l ->
  (ret < 256 ^ (4 - N.of_nat n))%N -> n <= 4 ->
  vlength_loop n ret (l ++ rest) = POk (ret * 256 ^ N.of_nat n + be_value l)%N rest.
Proof.
  induction n as [|n IH]; intros ret l rest Hl Hok Hr Hn.
  - destruct l; [|discriminate]. cbn [vlength_loop app]. unfold pret, be_value. cbn [fold_left]. f_equal.
    rewrite N.mul_1_r. lia.
  - destruct l as [|b l]; [discriminate|]. inversion Hok as [|? ? Hb Hok']; subst.
    cbn [vlength_loop app]. erewrite pbind_ok by apply read_uint1_cons.
    assert (Hr24 : (ret < 2 ^ 24)%N).
    { eapply N.lt_le_trans; [exact Hr|]. change (2 ^ 24)%N with (256 ^ 3)%N. apply N.pow_le_mono_r; lia. }
    rewrite lor_shift_byte by assumption. injection Hl as Hl. rewrite IH.
    + f_equal. rewrite be_value_cons, Hl. rewrite Nat2N.inj_succ, N.pow_succ_r'. lia.
    + exact Hl.
    + exact Hok'.
    + replace (4 - N.of_nat n)%N with (N.succ (4 - N.of_nat (S n)))%N by lia.
      rewrite N.pow_succ_r'. generalize dependent (256 ^ (4 - N.of_nat (S n)))%N. intros k Hr. unfold byte_ok in Hb. lia.
    + lia.
Qed.

Lemma vlength_loop_inv n : forall ret inp v rest, vlength_loop n ret inp = POk v rest ->
  exists l, inp = l ++ rest /\ length l = n.
Proof.
  induction n as [|n IH]; intros ret inp v rest H; cbn [vlength_loop] in H.
  - injection H as _ <-. exists []. split; reflexivity.
  - apply pbind_inv in H as (b & mid & Hb & H). apply read_uint1_inv in Hb as ->.
    apply IH in H as (l & -> & Hl). exists (b :: l). split; [reflexivity|cbn; congruence].
Qed.

Lemma rlaw_vlength : rlaw (fun v => (v < 2 ^ 32)%N) der_length vlength_read.
Proof.
  split.
  - intros v rest Hv. unfold vlength_read. destruct (N.lt_ge_cases v 128) as [H|H].
    + unfold der_length. destruct (N.ltb_spec v 128); [|lia]. cbn [app].
      erewrite pbind_ok by apply read_uint1_cons. rewrite land_80 by lia.
      destruct (N.ltb_spec v 128); [|lia]. reflexivity.
    + rewrite der_length_long by assumption. cbn [app].
      pose proof (num_values_bytes_range v H) as Hr. set (n := num_values_bytes v) in *.
      erewrite pbind_ok by apply read_uint1_cons.
      rewrite land_80, land_7f by lia. destruct (N.ltb_spec (128 + N.of_nat n) 128); [lia|].
      change (128 =? 0)%N with false. cbv zeta iota.
      replace (128 + N.of_nat n - 128)%N with (N.of_nat n) by lia.
      destruct (N.ltb_spec (N.of_nat n) 1); [lia|]. destruct (N.ltb_spec 4 (N.of_nat n)); [lia|]. cbn [orb].
      rewrite Nat2N.id.
      assert (Hs : (v < 256 ^ N.of_nat n)%N).
      { unfold n, num_values_bytes in *. destruct (N.leb_spec v 127); [lia|].
        destruct (N.leb_spec v 255); [cbn; lia|]. destruct (N.leb_spec v 65535); [cbn; lia|].
        destruct (N.leb_spec v 16777215); [cbn; lia|]. exact Hv. }
      erewrite pbind_ok.
      2:{ apply (vlength_loop_ok n); [apply be_bytes_length|apply be_bytes_ok| |lia].
          pose proof (N.pow_nonzero 256 (4 - N.of_nat n)). lia. }
      rewrite N.mul_0_l, N.add_0_l, be_value_be_bytes_small by exact Hs.
      fold n. rewrite N.eqb_refl. reflexivity.
  - intros inp v rest Hi H. unfold vlength_read in H.
    apply pbind_inv in H as (top & mid & Ht & H). apply read_uint1_inv in Ht as ->.
    inversion Hi as [|? ? Htop Hmid]; subst. unfold byte_ok in Htop.
    rewrite land_80, land_7f in H by exact Htop.
    destruct (N.ltb_spec top 128) as [Hlt|Hge].
    + change (0 =? 0)%N with true in H. cbv iota in H. injection H as <- <-.
      split; [change (2 ^ 32)%N with 4294967296%N; lia|]. unfold der_length. destruct (N.ltb_spec top 128); [reflexivity|lia].
    + change (128 =? 0)%N with false in H. cbv iota zeta in H.
      destruct (N.ltb_spec (top - 128) 1) as [|H1]; [discriminate|].
      destruct (N.ltb_spec 4 (top - 128)) as [|H4]; [discriminate|]. cbn [orb] in H.
      apply pbind_inv in H as (ret & mid2 & Hl & H).
      destruct (vlength_loop_inv _ _ _ _ _ Hl) as (l & -> & Hlen).
      apply bytes_ok_app in Hmid as [Hlok Hrest].
      rewrite (vlength_loop_ok _ 0 l mid2 Hlen Hlok) in Hl; [|pose proof (N.pow_nonzero 256 (4 - N.of_nat (N.to_nat (top - 128)))); lia|lia].
      rewrite N.mul_0_l, N.add_0_l in Hl. injection Hl as <-.
      destruct (N.eqb_spec (N.of_nat (num_values_bytes (be_value l))) (top - 128)) as [E|]; [|discriminate].
      injection H as <- <-.
      assert (Hb : (be_value l < 2 ^ 32)%N).
      { pose proof (be_value_bound l Hlok) as Hb. eapply N.lt_le_trans; [exact Hb|].
        change (2 ^ 32)%N with (256 ^ 4)%N. apply N.pow_le_mono_r; lia. }
      split; [exact Hb|].
      assert (H128 : (128 <= be_value l)%N).
      { unfold num_values_bytes in E. destruct (N.leb_spec (be_value l) 127); [cbn in E; lia|lia]. }
      rewrite der_length_long by assumption.
      assert (En : num_values_bytes (be_value l) = length l) by lia.
      rewrite En, be_bytes_be_value by exact Hlok. cbn [app]. f_equal. lia.
Qed.

(** ** Fields *)

Lemma wlaw_raw s : wlaw s (fun space => if space <? length s then WErr else WOk s).
Proof. intros space. destruct (Nat.ltb_spec space (length s)), (Nat.leb_spec (length s) space); try reflexivity; lia. Qed.

Lemma wlaw_seq s : seq_ok s -> wlaw (wire_seq s) (seq_write s).
Proof. intros [_ H]. apply wlaw_app; [apply wlaw_vlength, H|apply wlaw_raw]. Qed.

Lemma seq_size_ok s : seq_ok s -> length (wire_seq s) = seq_size s.
Proof. intros [_ H]. unfold wire_seq, seq_size. rewrite app_length, vlength_size_ok by exact H. reflexivity. Qed.

Lemma rlaw_seq : rlaw seq_ok wire_seq seq_read.
Proof.
  destruct rlaw_vlength as [V1 V2]. split.
  - intros s rest [Hs Hl]. unfold seq_read, wire_seq. rewrite <- app_assoc.
    erewrite pbind_ok by (apply V1, Hl). cbv beta. rewrite app_length.
    destruct (N.ltb_spec (N.of_nat (length s + length rest)) (N.of_nat (length s))); [lia|].
    rewrite Nat2N.id, firstn_app_exact, skipn_app_exact. reflexivity.
  - intros inp s rest Hi H. unfold seq_read in H. apply pbind_inv in H as (len & mid & Hlen & H).
    apply V2 in Hlen as [Hb ->]; [|exact Hi]. apply bytes_ok_app in Hi as [_ Hmid].
    destruct (N.ltb_spec (N.of_nat (length mid)) len) as [|Hge]; [discriminate|]. injection H as <- <-.
    assert (Hfl : length (firstn (N.to_nat len) mid) = N.to_nat len) by (rewrite firstn_length; lia).
    split.
    + split; [apply bytes_ok_firstn, Hmid|]. rewrite Hfl, N2Nat.id. exact Hb.
    + unfold wire_seq. rewrite Hfl, N2Nat.id, <- app_assoc, firstn_skipn. reflexivity.
Qed.

Lemma rlaw_enum {E} (from : N -> option E) (to code : E -> N) :
  (forall e, from (code e) = Some e /\ to e = code e /\ (code e < 256)%N) ->
  (forall b e, from b = Some e -> code e = b) ->
  rlaw (fun _ => True) (fun e => [code e]) (enum_read from).
Proof.
  intros H1 H2. split.
  - intros e rest _. unfold enum_read. cbn [app]. erewrite pbind_ok by apply read_uint1_cons.
    destruct (H1 e) as [-> _]. reflexivity.
  - intros inp e rest _ H. unfold enum_read in H. apply pbind_inv in H as (b & mid & Hb & H).
    apply read_uint1_inv in Hb as ->. destruct (from b) as [e'|] eqn:E'; [|discriminate].
    injection H as -> ->. apply H2 in E'. split; [exact I|]. cbn. congruence.
Qed.

Lemma wlaw_enum {E} (to code : E -> N) e : to e = code e -> (code e < 256)%N -> wlaw [code e] (enum_write to e).
Proof. intros He H. unfold enum_write. rewrite He. eapply wlaw_eq; [|apply wlaw_uint]. apply be_bytes_1, H. Qed.

Ltac byte_inv b e :=
  destruct b as [|p]; cbn; [intros [= <-]; reflexivity|];
  do 8 (try (destruct p as [p|p|]; cbn; try discriminate; try (intros [= <-]; reflexivity))).

Lemma rlaw_function : rlaw (fun _ => True) (fun e => [function_to e]) (enum_read function_from).
Proof. apply (rlaw_enum _ function_to); [intros []; cbn; repeat split; lia|]. intros b e. byte_inv b e. Qed.
Lemma rlaw_ephemeral : rlaw (fun _ => True) (fun e => [ephemeral_code e]) (enum_read ephemeral_from).
Proof. apply (rlaw_enum _ ephemeral_to); [intros []; cbn; repeat split; lia|]. intros b e. byte_inv b e. Qed.
Lemma rlaw_hash : rlaw (fun _ => True) (fun e => [0%N]) (enum_read hash_from).
Proof. apply (rlaw_enum _ hash_to); [intros []; cbn; repeat split; lia|]. intros b e. byte_inv b e. Qed.
Lemma rlaw_kdf : rlaw (fun _ => True) (fun e => [0%N]) (enum_read kdf_from).
Proof. apply (rlaw_enum _ kdf_to); [intros []; cbn; repeat split; lia|]. intros b e. byte_inv b e. Qed.
Lemma rlaw_nonce_mode : rlaw (fun _ => True) (fun e => [nonce_mode_code e]) (enum_read nonce_mode_from).
Proof. apply (rlaw_enum _ nonce_mode_to); [intros []; cbn; repeat split; lia|]. intros b e. byte_inv b e. Qed.
Lemma rlaw_crypto_mode : rlaw (fun _ => True) (fun e => [crypto_mode_code e]) (enum_read crypto_mode_from).
Proof. apply (rlaw_enum _ crypto_mode_to); [intros []; cbn; repeat split; lia|]. intros b e. byte_inv b e. Qed.
Lemma rlaw_mode : rlaw (fun _ => True) (fun e => [mode_code e]) (enum_read handshake_mode_from).
Proof. apply (rlaw_enum _ handshake_mode_to); [intros []; cbn; repeat split; lia|]. intros b e. byte_inv b e. Qed.
Lemma rlaw_error_code : rlaw (fun _ => True) (fun e => [error_code e]) (enum_read handshake_error_from).
Proof. apply (rlaw_enum _ handshake_error_to); [intros []; cbn; repeat split; lia|]. intros b e. byte_inv b e. Qed.
Lemma rlaw_key_type : rlaw (fun _ => True) (fun e => [key_type_code e]) (enum_read key_type_from).
Proof. apply (rlaw_enum _ key_type_to); [intros []; cbn; repeat split; lia|]. intros b e. byte_inv b e. Qed.
Lemma rlaw_entry : rlaw (fun _ => True) (fun e => [entry_code e]) (enum_read entry_type_from).
Proof. apply (rlaw_enum _ entry_type_to); [intros []; cbn; repeat split; lia|]. intros b e. byte_inv b e. Qed.

(** Collections *)
Lemma rlaw_items {A} ok enc (item : parser A) : rlaw ok enc item -> forall cap,
  (forall l rest, Forall ok l -> length l <= cap ->
     items_read item cap (N.of_nat (length l)) (concat (map enc l) ++ rest) = POk l rest) /\
  (forall count inp l rest, bytes_ok inp -> items_read item cap count inp = POk l rest ->
     Forall ok l /\ length l <= cap /\ N.of_nat (length l) = count /\ inp = concat (map enc l) ++ rest).
Proof.
  intros [I1 I2]. induction cap as [|cap [IH1 IH2]].
  - split.
    + intros l rest Hl Hc. destruct l; [|cbn in Hc; lia]. reflexivity.
    + intros count inp l rest Hi H. cbn in H. destruct (N.eqb_spec count 0) as [->|Hn].
      * injection H as <- <-. repeat split; auto.
      * apply pbind_inv in H as (a & mid & _ & H). discriminate.
  - split.
    + intros l rest Hl Hc. destruct l as [|a l]; [reflexivity|].
      inversion Hl as [|? ? Ha Hl']; subst. cbn [length] in *. cbn [items_read].
      destruct (N.eqb_spec (N.of_nat (S (length l))) 0); [lia|].
      cbn [map concat]. rewrite <- app_assoc. erewrite pbind_ok by (apply I1, Ha).
      replace (N.of_nat (S (length l)) - 1)%N with (N.of_nat (length l)) by lia.
      erewrite pbind_ok by (apply IH1; [exact Hl'|lia]). reflexivity.
    + intros count inp l rest Hi H. cbn in H. destruct (N.eqb_spec count 0) as [->|Hn].
      * injection H as <- <-. repeat split; auto. cbn; lia.
      * apply pbind_inv in H as (a & mid & Ha & H). apply pbind_inv in H as (l' & mid' & Hl & H).
        injection H as <- <-. apply I2 in Ha as [Hok ->]; [|exact Hi].
        apply bytes_ok_app in Hi as [_ Hi]. apply IH2 in Hl as (Hf & Hc & Hcount & ->); [|exact Hi].
        cbn [length map concat]. repeat split; [constructor; assumption|lia|lia|apply app_assoc].
Qed.

Lemma rlaw_structs {A} ok enc (item : parser A) max : rlaw ok enc item -> max <= 100 ->
  rlaw (fun l => Forall ok l /\ length l <= max) (wire_items enc) (structs_read item max).
Proof.
  intros HI Hmax. destruct (rlaw_items ok enc item HI max) as [J1 J2]. destruct rlaw_vlength as [V1 V2]. split.
  - intros l rest [Hl Hc]. unfold structs_read, wire_items. rewrite <- app_assoc.
    erewrite pbind_ok by (apply V1; change (2 ^ 32)%N with 4294967296%N; lia). apply J1; assumption.
  - intros inp l rest Hi H. unfold structs_read in H. apply pbind_inv in H as (count & mid & Hc & H).
    apply V2 in Hc as [Hb ->]; [|exact Hi]. apply bytes_ok_app in Hi as [_ Hi].
    apply J2 in H as (Hf & Hlen & Hcount & ->); [|exact Hi]. unfold wire_items. rewrite Hcount, <- app_assoc. auto.
Qed.

Lemma wlaw_items {A} (enc : A -> list N) item l : Forall (fun a => wlaw (enc a) (item a)) l ->
  wlaw (concat (map enc l)) (items_write item l).
Proof. induction 1 as [|a l Ha Hl IH]; [apply wlaw_nil|]. cbn. apply wlaw_app; assumption. Qed.

Lemma wlaw_structs {A} (enc : A -> list N) item l : (N.of_nat (length l) < 2 ^ 32)%N ->
  Forall (fun a => wlaw (enc a) (item a)) l -> wlaw (wire_items enc l) (structs_write item l).
Proof. intros Hl H. apply wlaw_app; [apply wlaw_vlength, Hl|apply wlaw_items, H]. Qed.

Lemma structs_size_ok {A} (enc : A -> list N) size l : (N.of_nat (length l) < 2 ^ 32)%N ->
  Forall (fun a => length (enc a) = size a) l -> length (wire_items enc l) = structs_size size l.
Proof.
  intros Hl H. unfold wire_items, structs_size. rewrite app_length, vlength_size_ok by exact Hl. f_equal.
  assert (G : forall s, s + length (concat (map enc l)) = fold_left (fun s a => s + size a) l s).
  { induction H as [|a l Ha _ IH]; intros s; cbn [map concat fold_left]; [cbn; lia|].
    rewrite app_length, <- IH, Ha by (cbn in Hl; lia). lia. }
  apply (G 0).
Qed.

(** ** Structures and messages *)

Ltac fwd L := erewrite pbind_ok by (rewrite <- ?app_assoc; apply (proj1 L); first [exact I | assumption]).
Ltac inv L H Hi :=
  let a := fresh "a" in let mid := fresh "mid" in let Ha := fresh "Ha" in
  apply pbind_inv in H as (a & mid & Ha & H);
  apply (proj2 L) in Ha as [? ->]; [|exact Hi];
  let Hi' := fresh in assert (Hi' := Hi); apply bytes_ok_app in Hi' as [_ Hi'];
  clear Hi; rename Hi' into Hi.

Lemma rlaw_u16 : rlaw (fun v => (v < 2 ^ 16)%N) (be_bytes 2) (read_uint 2). Proof. apply (rlaw_uint 2). Qed.
Lemma rlaw_u32 : rlaw (fun v => (v < 2 ^ 32)%N) (be_bytes 4) (read_uint 4). Proof. apply (rlaw_uint 4). Qed.
Lemma rlaw_u64 : rlaw (fun v => (v < 2 ^ 64)%N) (be_bytes 8) (read_uint 8). Proof. apply (rlaw_uint 8). Qed.
Lemma rlaw_u8 : rlaw (fun v => (v < 2 ^ 8)%N) (be_bytes 1) (read_uint 1). Proof. apply (rlaw_uint 1). Qed.

Lemma rlaw_version : rlaw version_ok wire_version version_read.
Proof.
  split.
  - intros [a b] rest [Ha Hb]; cbn [major_version minor_version] in *. unfold version_read, wire_version.
    cbn [major_version minor_version]. fwd rlaw_u16. fwd rlaw_u16. reflexivity.
  - intros inp v rest Hi H. unfold version_read in H. inv rlaw_u16 H Hi. inv rlaw_u16 H Hi.
    injection H as <- <-. split; [split; assumption|]. unfold wire_version. cbn. reflexivity.
Qed.

Lemma rlaw_constraints : rlaw constraints_ok wire_constraints constraints_read.
Proof.
  split.
  - intros [a b] rest [Ha Hb]; cbn [sc_max_nonce sc_max_session_duration] in *. unfold constraints_read, wire_constraints.
    cbn [sc_max_nonce sc_max_session_duration]. fwd rlaw_u16. fwd rlaw_u32. reflexivity.
  - intros inp v rest Hi H. unfold constraints_read in H. inv rlaw_u16 H Hi. inv rlaw_u32 H Hi.
    injection H as <- <-. split; [split; assumption|]. unfold wire_constraints. cbn. reflexivity.
Qed.

Lemma rlaw_metadata : rlaw metadata_ok wire_metadata metadata_read.
Proof.
  split.
  - intros [a b] rest [Ha Hb]; cbn [am_nonce am_valid_until_ms] in *. unfold metadata_read, wire_metadata.
    cbn [am_nonce am_valid_until_ms]. fwd rlaw_u16. fwd rlaw_u32. reflexivity.
  - intros inp v rest Hi H. unfold metadata_read in H. inv rlaw_u16 H Hi. inv rlaw_u32 H Hi.
    injection H as <- <-. split; [split; assumption|]. unfold wire_metadata. cbn. reflexivity.
Qed.

Lemma rlaw_spec : rlaw (fun _ => True) wire_spec spec_read.
Proof.
  split.
  - intros [e h k n c] rest _. unfold spec_read, wire_spec. cbn [sp_ephemeral sp_nonce_mode sp_crypto_mode].
    change ([ephemeral_code e; 0; 0; nonce_mode_code n; crypto_mode_code c]%N ++ rest) with
      ([ephemeral_code e] ++ [0%N] ++ [0%N] ++ [nonce_mode_code n] ++ [crypto_mode_code c] ++ rest).
    erewrite pbind_ok by (apply (proj1 rlaw_ephemeral); exact I).
    erewrite pbind_ok by (apply (proj1 rlaw_hash hash_sha256); exact I).
    erewrite pbind_ok by (apply (proj1 rlaw_kdf kdf_hkdf_sha256); exact I).
    erewrite pbind_ok by (apply (proj1 rlaw_nonce_mode); exact I).
    erewrite pbind_ok by (apply (proj1 rlaw_crypto_mode); exact I).
    destruct h, k. reflexivity.
  - intros inp v rest Hi H. unfold spec_read in H.
    inv rlaw_ephemeral H Hi. inv rlaw_hash H Hi. inv rlaw_kdf H Hi. inv rlaw_nonce_mode H Hi. inv rlaw_crypto_mode H Hi.
    injection H as <- <-. split; [exact I|]. reflexivity.
Qed.

(** Messages: read_message and read_all *)
Lemma read_all_iff {A} ok enc (p : parser A) : rlaw ok enc p -> forall inp a, bytes_ok inp ->
  (read_all p inp = inl a <-> ok a /\ inp = enc a).
Proof.
  intros [L1 L2] inp a Hi. unfold read_all. split.
  - destruct (p inp) as [a' rest|] eqn:E; [|discriminate]. destruct rest as [|]; [|discriminate].
    intros [= <-]. apply L2 in E; [|exact Hi]. rewrite app_nil_r in E. exact E.
  - intros [Hok ->]. specialize (L1 a [] Hok). rewrite app_nil_r in L1. rewrite L1. reflexivity.
Qed.

Lemma read_all_trailing {A} ok enc (p : parser A) : rlaw ok enc p -> forall a x rest,
  ok a -> read_all p (enc a ++ x :: rest) = inr too_many_bytes.
Proof. intros [L1 L2] a x rest Hok. unfold read_all. rewrite L1 by exact Hok. reflexivity. Qed.

Lemma function_eqb_spec a b : function_eqb a b = true <-> a = b.
Proof. destruct a, b; cbn; split; congruence. Qed.

Lemma read_message_iff {A} f ok enc (p : parser A) : rlaw ok enc p -> forall inp a, bytes_ok inp ->
  (read_message f p inp = inl a <-> ok a /\ inp = function_to f :: enc a).
Proof.
  intros [L1 L2] inp a Hi. unfold read_message. split.
  - destruct (enum_read function_from inp) as [g rest|] eqn:E; [|discriminate].
    apply (proj2 rlaw_function) in E as [_ ->]; [|exact Hi]. apply bytes_ok_app in Hi as [_ Hi].
    destruct (function_eqb g f) eqn:Eg; [|discriminate]. cbn [negb]. apply function_eqb_spec in Eg as ->.
    destruct (p rest) as [a' rest'|] eqn:E; [|discriminate]. destruct rest' as [|]; [|discriminate].
    intros [= <-]. apply L2 in E as [Hok ->]; [|exact Hi]. rewrite app_nil_r. auto.
  - intros [Hok ->]. rewrite (proj1 rlaw_function f (enc a) I : enum_read function_from (function_to f :: enc a) = _).
    rewrite (proj2 (function_eqb_spec f f) eq_refl). cbn [negb].
    specialize (L1 a [] Hok). rewrite app_nil_r in L1. rewrite L1. reflexivity.
Qed.

Lemma read_message_trailing {A} f ok enc (p : parser A) : rlaw ok enc p -> forall a x rest,
  ok a -> read_message f p ((function_to f :: enc a) ++ x :: rest) = inr too_many_bytes.
Proof.
  intros [L1 L2] a x rest Hok. unfold read_message.
  change ((function_to f :: enc a) ++ x :: rest) with ([function_to f] ++ enc a ++ x :: rest).
  rewrite (proj1 rlaw_function f _ I).
  rewrite (proj2 (function_eqb_spec f f) eq_refl). cbn [negb]. rewrite L1 by exact Hok. reflexivity.
Qed.

Lemma read_message_wrong_function {A} f g (p : parser A) rest :
  f <> g -> read_message f p (function_to g :: rest) = inr unexpected_function.
Proof.
  intros H. unfold read_message. change (function_to g :: rest) with ([function_to g] ++ rest).
  rewrite (proj1 rlaw_function g rest I). destruct (function_eqb g f) eqn:E; [|reflexivity].
  apply function_eqb_spec in E. congruence.
Qed.

Definition tl_enc {A} (enc : A -> list N) (a : A) : list N := tl (enc a).

Lemma rlaw_request_fields : rlaw request_ok (tl_enc wire_request) request_fields_read.
Proof.
  unfold tl_enc, wire_request. cbn [app tl]. split.
  - intros [v s c m e d] rest (Hv & Hc & He & Hd). cbn in Hv, Hc, He, Hd. unfold request_fields_read.
    cbn [rq_version rq_spec rq_constraints rq_mode rq_mode_ephemeral rq_mode_data].
    rewrite <- !app_assoc.
    erewrite pbind_ok by (apply (proj1 rlaw_version); exact Hv).
    erewrite pbind_ok by (apply (proj1 rlaw_spec); exact I).
    erewrite pbind_ok by (apply (proj1 rlaw_constraints); exact Hc).
    change (mode_code m :: ?x) with ([mode_code m] ++ x). rewrite <- !app_assoc.
    erewrite pbind_ok by (apply (proj1 rlaw_mode m); exact I). rewrite <- ?app_assoc.
    erewrite pbind_ok by (apply (proj1 rlaw_seq); exact He).
    erewrite pbind_ok by (apply (proj1 rlaw_seq); exact Hd). reflexivity.
  - intros inp r rest Hi H. unfold request_fields_read in H.
    inv rlaw_version H Hi. inv rlaw_spec H Hi. inv rlaw_constraints H Hi. inv rlaw_mode H Hi.
    inv rlaw_seq H Hi. inv rlaw_seq H Hi. injection H as <- <-.
    split; [repeat split; cbn; auto; try (match goal with H : _ /\ _ |- _ => apply H end)|].
    all: try (cbn; repeat match goal with H : version_ok _ |- _ => destruct H | H : constraints_ok _ |- _ => destruct H
      | H : seq_ok _ |- _ => destruct H end; assumption).
    cbn. rewrite <- !app_assoc. cbn. rewrite <- ?app_assoc. reflexivity.
Qed.

Lemma rlaw_reply_fields : rlaw reply_ok (tl_enc wire_reply) reply_fields_read.
Proof.
  unfold tl_enc, wire_reply. cbn [app tl]. split.
  - intros [v e d] rest (Hv & He & Hd). cbn in Hv, He, Hd. unfold reply_fields_read.
    cbn [rp_version rp_mode_ephemeral rp_mode_data]. rewrite <- !app_assoc.
    erewrite pbind_ok by (apply (proj1 rlaw_version); exact Hv).
    erewrite pbind_ok by (apply (proj1 rlaw_seq); exact He).
    erewrite pbind_ok by (apply (proj1 rlaw_seq); exact Hd). reflexivity.
  - intros inp r rest Hi H. unfold reply_fields_read in H.
    inv rlaw_version H Hi. inv rlaw_seq H Hi. inv rlaw_seq H Hi. injection H as <- <-.
    unfold reply_ok. cbn [rp_version rp_mode_ephemeral rp_mode_data]. rewrite <- ?app_assoc. auto.
Qed.

Lemma rlaw_error_fields : rlaw error_ok (tl_enc wire_error) error_fields_read.
Proof.
  unfold tl_enc, wire_error. cbn [app tl]. split.
  - intros [v e] rest Hv. cbn in Hv. unfold error_fields_read.
    cbn [re_version re_error]. rewrite <- !app_assoc.
    erewrite pbind_ok by (apply (proj1 rlaw_version); exact Hv).
    erewrite pbind_ok by (apply (proj1 rlaw_error_code e); exact I). reflexivity.
  - intros inp r rest Hi H. unfold error_fields_read in H.
    inv rlaw_version H Hi. inv rlaw_error_code H Hi. injection H as <- <-.
    unfold error_ok. cbn [re_version re_error]. rewrite <- ?app_assoc. auto.
Qed.

Lemma rlaw_session_data_fields : rlaw session_data_ok (tl_enc wire_session_data) session_data_fields_read.
Proof.
  unfold tl_enc, wire_session_data. cbn [app tl]. split.
  - intros [v e d] rest (Hv & He & Hd). cbn in Hv, He, Hd. unfold session_data_fields_read.
    cbn [sd_metadata sd_user_data sd_auth_tag]. rewrite <- !app_assoc.
    erewrite pbind_ok by (apply (proj1 rlaw_metadata); exact Hv).
    erewrite pbind_ok by (apply (proj1 rlaw_seq); exact He).
    erewrite pbind_ok by (apply (proj1 rlaw_seq); exact Hd). reflexivity.
  - intros inp r rest Hi H. unfold session_data_fields_read in H.
    inv rlaw_metadata H Hi. inv rlaw_seq H Hi. inv rlaw_seq H Hi. injection H as <- <-.
    unfold session_data_ok. cbn [sd_metadata sd_user_data sd_auth_tag]. rewrite <- ?app_assoc. auto.
Qed.

Lemma rlaw_extension : rlaw extension_ok wire_extension extension_read.
Proof.
  unfold wire_extension. split.
  - intros [i b] rest (Hi & Hb). cbn in Hi, Hb. unfold extension_read. cbn [ex_identifier ex_body].
    rewrite <- !app_assoc.
    erewrite pbind_ok by (apply (proj1 rlaw_u32); exact Hi).
    erewrite pbind_ok by (apply (proj1 rlaw_seq); exact Hb). reflexivity.
  - intros inp r rest Hi H. unfold extension_read in H. inv rlaw_u32 H Hi. inv rlaw_seq H Hi.
    injection H as <- <-. unfold extension_ok. cbn [ex_identifier ex_body]. rewrite <- app_assoc. auto.
Qed.

Lemma rlaw_body : rlaw body_ok wire_body body_read.
Proof.
  pose proof (rlaw_structs _ _ _ max_extensions rlaw_extension ltac:(unfold max_extensions; lia)) as LX.
  unfold wire_body. split.
  - intros [va vb sl kt pk ex] rest (Hva & Hvb & Hsl & Hpk & Hex & Hn). cbn in Hva, Hvb, Hsl, Hpk, Hex, Hn.
    unfold body_read. cbn [cb_valid_after cb_valid_before cb_signing_level cb_key_type cb_public_key cb_extensions].
    rewrite <- !app_assoc.
    erewrite pbind_ok by (apply (proj1 rlaw_u64); exact Hva).
    erewrite pbind_ok by (apply (proj1 rlaw_u64); exact Hvb).
    erewrite pbind_ok by (apply (proj1 rlaw_u8); exact Hsl).
    erewrite pbind_ok by (apply (proj1 rlaw_key_type kt); exact I). rewrite <- ?app_assoc.
    erewrite pbind_ok by (apply (proj1 rlaw_seq); exact Hpk).
    erewrite pbind_ok by (apply (proj1 LX); split; assumption). reflexivity.
  - intros inp r rest Hi H. unfold body_read in H.
    inv rlaw_u64 H Hi. inv rlaw_u64 H Hi. inv rlaw_u8 H Hi. inv rlaw_key_type H Hi. inv rlaw_seq H Hi. inv LX H Hi.
    injection H as <- <-. unfold body_ok.
    cbn [cb_valid_after cb_valid_before cb_signing_level cb_key_type cb_public_key cb_extensions].
    rewrite <- !app_assoc. unfold max_extensions in *. intuition.
Qed.

Lemma rlaw_envelope : rlaw envelope_ok wire_envelope envelope_read.
Proof.
  unfold wire_envelope. split.
  - intros [i b] rest (Hi & Hb). cbn in Hi, Hb. unfold envelope_read. cbn [env_signature env_body].
    rewrite <- !app_assoc.
    erewrite pbind_ok by (apply (proj1 rlaw_seq); exact Hi).
    erewrite pbind_ok by (apply (proj1 rlaw_seq); exact Hb). reflexivity.
  - intros inp r rest Hi H. unfold envelope_read in H. inv rlaw_seq H Hi. inv rlaw_seq H Hi.
    injection H as <- <-. unfold envelope_ok. cbn [env_signature env_body]. rewrite <- app_assoc. auto.
Qed.

Lemma rlaw_chain : rlaw chain_ok wire_chain chain_read.
Proof. apply (rlaw_structs _ _ _ max_certificates rlaw_envelope). unfold max_certificates; lia. Qed.

Lemma rlaw_container : rlaw container_ok wire_container container_read.
Proof.
  unfold wire_container. split.
  - intros [i b] rest Hb. cbn in Hb. unfold container_read. cbn [cf_type cf_payload].
    rewrite <- !app_assoc.
    erewrite pbind_ok by (apply (proj1 rlaw_entry i); exact I).
    erewrite pbind_ok by (apply (proj1 rlaw_seq); exact Hb). reflexivity.
  - intros inp r rest Hi H. unfold container_read in H. inv rlaw_entry H Hi. inv rlaw_seq H Hi.
    injection H as <- <-. unfold container_ok. cbn [cf_type cf_payload]. split; [assumption|reflexivity].
Qed.

(** ** Writers *)

Ltac wl := repeat first [ apply wlaw_seq; assumption | apply wlaw_nil | apply wlaw_uint | apply wlaw_app ].

Lemma wlaw_version v : wlaw (wire_version v) (version_write v).
Proof. unfold wire_version, version_write. rewrite <- (app_nil_r (be_bytes 2 (minor_version v))). wl. Qed.
Lemma wlaw_constraints v : wlaw (wire_constraints v) (constraints_write v).
Proof. unfold wire_constraints, constraints_write. rewrite <- (app_nil_r (be_bytes 4 _)). wl. Qed.
Lemma wlaw_metadata v : wlaw (wire_metadata v) (metadata_write v).
Proof. unfold wire_metadata, metadata_write. rewrite <- (app_nil_r (be_bytes 4 _)). wl. Qed.
Lemma wlaw_spec s : wlaw (wire_spec s) (spec_write s).
Proof.
  unfold wire_spec, spec_write.
  change [ephemeral_code (sp_ephemeral s); 0; 0; nonce_mode_code (sp_nonce_mode s); crypto_mode_code (sp_crypto_mode s)]%N
    with ([ephemeral_code (sp_ephemeral s)] ++ [0%N] ++ [0%N] ++ [nonce_mode_code (sp_nonce_mode s)]
          ++ [crypto_mode_code (sp_crypto_mode s)] ++ []).
  repeat (apply wlaw_app; [|]); try apply wlaw_nil.
  - apply wlaw_enum; destruct (sp_ephemeral s); cbn; lia.
  - apply (wlaw_enum hash_to (fun _ => 0%N)); [reflexivity|lia].
  - apply (wlaw_enum kdf_to (fun _ => 0%N)); [reflexivity|lia].
  - apply wlaw_enum; destruct (sp_nonce_mode s); cbn; lia.
  - apply wlaw_enum; destruct (sp_crypto_mode s); cbn; lia.
Qed.

Lemma wlaw_message f enc w : wlaw enc w -> wlaw ([function_to f] ++ enc) (write_message f w).
Proof. intros H. apply wlaw_app; [|exact H]. apply wlaw_enum; destruct f; cbn; lia. Qed.

Lemma wlaw_request m : request_ok m -> wlaw (wire_request m) (request_write m).
Proof.
  intros (_ & _ & He & Hd). unfold wire_request, request_write. apply (wlaw_message request_handshake_begin).
  rewrite <- (app_nil_r (wire_seq (rq_mode_data m))).
  repeat (apply wlaw_app; [first [apply wlaw_version|apply wlaw_spec|apply wlaw_constraints|apply wlaw_seq; assumption|idtac]|]);
    try apply wlaw_nil.
  apply wlaw_enum; destruct (rq_mode m); cbn; lia.
Qed.

Lemma wlaw_reply m : reply_ok m -> wlaw (wire_reply m) (reply_write m).
Proof.
  intros (_ & He & Hd). unfold wire_reply, reply_write. apply (wlaw_message reply_handshake_begin).
  rewrite <- (app_nil_r (wire_seq (rp_mode_data m))).
  repeat (apply wlaw_app; [first [apply wlaw_version|apply wlaw_seq; assumption]|]); apply wlaw_nil.
Qed.

Lemma wlaw_error m : wlaw (wire_error m) (error_write m).
Proof.
  unfold wire_error, error_write. apply (wlaw_message reply_handshake_error).
  change [error_code (re_error m)] with ([error_code (re_error m)] ++ []).
  apply wlaw_app; [apply wlaw_version|]. apply wlaw_app; [|apply wlaw_nil].
  apply wlaw_enum; destruct (re_error m); cbn; lia.
Qed.

Lemma wlaw_session_data m : session_data_ok m -> wlaw (wire_session_data m) (session_data_write m).
Proof.
  intros (_ & He & Hd). unfold wire_session_data, session_data_write. apply (wlaw_message session_data).
  rewrite <- (app_nil_r (wire_seq (sd_auth_tag m))).
  repeat (apply wlaw_app; [first [apply wlaw_metadata|apply wlaw_seq; assumption]|]); apply wlaw_nil.
Qed.

Lemma wlaw_extension e : extension_ok e -> wlaw (wire_extension e) (extension_write e).
Proof.
  intros (_ & Hb). unfold wire_extension, extension_write. rewrite <- (app_nil_r (wire_seq (ex_body e))). wl.
Qed.

Lemma wlaw_body b : body_ok b -> wlaw (wire_body b) (body_write b).
Proof.
  intros (_ & _ & _ & Hp & Hx & Hn). unfold wire_body, body_write.
  rewrite <- (app_nil_r (wire_items wire_extension (cb_extensions b))).
  do 3 (apply wlaw_app; [apply wlaw_uint|]).
  apply wlaw_app; [apply wlaw_enum; destruct (cb_key_type b); cbn; lia|].
  apply wlaw_app; [apply wlaw_seq; assumption|].
  apply wlaw_app; [|apply wlaw_nil].
  - apply wlaw_structs; [change (2 ^ 32)%N with 4294967296%N; lia|].
    eapply Forall_impl; [|exact Hx]. intros e He. apply wlaw_extension, He.
Qed.

Lemma wlaw_envelope e : envelope_ok e -> wlaw (wire_envelope e) (envelope_write e).
Proof.
  intros (Hs & Hb). unfold wire_envelope, envelope_write. rewrite <- (app_nil_r (wire_seq (env_body e))). wl.
Qed.

Lemma wlaw_chain c : chain_ok c -> wlaw (wire_chain c) (chain_write c).
Proof.
  intros (Hc & Hn). unfold wire_chain, chain_write. rewrite <- (app_nil_r (wire_items wire_envelope c)).
  apply wlaw_app; [|apply wlaw_nil]. apply wlaw_structs; [change (2 ^ 32)%N with 4294967296%N; lia|].
  eapply Forall_impl; [|exact Hc]. intros e He. apply wlaw_envelope, He.
Qed.

Lemma wlaw_container c : container_ok c -> wlaw (wire_container c) (container_write c).
Proof.
  intros Hp. unfold wire_container, container_write. unfold container_ok in Hp.
  rewrite <- (app_nil_r (wire_seq (cf_payload c))).
  apply wlaw_app; [apply wlaw_enum; destruct (cf_type c); cbn; lia|]. wl.
Qed.

(** ** Sizes *)
Lemma extension_size_ok e : extension_ok e -> length (wire_extension e) = extension_size e.
Proof. intros (_ & H). unfold wire_extension, extension_size. rewrite app_length, be_bytes_length, seq_size_ok by exact H. lia. Qed.
Lemma body_size_ok b : body_ok b -> length (wire_body b) = body_size b.
Proof.
  intros (_ & _ & _ & Hp & Hx & Hn). unfold wire_body, body_size.
  rewrite !app_length, !be_bytes_length, seq_size_ok by exact Hp.
  rewrite (structs_size_ok wire_extension extension_size); [cbn [length]; lia|change (2 ^ 32)%N with 4294967296%N; lia|].
  eapply Forall_impl; [|exact Hx]. intros e He. apply extension_size_ok, He.
Qed.
Lemma envelope_size_ok e : envelope_ok e -> length (wire_envelope e) = envelope_size e.
Proof. intros (Hs & Hb). unfold wire_envelope, envelope_size. rewrite app_length, !seq_size_ok by assumption. lia. Qed.
Lemma chain_size_ok c : chain_ok c -> length (wire_chain c) = chain_size c.
Proof.
  intros (Hc & Hn). unfold wire_chain, chain_size.
  rewrite (structs_size_ok wire_envelope envelope_size); [reflexivity|change (2 ^ 32)%N with 4294967296%N; lia|].
  eapply Forall_impl; [|exact Hc]. intros e He. apply envelope_size_ok, He.
Qed.
Lemma container_size_ok c : container_ok c -> length (wire_container c) = container_size c.
Proof. intros H. unfold wire_container, container_size. rewrite app_length, seq_size_ok by exact H. cbn [length]. lia. Qed.
Lemma request_size_ok m : request_ok m -> length (wire_request m) = request_size m.
Proof.
  intros (_ & _ & He & Hd). unfold wire_request, request_size, wire_version, wire_constraints, wire_spec.
  rewrite !app_length, !be_bytes_length, !seq_size_ok by assumption. cbn [length]. lia.
Qed.
Lemma reply_size_ok m : reply_ok m -> length (wire_reply m) = reply_size m.
Proof.
  intros (_ & He & Hd). unfold wire_reply, reply_size, wire_version.
  rewrite !app_length, !be_bytes_length, !seq_size_ok by assumption. cbn [length]. lia.
Qed.
Lemma error_size_ok m : length (wire_error m) = error_size m.
Proof. unfold wire_error, error_size, wire_version. rewrite !app_length, !be_bytes_length. cbn [length]. lia. Qed.
Lemma session_data_size_ok m : session_data_ok m -> length (wire_session_data m) = session_data_size m.
Proof.
  intros (_ & He & Hd). unfold wire_session_data, session_data_size, wire_metadata.
  rewrite !app_length, !be_bytes_length, !seq_size_ok by assumption. cbn [length]. lia.
Qed.

(** ** Encodings consist of bytes *)
Lemma der_length_bytes v : (v < 2 ^ 32)%N -> bytes_ok (der_length v).
Proof.
  intros H. destruct (N.lt_ge_cases v 128) as [Hl|Hl].
  - unfold der_length. destruct (N.ltb_spec v 128); [|lia]. constructor; [unfold byte_ok; lia|constructor].
  - rewrite der_length_long by assumption. pose proof (num_values_bytes_range v Hl).
    constructor; [unfold byte_ok; lia|apply be_bytes_ok].
Qed.
Lemma wire_seq_bytes s : seq_ok s -> bytes_ok (wire_seq s).
Proof. intros [H1 H2]. apply bytes_ok_app. split; [apply der_length_bytes, H2|exact H1]. Qed.
Lemma single_bytes b : (b < 256)%N -> bytes_ok [b].
Proof. intros H. constructor; [exact H|constructor]. Qed.
Lemma wire_items_bytes {A} (enc : A -> list N) l : (N.of_nat (length l) < 2 ^ 32)%N ->
  Forall (fun a => bytes_ok (enc a)) l -> bytes_ok (wire_items enc l).
Proof.
  intros Hl H. apply bytes_ok_app. split; [apply der_length_bytes, Hl|]. clear Hl.
  induction H as [|a l Ha _ IH]; cbn; [constructor|]. apply bytes_ok_app; auto.
Qed.

Ltac wb := rewrite ?bytes_ok_app; repeat match goal with |- _ /\ _ => split end; auto using be_bytes_ok, wire_seq_bytes.

Lemma wire_version_bytes v : bytes_ok (wire_version v). Proof. unfold wire_version. wb. Qed.
Lemma wire_spec_bytes s : bytes_ok (wire_spec s).
Proof.
  unfold wire_spec, bytes_ok, byte_ok.
  repeat constructor; [destruct (sp_ephemeral s)|destruct (sp_nonce_mode s)|destruct (sp_crypto_mode s)]; cbn; lia.
Qed.
Lemma wire_request_bytes m : request_ok m -> bytes_ok (wire_request m).
Proof.
  intros (_ & _ & He & Hd). unfold wire_request, wire_constraints. wb; auto using wire_version_bytes, wire_spec_bytes.
  - apply single_bytes. lia.
  - apply single_bytes. destruct (rq_mode m); cbn; lia.
Qed.
Lemma wire_reply_bytes m : reply_ok m -> bytes_ok (wire_reply m).
Proof. intros (_ & He & Hd). unfold wire_reply. wb; auto using wire_version_bytes. apply single_bytes. lia. Qed.
Lemma wire_error_bytes m : bytes_ok (wire_error m).
Proof.
  unfold wire_error. wb; auto using wire_version_bytes; apply single_bytes; [lia|]. destruct (re_error m); cbn; lia.
Qed.
Lemma wire_metadata_bytes m : bytes_ok (wire_metadata m). Proof. unfold wire_metadata. wb. Qed.
Lemma wire_session_data_bytes m : session_data_ok m -> bytes_ok (wire_session_data m).
Proof. intros (_ & He & Hd). unfold wire_session_data, wire_metadata. wb. apply single_bytes. lia. Qed.
Lemma wire_extension_bytes e : extension_ok e -> bytes_ok (wire_extension e).
Proof. intros (_ & Hb). unfold wire_extension. wb. Qed.
Lemma wire_body_bytes b : body_ok b -> bytes_ok (wire_body b).
Proof.
  intros (_ & _ & _ & Hp & Hx & Hn). unfold wire_body. wb.
  - apply single_bytes. destruct (cb_key_type b); cbn; lia.
  - apply wire_items_bytes; [change (2 ^ 32)%N with 4294967296%N; lia|].
    eapply Forall_impl; [|exact Hx]. intros e He. apply wire_extension_bytes, He.
Qed.
Lemma wire_envelope_bytes e : envelope_ok e -> bytes_ok (wire_envelope e).
Proof. intros (Hs & Hb). unfold wire_envelope. wb. Qed.
Lemma wire_chain_bytes c : chain_ok c -> bytes_ok (wire_chain c).
Proof.
  intros (Hc & Hn). apply wire_items_bytes; [change (2 ^ 32)%N with 4294967296%N; lia|].
  eapply Forall_impl; [|exact Hc]. intros e He. apply wire_envelope_bytes, He.
Qed.
Lemma wire_container_bytes c : container_ok c -> bytes_ok (wire_container c).
Proof. intros H. unfold wire_container, container_ok in *. wb. apply single_bytes. destruct (cf_type c); cbn; lia. Qed.
