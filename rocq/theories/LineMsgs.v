(** * LineMsgs: the messages of a session on a reliable line *)
From Verif Require Import Base BaseFacts Codec CodecSpec CodecFacts Link LinkLayer Primitives Session SessionSpec SessionFacts SessionMain
  Handshake HandshakeSpec HandshakeFacts HandshakeMain HandshakePair Endpoint EndpointSpec EndpointFacts EndpointMain EndpointRx EndpointTx EndpointNonce PairSpec Line LineSpec PropCodec PropSession PropHandshake.

(** A session with other nonces *)
Definition at_nonces (s : session) (tx rx : N) : session := set_tx_nonce (set_rx_nonce s rx) tx.

(** The [n]-th session message, sent at [fst x] *)
Definition carried (E : senv) (s : session) (off : Z) (n : nat) (x : Z * list N) (chunk : list N) : Prop :=
  exists m, snd x = wire_session_data m /\ session_data_ok m /\ am_nonce (sd_metadata m) = N.of_nat n /\
    length (sd_user_data m) <= 1024 /\ length (sd_auth_tag m) = 16 /\
    (fst x + off - p_start (s_param s) + ms (e_ttl_pad_ms E) - 1000000 < ms (am_valid_until_ms (sd_metadata m)))%Z /\
    (forall cap, 1024 <= cap < N.to_nat 65536 -> mode_read (e_prims E) (s_crypto_mode s) (k_tx (s_keys s)) m cap = Ok (inl chunk)) /\
    (0 < n -> chunk <> []).

Lemma to_ms_gt d : (0 <= d)%Z -> (d - 1000000 < ms (to_ms d))%Z.
Proof. intros H. unfold ms, to_ms. rewrite Z2N.id by (apply Z.div_pos; lia). pose proof (Z.mod_pos_bound d 1000000 ltac:(lia)). pose proof (Z.div_mod d 1000000 ltac:(lia)). lia. Qed.

Lemma formatted E s off now t clear : prims_ok (e_prims E) -> (1051 <= e_max_payload E)%N -> can_send E s now -> (s_tx_nonce s < 65536)%N -> bytes_ok clear ->
  (t + off <= now)%Z -> (p_max_time (s_param s) <= ms 4294967295)%Z -> (0 < s_tx_nonce s -> clear <> [])%N ->
  exists x rest, format_session_data E s now clear = Ok (inl (frame_of (e_kind E) x), rest, set_tx_nonce s (nonce_increment (s_tx_nonce s))) /\
    carried E s off (N.to_nat (s_tx_nonce s)) (t, x) (taken clear rest) /\ bytes_ok rest /\ clear = taken clear rest ++ rest /\ (clear = [] -> taken clear rest = [] /\ rest = []).
Proof.
  intros HP Hm Hc Hn Hb Ht Hmax Hne. destruct (C20_always_fits E s now clear HP Hm Hc) as (f & rest & s' & H). destruct (format_session_inv _ _ _ _ _ _ _ HP H) as [F Hlt].
  destruct (format_carries _ _ _ _ _ _ _ F Hb Hn) as (m & M1 & M2 & M3 & M4 & M5).
  destruct (ff_msg _ _ _ _ _ _ _ F) as (m' & N1 & N2 & N3 & N4 & N6 & N5).
  pose proof (tx_n_le E clear) as (L1 & L2 & L3).
  exists (wire_session_data m'), rest. rewrite H. rewrite (ff_session _ _ _ _ _ _ _ F), N1. split; [reflexivity|].
  assert (Et : taken clear rest = firstn (tx_n E clear) clear) by (rewrite (ff_rest _ _ _ _ _ _ _ F); apply (@taken_skipn N), L1).
  destruct (N6 Hb) as [N7 N8]. rewrite Et. split; [|split; [rewrite (ff_rest _ _ _ _ _ _ _ F); apply skipn_bytes, Hb|split; [rewrite (ff_rest _ _ _ _ _ _ _ F); symmetry; apply firstn_skipn|]]].
  2: { intros ->. rewrite (ff_rest _ _ _ _ _ _ _ F). destruct (tx_n E []); auto. }
  exists m'. split; [reflexivity|]. split.
  { split; [|split; split; [exact N7|lia|exact N8|lia]]. rewrite N2. split; cbn [am_nonce am_valid_until_ms]; [change (2 ^ 16)%N with 65536%N; lia|].
    unfold u32, trunc. apply N.mod_lt. discriminate. }
  split; [rewrite N2; cbn [am_nonce]; lia|]. split; [lia|]. split; [exact N4|]. split.
  - rewrite N2. cbn [am_valid_until_ms fst]. pose proof (ff_start _ _ _ _ _ _ _ F) as K1. pose proof (ff_time _ _ _ _ _ _ _ F) as K2.
    assert (Pad : (0 <= ms (e_ttl_pad_ms E))%Z) by (unfold ms; lia).
    set (d := (now - p_start (s_param s) + ms (e_ttl_pad_ms E))%Z) in *. assert (Hd : (0 <= d)%Z) by (unfold d; lia).
    assert (Hu : u32 (to_ms d) = to_ms d).
    { unfold u32, trunc, to_ms. apply N.mod_small. unfold ms in Hmax. change (2 ^ 32)%N with 4294967296%N.
      assert (Y : (0 <= d / 1000000 < 4294967296)%Z) by (clear - Hd K2 Hmax; lia). lia. }
    rewrite Hu. pose proof (to_ms_gt d Hd). unfold d in *. lia.
  - split; [intros cap Hcap; apply N5; lia|]. intros Hpos X. specialize (L3 (Hne ltac:(lia)) (ff_cap _ _ _ _ _ _ _ F)).
    apply (f_equal (@length N)) in X. rewrite firstn_length in X. cbn in X. lia.
Qed.

Lemma format_auth_data E s now clear : s_tx_nonce s = 0%N -> (0 < p_max_nonce (s_param s))%N -> format_session_auth E s now clear = format_session_data E s now clear.
Proof. intros H1 H2. unfold format_session_auth, format_session_data. rewrite H1. cbn. destruct (N.leb_spec (p_max_nonce (s_param s)) 0); [lia|reflexivity]. Qed.

(** ** Receiving *)
Lemma validated E E' s s' off n x chunk now cap verify m : carried E s' off n x chunk -> snd x = wire_session_data m -> session_data_ok m -> e_prims E = e_prims E' ->
  s_valid s = true -> k_rx (s_keys s) = k_tx (s_keys s') -> s_crypto_mode s = s_crypto_mode s' -> 1024 <= cap < N.to_nat 65536 ->
  (p_start (s_param s) <= now)%Z -> (now - p_start (s_param s) <= p_max_time (s_param s))%Z ->
  (now - p_start (s_param s) <= fst x + off - p_start (s_param s') + ms (e_ttl_pad_ms E) - 1000000)%Z ->
  (N.of_nat n <= p_max_nonce (s_param s))%N -> verify (s_rx_nonce s) (N.of_nat n) = true ->
  validate_with E' verify s m now cap = Ok (inl chunk, set_rx_nonce s (N.of_nat n), [st_success]).
Proof.
  intros (m' & M1 & M2 & M3 & M4 & M5 & M6 & M7 & M8) Em Hm HE V K Md Hcap T1 T2 T3 Nx Vf.
  assert (m' = m). { pose proof (proj2 (C10_session_data_round_trip m' _ M2 (le_n _))) as A. rewrite <- M1, Em, (proj2 (C10_session_data_round_trip m _ Hm (le_n _))) in A. congruence. } subst m'.
  unfold validate_with. rewrite V. cbn [negb]. rewrite <- HE, Md, K, (M7 cap Hcap). cbn [obind].
  destruct (Z.ltb_spec now (p_start (s_param s))); [lia|]. destruct (Z.ltb_spec (p_max_time (s_param s)) (now - p_start (s_param s))); [lia|].
  destruct (Z.ltb_spec (ms (am_valid_until_ms (sd_metadata m))) (now - p_start (s_param s))); [lia|]. rewrite M3.
  destruct (N.ltb_spec (p_max_nonce (s_param s)) (N.of_nat n)); [lia|]. rewrite Vf. reflexivity.
Qed.
Lemma verify_next nm (n : nat) : (N.of_nat (S n) < 65536)%N -> verify_nonce nm (N.of_nat n) (N.of_nat (S n)) = true.
Proof.
  intros H. destruct nm; cbn; unfold verify_strict_increment, verify_greater_than_last.
  - destruct (N.eqb_spec (N.of_nat n) 65535); [lia|]. apply N.eqb_eq. lia.
  - repeat match goal with |- context [(?a =? ?b)%N] => destruct (N.eqb_spec a b); try lia end. apply N.ltb_lt. lia.
Qed.
