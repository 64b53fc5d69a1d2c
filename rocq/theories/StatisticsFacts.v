(** * StatisticsFacts: proofs about the counters *)
From Verif Require Import Base BaseFacts Codec Link LinkLayer Primitives Session Handshake Endpoint Statistics StatisticsSpec.

(** ** Counting a list of increments *)
Definition is_stat (a b : stat) : bool :=
  match a, b with
  | st_init, st_init | st_no_session, st_no_session | st_auth_fail, st_auth_fail
  | st_ttl_expiration, st_ttl_expiration | st_nonce_fail, st_nonce_fail | st_success, st_success => true
  | _, _ => false
  end.
Definition value (c : counters) (st : stat) : N :=
  match st with
  | st_init => num_init c | st_no_session => num_user_data_without_session c | st_auth_fail => num_auth_fail c
  | st_ttl_expiration => num_ttl_expiration c | st_nonce_fail => num_nonce_fail c | st_success => num_success c
  end.
Definition two64 : N := 18446744073709551616.

Lemma hm_nil {A} (f : A -> bool) : how_many f [] = 0%N. Proof. reflexivity. Qed.
Lemma hm_cons {A} (f : A -> bool) x l : how_many f (x :: l) = ((if f x then 1 else 0) + how_many f l)%N.
Proof. unfold how_many. cbn [filter]. destruct (f x); cbn [length]; lia. Qed.
Lemma hm_app {A} (f : A -> bool) l l' : how_many f (l ++ l') = (how_many f l + how_many f l')%N.
Proof. unfold how_many. rewrite filter_app, app_length. lia. Qed.

Lemma increment_mod v : increment v = ((v + 1) mod two64)%N.
Proof. unfold increment, u64, trunc. reflexivity. Qed.
Lemma bump_value c a b : value (bump c a) b = if is_stat b a then ((value c b + 1) mod two64)%N else value c b.
Proof. destruct c, a, b; unfold bump, value, is_stat; rewrite ?increment_mod; reflexivity. Qed.
Lemma bumps_value l : forall c b, (value c b < two64)%N ->
  value (bumps c l) b = ((value c b + how_many (is_stat b) l) mod two64)%N.
Proof.
  induction l as [|a l IH]; intros c b H.
  - cbn [bumps fold_left]. rewrite hm_nil, N.add_0_r, N.mod_small by exact H. reflexivity.
  - change (bumps c (a :: l)) with (bumps (bump c a) l). rewrite IH.
    + rewrite bump_value, hm_cons. destruct (is_stat b a); [|f_equal; lia].
      rewrite N.add_mod_idemp_l by discriminate. f_equal. lia.
    + rewrite bump_value. destruct (is_stat b a); [apply N.mod_lt; discriminate|exact H].
Qed.
Lemma bumps_app c l l' : bumps c (l ++ l') = bumps (bumps c l) l'.
Proof. apply fold_left_app. Qed.

(** ** What one validation increments *)
Definition fails (e : serr) : list stat :=
  match e with
  | e_no_valid_session => [st_no_session]
  | e_mac_auth_fail | e_aead_decrypt_fail | e_bad_length | e_bad_buffer_size => [st_auth_fail]
  | e_expired_ttl => [st_ttl_expiration]
  | e_nonce_replay | e_max_nonce_exceeded => [st_nonce_fail]
  | e_empty_user_data => [st_success; st_auth_fail]
  | _ => []
  end.
Definition answer_stats (r : list N + serr) : list stat := match r with inl _ => [st_success] | inr e => fails e end.

Lemma mode_read_error P mode key m cap e : mode_read P mode key m cap = Ok (inr e) -> not_authentic e = true.
Proof.
  unfold mode_read, aead_decrypt. destruct (negb _); [injection 1 as <-; reflexivity|].
  destruct mode.
  - destruct (65535 <? _)%N; [injection 1 as <-; reflexivity|]. destruct (secure_equals _ _); [discriminate|injection 1 as <-; reflexivity].
  - destruct (_ || _); [discriminate|]. destruct (p_gcm_decrypt _ _ _ _ _ _); [discriminate|injection 1 as <-; reflexivity].
Qed.
Lemma not_authentic_fails e : not_authentic e = true -> fails e = [st_auth_fail].
Proof. destruct e; cbn; congruence. Qed.

Lemma validate_with_stats E v s m now cap r s' st : validate_with E v s m now cap = Ok (r, s', st) ->
  st = answer_stats r /\ (forall e, r = inr e -> no_user_data e = false).
Proof.
  unfold validate_with. destruct (negb _); [intros [= <- <- <-]; split; [reflexivity|intros e [= <-]; reflexivity]|].
  destruct (mode_read _ _ _ _ _) as [[p|e]| |] eqn:Em; cbn [obind]; try discriminate.
  - repeat match goal with |- context [if ?c then _ else _] => destruct c end; intros [= <- <- <-]; (split; [reflexivity|]);
      intros e [= <-]; reflexivity.
  - intros [= <- <- <-]. apply mode_read_error in Em. split; [symmetry; exact (not_authentic_fails _ Em)|].
    intros e' [= <-]. destruct e; cbn in *; congruence.
Qed.
Lemma validate_auth_stats E s m now cap r s' st : validate_session_auth E s m now cap = Ok (r, s', st) -> st = answer_stats r.
Proof. intros H. exact (proj1 (validate_with_stats _ _ _ _ _ _ _ _ _ H)). Qed.
Lemma validate_data_stats E s m now cap r s' st : validate_session_data E s m now cap = Ok (r, s', st) -> st = answer_stats r.
Proof.
  unfold validate_session_data. destruct (validate_with _ _ _ _ _ _) as [[[r0 s0] st0]| |] eqn:V; cbn [obind]; try discriminate.
  apply validate_with_stats in V as [-> V]. destruct r0 as [p|e].
  - destruct (length p =? 0); intros [= <- <- <-]; reflexivity.
  - intros [= <- <- <-]. reflexivity.
Qed.

(** ** Histories of calls *)
Definition sanswer_stats (a : sanswer) : list stat :=
  match a with AInit true => [st_init] | ARead r => answer_stats r | _ => [] end.

Lemma call_stats E cap s n c s' n' a : sessions_call E cap (s, n) c = Ok (s', n', a) -> n' = bumps n (sanswer_stats a).
Proof.
  destruct c; cbn [sessions_call].
  - unfold initialize. destruct (negb _); intros [= <- <- <-]; reflexivity.
  - destruct (validate_session_auth _ _ _ _ _) as [[[r s0] st]| |] eqn:V; cbn [obind]; try discriminate.
    intros [= <- <- <-]. rewrite (validate_auth_stats _ _ _ _ _ _ _ _ V). reflexivity.
  - destruct (validate_session_data _ _ _ _ _) as [[[r s0] st]| |] eqn:V; cbn [obind]; try discriminate.
    intros [= <- <- <-]. rewrite (validate_data_stats _ _ _ _ _ _ _ _ V). reflexivity.
  - destruct (format_session_auth _ _ _ _) as [[[r s0] st]| |]; cbn [obind]; try discriminate. intros [= <- <- <-]; reflexivity.
  - destruct (format_session_data _ _ _ _) as [[[r s0] st]| |]; cbn [obind]; try discriminate. intros [= <- <- <-]; reflexivity.
  - intros [= <- <- <-]; reflexivity.
  - intros [= <- <- <-]; reflexivity.
  - intros [= <- <- <-]; reflexivity.
Qed.
Lemma calls_stats E cap l : forall s n s' n' a, sessions_calls E cap (s, n) l = Ok (s', n', a) -> n' = bumps n (flat_map sanswer_stats a).
Proof.
  induction l as [|c l IH]; intros s n s' n' a; cbn [sessions_calls].
  - intros [= <- <- <-]; reflexivity.
  - destruct (sessions_call _ _ _ _) as [[[s1 n1] a1]| |] eqn:E1; cbn [obind]; try discriminate.
    destruct (sessions_calls _ _ _ _) as [[[s2 n2] r]| |] eqn:E2; cbn [obind]; try discriminate.
    intros [= <- <- <-]. cbn [flat_map]. rewrite bumps_app. rewrite (IH _ _ _ _ _ E2). f_equal. exact (call_stats _ _ _ _ _ _ _ _ E1).
Qed.

Lemma counted_answers a :
  how_many (is_stat st_init) (flat_map sanswer_stats a) = how_many initialized a /\
  how_many (is_stat st_no_session) (flat_map sanswer_stats a) = how_many (answered_with no_session) a /\
  how_many (is_stat st_auth_fail) (flat_map sanswer_stats a) = (how_many (answered_with not_authentic) a + how_many (answered_with no_user_data) a)%N /\
  how_many (is_stat st_ttl_expiration) (flat_map sanswer_stats a) = how_many (answered_with too_old) a /\
  how_many (is_stat st_nonce_fail) (flat_map sanswer_stats a) = how_many (answered_with bad_nonce) a /\
  how_many (is_stat st_success) (flat_map sanswer_stats a) = (how_many accepted_message a + how_many (answered_with no_user_data) a)%N.
Proof.
  induction a as [|x a (I1 & I2 & I3 & I4 & I5 & I6)]; [repeat split|].
  cbn [flat_map]. rewrite !hm_app, !hm_cons, I1, I2, I3, I4, I5, I6. clear.
  destruct x as [[|]|[p|[]]|r rest|]; cbn [sanswer_stats answer_stats fails answered_with initialized accepted_message
    no_session not_authentic no_user_data too_old bad_nonce]; rewrite ?hm_cons, ?hm_nil; cbn [is_stat]; repeat split; lia.
Qed.

(** No session error but the listed ones comes from a validation *)
Lemma validate_answer E s m now cap v r s' st : validate_with E v s m now cap = Ok (r, s', st) -> r <> inr e_format.
Proof.
  unfold validate_with. destruct (negb _); [intros [= <- <- <-]; discriminate|].
  destruct (mode_read _ _ _ _ _) as [[p|e]| |] eqn:Em; cbn [obind]; try discriminate.
  - repeat match goal with |- context [if ?c then _ else _] => destruct c end; intros [= <- <- <-]; discriminate.
  - intros [= <- <- <-]. apply mode_read_error in Em. intros [= ->]. discriminate.
Qed.
Definition reads_ok (a : sanswer) : Prop := a <> ARead (inr e_format).
Lemma call_reads E cap x c s' n' a : sessions_call E cap x c = Ok (s', n', a) -> reads_ok a.
Proof.
  unfold reads_ok. destruct x as [s n], c; cbn [sessions_call].
  - destruct (initialize _ _ _ _ _) as [[ok s0] st]. intros [= <- <- <-]; discriminate.
  - destruct (validate_session_auth _ _ _ _ _) as [[[r s0] st]| |] eqn:V; cbn [obind]; try discriminate.
    intros [= <- <- <-] [= ->]. exact (validate_answer _ _ _ _ _ _ _ _ _ V eq_refl).
  - unfold validate_session_data. destruct (validate_with _ _ _ _ _ _) as [[[r s0] st]| |] eqn:V; cbn [obind]; try discriminate.
    pose proof (validate_answer _ _ _ _ _ _ _ _ _ V) as W.
    destruct r as [p|e]; [destruct (length p =? 0)|]; cbn [obind]; intros [= <- <- <-]; try discriminate. congruence.
  - destruct (format_session_auth _ _ _ _) as [[[r s0] st]| |]; cbn [obind]; try discriminate. intros [= <- <- <-]; discriminate.
  - destruct (format_session_data _ _ _ _) as [[[r s0] st]| |]; cbn [obind]; try discriminate. intros [= <- <- <-]; discriminate.
  - intros [= <- <- <-]; discriminate.
  - intros [= <- <- <-]; discriminate.
  - intros [= <- <- <-]; discriminate.
Qed.
Lemma calls_reads E cap l : forall x s' n' a, sessions_calls E cap x l = Ok (s', n', a) -> Forall reads_ok a.
Proof.
  induction l as [|c l IH]; intros x s' n' a; cbn [sessions_calls].
  - intros [= <- <- <-]; constructor.
  - destruct (sessions_call _ _ _ _) as [[[s1 n1] a1]| |] eqn:E1; cbn [obind]; try discriminate.
    destruct (sessions_calls _ _ _ _) as [[[s2 n2] r]| |] eqn:E2; cbn [obind]; try discriminate.
    intros [= <- <- <-]. constructor; [exact (call_reads _ _ _ _ _ _ _ E1)|exact (IH _ _ _ _ E2)].
Qed.
Lemma reads_sorted a : Forall reads_ok a ->
  (how_many read_message a = how_many accepted_message a + how_many (answered_with no_session) a + how_many (answered_with not_authentic) a +
     how_many (answered_with too_old) a + how_many (answered_with bad_nonce) a + how_many (answered_with no_user_data) a +
     how_many (answered_with outside) a)%N.
Proof.
  induction 1 as [|x a H _ IH]; [reflexivity|]. rewrite !hm_cons, IH. clear - H.
  destruct x as [[|]|[p|[]]|r rest|]; cbn [answered_with accepted_message read_message no_session not_authentic no_user_data too_old bad_nonce outside]; try lia.
  exfalso. apply H. reflexivity.
Qed.

(** ** The counters change nothing *)
Lemma call_blind E cap s n n2 c s' n' a : sessions_call E cap (s, n) c = Ok (s', n', a) ->
  exists n2', sessions_call E cap (s, n2) c = Ok (s', n2', a).
Proof.
  destruct c; cbn [sessions_call].
  - destruct (initialize _ _ _ _ _) as [[ok s0] st]. intros [= <- <- <-]; eauto.
  - destruct (validate_session_auth _ _ _ _ _) as [[[r s0] st]| |]; cbn [obind]; try discriminate. intros [= <- <- <-]; eauto.
  - destruct (validate_session_data _ _ _ _ _) as [[[r s0] st]| |]; cbn [obind]; try discriminate. intros [= <- <- <-]; eauto.
  - destruct (format_session_auth _ _ _ _) as [[[r s0] st]| |]; cbn [obind]; try discriminate. intros [= <- <- <-]; eauto.
  - destruct (format_session_data _ _ _ _) as [[[r s0] st]| |]; cbn [obind]; try discriminate. intros [= <- <- <-]; eauto.
  - intros [= <- <- <-]; eauto.
  - intros [= <- <- <-]; eauto.
  - intros [= <- <- <-]; eauto.
Qed.
Lemma calls_blind E cap l : forall s n n2 s' n' a, sessions_calls E cap (s, n) l = Ok (s', n', a) ->
  exists n2', sessions_calls E cap (s, n2) l = Ok (s', n2', a).
Proof.
  induction l as [|c l IH]; intros s n n2 s' n' a; cbn [sessions_calls].
  - intros [= <- <- <-]; eauto.
  - destruct (sessions_call E cap (s, n) c) as [[[s1 n1] a1]| |] eqn:E1; cbn [obind]; try discriminate.
    destruct (sessions_calls _ _ (s1, n1) l) as [[[s2 n3] r]| |] eqn:E2; cbn [obind]; try discriminate.
    intros [= <- <- <-]. destruct (call_blind _ _ _ _ n2 _ _ _ _ E1) as [m1 ->]. cbn [obind].
    destruct (IH _ _ m1 _ _ _ E2) as [m2 ->]. cbn [obind]. eauto.
Qed.

(** ** What one message means *)



Lemma nonce_verify_spec s m (auth : bool) :
  (am_nonce (sd_metadata m) <=? p_max_nonce (s_param s))%N && (if auth then equal_to_zero else verify_nonce (s_nonce_mode s)) (s_rx_nonce s) (am_nonce (sd_metadata m)) = true
  <-> next_nonce s m auth.
Proof.
  unfold next_nonce, nonce. rewrite andb_true_iff, N.leb_le. apply and_iff_compat_l. destruct auth.
  - unfold equal_to_zero. rewrite andb_true_iff, !N.eqb_eq. reflexivity.
  - destruct (s_nonce_mode s); cbn [verify_nonce]; unfold verify_strict_increment, verify_greater_than_last.
    + destruct (N.eqb_spec (s_rx_nonce s) 65535) as [H|H]; [split; [discriminate|intros [X _]; contradiction]|].
      rewrite N.eqb_eq. tauto.
    + apply N.ltb_lt.
Qed.

Lemma in_session_tests s now : in_session s now <-> (now <? p_start (s_param s))%Z = false /\ (p_max_time (s_param s) <? now - p_start (s_param s))%Z = false.
Proof. unfold in_session, session_time; lia. Qed.
Lemma in_time_tests s m now : in_time s m now <-> (ms (am_valid_until_ms (sd_metadata m)) <? now - p_start (s_param s))%Z = false.
Proof. unfold in_time, session_time, ms; lia. Qed.
Lemma opens_def E cap s m p : opens E cap s m p <-> mode_read (e_prims E) (s_crypto_mode s) (k_rx (s_keys s)) m cap = Ok (inl p).
Proof. reflexivity. Qed.
Local Opaque in_session in_time next_nonce opens.
Ltac settle_step :=
  match goal with
  | H : exists _, _ |- _ => destruct H
  | H : _ /\ _ |- _ => destruct H
  | H : inr _ = inr _ |- _ => injection H as H; subst
  | H : inl _ = inl _ |- _ => injection H as H; subst
  | H : inr _ = inl _ |- _ => discriminate H
  | H : inl _ = inr _ |- _ => discriminate H
  | H : true = false |- _ => discriminate H
  | H : false = true |- _ => discriminate H
  | H : ?x = ?x |- _ => clear H
  | Only : forall q, opens ?E ?cap ?s ?m q -> q = ?p, H : opens ?E ?cap ?s ?m ?q |- _ =>
      tryif constr_eq q p then fail else (pose proof (Only _ H); subst)
  end.
Ltac split_all := repeat (match goal with |- _ /\ _ => split | |- _ <-> _ => split | |- forall _, _ => intro end).
Ltac never := try (exfalso; match goal with N0 : forall p, ~ opens _ _ _ _ p, Y : opens _ _ _ _ _ |- _ => exact (N0 _ Y) end).

(** The counters after one message given to a session *)
Lemma one_message E cap s n n' a r : forall (auth : bool) (w : bool) m now,
  sessions_call E cap (s, n) (if auth then KValidateAuth w m now else KValidateData w m now) = Ok (r, n', a) ->
  exists x, a = ARead x /\ n' = bumps n (answer_stats x) /\
    (x = inr e_no_valid_session <-> s_valid (get s w) = false) /\
    ((exists e, x = inr e /\ not_authentic e = true) <-> s_valid (get s w) = true /\ forall p, ~ opens E cap (get s w) m p) /\
    ((exists e, x = inr e /\ outside e = true) <->
       s_valid (get s w) = true /\ exists p, opens E cap (get s w) m p /\ ~ in_session (get s w) now) /\
    (x = inr e_expired_ttl <->
       s_valid (get s w) = true /\ exists p, opens E cap (get s w) m p /\ in_session (get s w) now /\ ~ in_time (get s w) m now) /\
    ((exists e, x = inr e /\ bad_nonce e = true) <->
       s_valid (get s w) = true /\ exists p, opens E cap (get s w) m p /\ in_session (get s w) now /\ in_time (get s w) m now /\
         ~ next_nonce (get s w) m auth) /\
    (x = inr e_empty_user_data <->
       auth = false /\ s_valid (get s w) = true /\ opens E cap (get s w) m [] /\ in_session (get s w) now /\ in_time (get s w) m now /\
         next_nonce (get s w) m auth) /\
    (forall p, x = inl p <->
       s_valid (get s w) = true /\ opens E cap (get s w) m p /\ (auth = true \/ p <> []) /\ in_session (get s w) now /\
         in_time (get s w) m now /\ next_nonce (get s w) m auth).
Proof.
  intros auth w m now H.
  assert (V : exists x s0 st, a = ARead x /\ n' = bumps n st /\
     (if auth then validate_session_auth E (get s w) m now cap else validate_session_data E (get s w) m now cap) = Ok (x, s0, st)).
  { destruct auth; cbn [sessions_call] in H.
    - destruct (validate_session_auth _ _ _ _ _) as [[[x s0] st]| |]; cbn [obind] in H; try discriminate. injection H as <- <- <-. repeat eexists.
    - destruct (validate_session_data _ _ _ _ _) as [[[x s0] st]| |]; cbn [obind] in H; try discriminate. injection H as <- <- <-. repeat eexists. }
  destruct V as (x & s0 & st & -> & -> & V). exists x. split; [reflexivity|].
  split. { f_equal. destruct auth; [exact (validate_auth_stats _ _ _ _ _ _ _ _ V)|exact (validate_data_stats _ _ _ _ _ _ _ _ V)]. }
  generalize (get s w) V. clear. intros s V.
  assert (W : exists x0 s1 st1, validate_with E (if auth then equal_to_zero else verify_nonce (s_nonce_mode s)) s m now cap = Ok (x0, s1, st1) /\
     x = match x0 with inl p => if negb auth && (length p =? 0) then inr e_empty_user_data else x0 | inr _ => x0 end).
  { destruct auth; [repeat eexists; [exact V|destruct x; reflexivity]|].
    unfold validate_session_data in V. destruct (validate_with _ _ _ _ _ _) as [[[x0 s1] st1]| |]; cbn [obind] in V; try discriminate.
    exists x0, s1, st1. split; [reflexivity|]. destruct x0 as [p|e]; [cbn [negb andb]; destruct (length p =? 0)|]; injection V as <- <- <-; reflexivity. }
  clear V. destruct W as (x0 & s1 & st1 & W & ->). unfold validate_with in W.
  destruct (s_valid s) eqn:Ev; cbn [negb] in W.
  2:{ injection W as <- <- <-. split_all; repeat settle_step; try reflexivity; try assumption; try discriminate. }
  destruct (mode_read _ _ _ _ _) as [[p|e]| |] eqn:Em; cbn [obind] in W; try discriminate.
  2:{ pose proof (mode_read_error _ _ _ _ _ _ Em) as Ee. injection W as <- <- <-.
      assert (No : forall p, ~ opens E cap s m p) by (intros p A; apply opens_def in A; congruence).
      split_all; repeat settle_step; try discriminate; try reflexivity;
        try (exfalso; eapply No; eassumption); try (match goal with X : not_authentic ?z = true |- _ => destruct z; discriminate end); try (apply No);
        try (exists e; split; [reflexivity|exact Ee]). }
  assert (Yes : opens E cap s m p) by (apply opens_def; exact Em).
  assert (Only :  forall q, opens E cap s m q -> q = p) by (intros q A; apply opens_def in A; congruence).
  pose proof (in_session_tests s now) as A1. pose proof (in_time_tests s m now) as A2.
  clear Em. pose proof (nonce_verify_spec s m auth) as A3.
  assert (A4 : forall q : list N, (length q =? 0) = true <-> q = []) by (intros []; cbn; split; congruence).
  assert (T1 : (now <? p_start (s_param s))%Z = true -> ~ in_session s now) by (intros X Y; apply A1 in Y as [Y _]; congruence).
  assert (T2 : (p_max_time (s_param s) <? now - p_start (s_param s))%Z = true -> ~ in_session s now) by (intros X Y; apply A1 in Y as [_ Y]; congruence).
  destruct (now <? p_start (s_param s))%Z eqn:D1.
  { specialize (T1 eq_refl). clear T2 A1 A2 A3. injection W as <- <- <-.
    split_all; repeat settle_step; try discriminate; try contradiction; never; try reflexivity; try assumption; eauto. }
  destruct (p_max_time (s_param s) <? now - p_start (s_param s))%Z eqn:D2.
  { specialize (T2 eq_refl). clear T1 A1 A2 A3. injection W as <- <- <-.
    split_all; repeat settle_step; try discriminate; try contradiction; never; try reflexivity; try assumption; eauto. }
  assert (IS : in_session s now) by (apply A1; auto). clear T1 T2 A1.
  assert (T1 : (ms (am_valid_until_ms (sd_metadata m)) <? now - p_start (s_param s))%Z = true -> ~ in_time s m now) by (intros X Y; apply A2 in Y; congruence).
  destruct (ms (am_valid_until_ms (sd_metadata m)) <? now - p_start (s_param s))%Z eqn:D3.
  { specialize (T1 eq_refl). clear A2 A3. injection W as <- <- <-.
    split_all; repeat settle_step; try discriminate; try contradiction; never; try reflexivity; try assumption; eauto 8. }
  assert (IT : in_time s m now) by (apply A2; auto). clear T1 A2.
  destruct (p_max_nonce (s_param s) <? am_nonce (sd_metadata m))%N eqn:D4.
  { assert (T1 : ~ next_nonce s m auth) by (intros Y; apply A3 in Y; apply andb_true_iff in Y as [Y _]; apply N.leb_le in Y; apply N.ltb_lt in D4; lia).
    clear A3. injection W as <- <- <-.
    split_all; repeat settle_step; try discriminate; try contradiction; never; try reflexivity; try assumption; eauto 10. }
  assert (D5 : (am_nonce (sd_metadata m) <=? p_max_nonce (s_param s))%N = true) by (apply N.ltb_ge in D4; apply N.leb_le; exact D4).
  rewrite D5 in A3. cbn [andb] in A3.
  destruct ((if auth then equal_to_zero else verify_nonce (s_nonce_mode s)) (s_rx_nonce s) (am_nonce (sd_metadata m))) eqn:D6; cbn [negb] in W.
  2:{ assert (T1 : ~ next_nonce s m auth) by (intros Y; apply A3 in Y; discriminate).
    clear A3. injection W as <- <- <-.
    split_all; repeat settle_step; try discriminate; try contradiction; never; try reflexivity; try assumption; eauto 10. }
  assert (NN : next_nonce s m auth) by (apply A3; reflexivity). clear A3.
  injection W as <- <- <-.
  destruct auth; cbn [negb andb].
  { split_all; repeat settle_step; try discriminate; try contradiction; never; try reflexivity; try assumption; eauto. }
  destruct p as [|b p]; cbn [length Nat.eqb].
  - split_all; repeat settle_step; try discriminate; try contradiction; never; try reflexivity; try assumption; eauto.
    match goal with X : _ \/ _ |- _ => destruct X; [discriminate|] end.
    match goal with X : opens E cap s m ?q |- _ => apply Only in X end. contradiction.
  - assert (Hq : b :: p <> []) by discriminate. generalize dependent (b :: p). clear p b. intros q Only Yes Hq.
    split_all; repeat settle_step; try discriminate; try contradiction; never; try reflexivity; try assumption; try (exfalso; congruence); eauto.
Qed.

(** ** The endpoint *)
From Verif Require Import EndpointSpec EndpointFacts.

Definition received (a : stat) : bool := match a with st_init => false | _ => true end.
Definition is_process (i : instr) : bool := match i with IProcess _ => true | _ => false end.

Lemma transmit_auth_events C s x inp ok x' s' ev : transmit_session_auth C s x inp = Ok (ok, x', s', ev) ->
  how_many new_keys ev = 0%N /\ how_many let_through ev = 0%N /\ how_many without_data ev = 0%N /\ how_many a_message ev = 0%N.
Proof.
  unfold transmit_session_auth. destruct (format_session_auth _ _ _ _) as [[[[f|e] rest] y]| |]; cbn [obind]; try discriminate;
    intros [= <- <- <- <-]; repeat split.
Qed.

(** What the processing of one message counts, and its events *)
Definition agree (st : list stat) (e : list event) : Prop :=
  how_many (is_stat st_init) st = how_many new_keys e /\
  how_many (is_stat st_success) st = how_many let_through e /\
  (how_many without_data e <= how_many (is_stat st_auth_fail) st)%N /\
  (how_many received st <= 1 + how_many without_data e)%N.

Lemma process_agrees C s m inp s' pushed e : process_message C s m inp = Ok (s', pushed, e) ->
  agree (process_stats C s m inp) e.
Proof.
  unfold process_message, process_stats. destruct m as [|raw rest]; [intros [= <- <- <-]; repeat split; discriminate|].
  assert (Triv : agree [] []) by (repeat split; discriminate).
  assert (Err : forall he s0 p0 e0, reply_error C s he inp = Ok (s0, p0, e0) -> agree [] e0).
  { intros he s0 p0 e0. unfold reply_error. destruct (error_frame _ _); intros [= <- <- <-]; repeat split; discriminate. }
  destruct (c_role C) as [c|h] eqn:Er.
  - destruct (function_from raw) as [[]|]; try (intros [= <- <- <-]; exact Triv).
    + destruct (reply_read _) as [msg|]; [|intros [= <- <- <-]; exact Triv].
      unfold on_reply_message. destruct (ep_state s) eqn:Es; try (intros [= <- <- <-]; exact Triv).
      cbn [ep_ihs ep_pending set_timer].
      destruct (initialize_session _ _ _ _ _ _ _ _ _) as [[[[|] i] p]| |]; cbn [obind negb]; try discriminate.
      * destruct (transmit_session_auth _ _ _ _) as [[[[[|] x] s0] ev]| |] eqn:T; cbn [obind negb]; try discriminate;
          apply transmit_auth_events in T as (T1 & T2 & T3 & T4); intros [= <- <- <-]; unfold agree; cbn [app];
          rewrite !hm_cons, T1, T2, T3; cbn; repeat split; discriminate.
      * intros [= <- <- <-]; exact Triv.
    + destruct (error_read _) as [msg|]; [|intros [= <- <- <-]; exact Triv].
      unfold on_error_message. destruct (ep_state s); intros [= <- <- <-]; exact Triv.
    + destruct (session_data_read _) as [msg|]; [|intros [= <- <- <-]; exact Triv].
      destruct (_ =? _)%N.
      * unfold on_auth_message. destruct (ep_state s) eqn:Es; try (intros [= <- <- <-]; exact Triv).
        cbn [ep_pending set_timer].
        destruct (validate_session_auth _ _ _ _ _) as [[[r x] st]| |] eqn:V; cbn [obind]; try discriminate.
        unfold counted. pose proof (validate_auth_stats _ _ _ _ _ _ _ _ V) as ->.
        destruct (validate_with_stats _ _ _ _ _ _ _ _ _ V) as [_ NU].
        destruct r as [p|er]; intros [= <- <- <-]; cbn [answer_stats]; [repeat split; discriminate|].
        specialize (NU _ eq_refl). destruct er; try discriminate NU; repeat split; discriminate.
      * unfold on_session_data.
        destruct (validate_session_data _ _ _ _ _) as [[[r x] st]| |] eqn:V; cbn [obind]; try discriminate.
        unfold counted. pose proof (validate_data_stats _ _ _ _ _ _ _ _ V) as ->.
        destruct r as [p|er]; intros [= <- <- <-]; cbn [answer_stats]; [repeat split; discriminate|].
        destruct er; repeat split; discriminate.
  - destruct (function_from raw) as [[]|]; try (intros [= <- <- <-]; exact Triv).
    + destruct (request_read _) as [msg|er]; [|apply Err].
      unfold on_request. destruct (negb _); [apply Err|].
      destruct (process _ _ _ _ _ _ _ _) as [[[f|he] p]| |]; cbn [obind]; try discriminate.
      * intros [= <- <- <-]; repeat split; discriminate.
      * unfold reply_error. destruct (error_frame _ _); intros [= <- <- <-]; repeat split; discriminate.
    + destruct (session_data_read _) as [msg|]; [|intros [= <- <- <-]; exact Triv].
      destruct (_ =? _)%N.
      * unfold on_auth_session. destruct (negb _); [apply Err|].
        destruct (validate_session_auth _ _ _ _ _) as [[[r x] st]| |] eqn:V; cbn [obind]; try discriminate.
        unfold counted. pose proof (validate_auth_stats _ _ _ _ _ _ _ _ V) as ->.
        destruct (validate_with_stats _ _ _ _ _ _ _ _ _ V) as [_ NU].
        destruct r as [p|er].
        -- destruct (transmit_session_auth _ _ _ _) as [[[[[|] y] s0] ev]| |] eqn:T; cbn [obind negb]; try discriminate;
             apply transmit_auth_events in T as (T1 & T2 & T3 & T4); intros [= <- <- <-]; unfold agree; cbn [app];
             rewrite !hm_cons, ?hm_app, T1, T2, T3; cbn; repeat split; discriminate.
        -- intros [= <- <- <-]; cbn [answer_stats]. specialize (NU _ eq_refl). destruct er; try discriminate NU; repeat split; discriminate.
      * unfold on_session_data.
        destruct (validate_session_data _ _ _ _ _) as [[[r x] st]| |] eqn:V; cbn [obind]; try discriminate.
        unfold counted. pose proof (validate_data_stats _ _ _ _ _ _ _ _ V) as ->.
        destruct r as [p|er]; intros [= <- <- <-]; cbn [answer_stats]; [repeat split; discriminate|].
        destruct er; repeat split; discriminate.
Qed.

Lemma hm_calls (l : list call) : how_many is_process (map ICall l) = 0%N.
Proof. induction l; [reflexivity|]. cbn [map]. rewrite hm_cons, IHl. reflexivity. Qed.

(** Every other step: no such event *)
Lemma exec_quiet C s i inp s' pushed e : exec C s i inp = Ok (s', pushed, e) ->
  (is_process i = false -> how_many new_keys e = 0%N /\ how_many let_through e = 0%N /\ how_many without_data e = 0%N) /\
  how_many is_process pushed = how_many a_message e.
Proof.
  intros H. destruct i; exec_cases H; splits; (split; [intros X; try discriminate X|]); rewrite ?hm_app, ?hm_calls; try (repeat split; reflexivity);
    try reflexivity.
  all: repeat match goal with T : transmit_session_auth _ _ _ _ = Ok _ |- _ => apply transmit_auth_events in T as (? & ? & ? & ?) end.
  all: rewrite ?hm_cons, ?hm_nil, ?hm_app; cbn; try congruence; try lia.
Qed.

Fixpoint run_stats (C : econf) (k : config) (ls : list label) : list stat :=
  match ls with
  | [] => []
  | l :: ls' => step_stats C k l ++ match step C k l with Ok (k1, _) => run_stats C k1 ls' | _ => [] end
  end.
Lemma counting_run C ls : forall k n k' n' t, counting C k n ls = Ok (k', n', t) -> run C k ls = Ok (k', t) /\ n' = bumps n (run_stats C k ls).
Proof.
  induction ls as [|l ls IH]; intros k n k' n' t; cbn [counting run run_stats].
  - intros [= <- <- <-]. auto.
  - destruct (step C k l) as [[k1 e1]| |]; cbn [obind]; try discriminate.
    destruct (counting C k1 _ ls) as [[[k2 n2] e2]| |] eqn:E; cbn [obind]; try discriminate. intros [= <- <- <-].
    apply IH in E as [-> ->]. cbn [obind]. rewrite bumps_app. auto.
Qed.
Lemma run_counting C ls : forall k n k' t, run C k ls = Ok (k', t) -> counting C k n ls = Ok (k', bumps n (run_stats C k ls), t).
Proof.
  induction ls as [|l ls IH]; intros k n k' t; cbn [counting run run_stats].
  - intros [= <- <-]. reflexivity.
  - destruct (step C k l) as [[k1 e1]| |]; cbn [obind]; try discriminate.
    destruct (run C k1 ls) as [[k2 e2]| |] eqn:E; cbn [obind]; try discriminate. intros [= <- <-].
    rewrite (IH _ (bumps n (step_stats C k l)) _ _ E). cbn [obind]. rewrite bumps_app. reflexivity.
Qed.

Lemma step_agrees C k l k' e : step C k l = Ok (k', e) ->
  how_many (is_stat st_init) (step_stats C k l) = how_many new_keys e /\
  how_many (is_stat st_success) (step_stats C k l) = how_many let_through e /\
  (how_many without_data e <= how_many (is_stat st_auth_fail) (step_stats C k l))%N /\
  (how_many received (step_stats C k l) + how_many is_process (snd k') <= how_many is_process (snd k) + how_many a_message e + how_many without_data e)%N.
Proof.
  intros H. destruct k as [s q]. unfold step in H. unfold step_stats. cbn [fst snd] in *. destruct l as [x|inp].
  - destruct q as [|i q]; injection H as <- <-; cbn [snd]; repeat split; try discriminate.
    + rewrite !hm_nil. destruct x; cbn; try discriminate.
      * destruct (ep_timer s) as [[]|]; discriminate.
      * destruct (nth_error _ _) as [[]|]; discriminate.
      * destruct (ep_session_timer s); discriminate.
      * destruct (ep_session_stale s); discriminate.
    + rewrite !hm_nil. lia.
  - destruct q as [|i q]; [injection H as <- <-; repeat split; discriminate|].
    destruct (exec C s i inp) as [[[s' pushed] ev]| |] eqn:E; cbn [obind] in H; try discriminate. injection H as <- <-. cbn [snd].
    destruct (exec_quiet _ _ _ _ _ _ _ E) as [Q1 Q2]. rewrite hm_app, hm_cons, Q2.
    destruct (is_process i) eqn:Ei.
    + destruct i; try discriminate. cbn [exec] in E. apply process_agrees in E as (A1 & A2 & A3 & A4). repeat split; try assumption. lia.
    + destruct (Q1 eq_refl) as (B1 & B2 & B3).
      replace (match i with IProcess m => process_stats C s m inp | _ => [] end) with (@nil stat) by (destruct i; (reflexivity || discriminate)).
      rewrite B1, B2, B3, !hm_nil. repeat split; lia.
Qed.

Lemma run_agrees C ls : forall k k' t, run C k ls = Ok (k', t) ->
  how_many (is_stat st_init) (run_stats C k ls) = how_many new_keys t /\
  how_many (is_stat st_success) (run_stats C k ls) = how_many let_through t /\
  (how_many without_data t <= how_many (is_stat st_auth_fail) (run_stats C k ls))%N /\
  (how_many received (run_stats C k ls) + how_many is_process (snd k') <= how_many is_process (snd k) + how_many a_message t + how_many without_data t)%N.
Proof.
  induction ls as [|l ls IH]; intros k k' t; cbn [run run_stats].
  - intros [= <- <-]. rewrite !hm_nil. repeat split; lia.
  - destruct (step C k l) as [[k1 e1]| |] eqn:S; cbn [obind]; try discriminate.
    destruct (run C k1 ls) as [[k2 e2]| |] eqn:E; cbn [obind]; try discriminate. intros [= <- <-].
    apply IH in E as (I1 & I2 & I3 & I4). apply step_agrees in S as (S1 & S2 & S3 & S4).
    rewrite !hm_app, I1, I2, S1, S2. repeat split; lia.
Qed.

Lemma bumps_le c l b : (value c b < two64)%N -> (value (bumps c l) b <= value c b + how_many (is_stat b) l)%N.
Proof. intros H. rewrite bumps_value by exact H. apply N.mod_le. discriminate. Qed.
Lemma received_sum l : how_many received l = (how_many (is_stat st_no_session) l + how_many (is_stat st_auth_fail) l + how_many (is_stat st_ttl_expiration) l +
  how_many (is_stat st_nonce_fail) l + how_many (is_stat st_success) l)%N.
Proof. induction l as [|a l IH]; [reflexivity|]. rewrite !hm_cons, IH. destruct a; cbn [received is_stat]; lia. Qed.
Lemma hm_le {A} (f : A -> bool) l : (how_many f l <= N.of_nat (length l))%N.
Proof. induction l as [|x l IH]; [rewrite hm_nil; cbn; lia|]. rewrite hm_cons. cbn [length]. destruct (f x); lia. Qed.

Lemma one_counters r : r <> inr e_format -> let n := bumps new_counters (answer_stats r) in
  num_init n = 0%N /\
  ((0 < num_user_data_without_session n)%N <-> r = inr e_no_valid_session) /\
  ((0 < num_auth_fail n)%N <-> (exists e, r = inr e /\ not_authentic e = true) \/ r = inr e_empty_user_data) /\
  ((0 < num_ttl_expiration n)%N <-> r = inr e_expired_ttl) /\
  ((0 < num_nonce_fail n)%N <-> exists e, r = inr e /\ bad_nonce e = true) /\
  ((0 < num_success n)%N <-> (exists p, r = inl p) \/ r = inr e_empty_user_data) /\
  (received_in_all n = 0%N <-> exists e, r = inr e /\ outside e = true).
Proof.
  intros K. cbv zeta. destruct r as [p|[]]; try contradiction; vm_compute bumps; unfold received_in_all; cbn [num_init num_user_data_without_session
    num_auth_fail num_ttl_expiration num_nonce_fail num_success];
  (split; [reflexivity|]); repeat match goal with |- _ /\ _ => split end;
  (split; intros X;
   repeat match goal with X : exists _, _ |- _ => destruct X | X : _ /\ _ |- _ => destruct X | X : _ \/ _ |- _ => destruct X end;
   try lia; try discriminate; try (match goal with X : inr _ = inr _ |- _ => injection X as <- end; discriminate);
   try (left; eauto; fail); try (right; reflexivity); try (eexists; split; reflexivity); try reflexivity).
Qed.
