(** * C57: the statistics of a layer *)
From Verif Require Import Base BaseFacts Codec Link LinkLayer Primitives Session SessionSpec Handshake Endpoint Statistics StatisticsSpec StatisticsFacts SessionFacts SessionMain PropSession.

(** For every sequence of calls on the two sessions of a layer, since the layer was made: each
    counter is the number of the answers it stands for (the counters have 64 bits); formatting a
    message, resetting and exchanging the sessions count nothing. *)
Theorem C57_counters : forall E cap s l s' n a, sessions_calls E cap (s, new_counters) l = Ok (s', n, a) ->
  num_init n = (how_many initialized a mod 2 ^ 64)%N /\
  num_user_data_without_session n = (how_many (answered_with no_session) a mod 2 ^ 64)%N /\
  num_auth_fail n = ((how_many (answered_with not_authentic) a + how_many (answered_with no_user_data) a) mod 2 ^ 64)%N /\
  num_ttl_expiration n = (how_many (answered_with too_old) a mod 2 ^ 64)%N /\
  num_nonce_fail n = (how_many (answered_with bad_nonce) a mod 2 ^ 64)%N /\
  num_success n = ((how_many accepted_message a + how_many (answered_with no_user_data) a) mod 2 ^ 64)%N.
Proof.
  intros E cap s l s' n a H. apply calls_stats in H as ->. destruct (counted_answers a) as (H1 & H2 & H3 & H4 & H5 & H6).
  change (2 ^ 64)%N with two64. rewrite <- H1, <- H2, <- H3, <- H4, <- H5, <- H6.
  pose proof (fun b => bumps_value (flat_map sanswer_stats a) new_counters b) as V.
  assert (Z : forall b, value new_counters b = 0%N) by (intros []; reflexivity).
  repeat split;
    [apply (V st_init)|apply (V st_no_session)|apply (V st_auth_fail)|apply (V st_ttl_expiration)|apply (V st_nonce_fail)|apply (V st_success)]; rewrite Z; reflexivity.
Qed.
Print Assumptions C57_counters.

(** The first part of the property: every session message given to a session is counted exactly
    once, and as a success exactly when it is accepted.  It holds as long as no message comes outside
    of the time of the session and no authentic message is empty (and for less than 2^64 messages).
    Missing: these two cases (refuted below). *)
Theorem C57_once_partial : forall E cap s l s' n a, sessions_calls E cap (s, new_counters) l = Ok (s', n, a) ->
  (N.of_nat (length l) < 2 ^ 64)%N -> how_many (answered_with outside) a = 0%N -> how_many (answered_with no_user_data) a = 0%N ->
  received_in_all n = how_many read_message a /\ num_success n = how_many accepted_message a.
Proof.
  intros E cap s l s' n a H Hl O U. pose proof (calls_reads _ _ _ _ _ _ _ H) as R. apply reads_sorted in R.
  destruct (C57_counters _ _ _ _ _ _ _ H) as (_ & C2 & C3 & C4 & C5 & C6).
  assert (La : length a = length l).
  { clear - H. revert H. generalize (s, new_counters) as x. revert s' n a. induction l as [|c l IH]; intros s' n a x; cbn [sessions_calls].
    - intros [= <- <- <-]; reflexivity.
    - destruct (sessions_call _ _ _ _) as [[[s1 n1] a1]| |]; cbn [obind]; try discriminate.
      destruct (sessions_calls _ _ _ _) as [[[s2 n2] r]| |] eqn:E2; cbn [obind]; try discriminate.
      intros [= <- <- <-]. cbn [length]. f_equal. exact (IH _ _ _ _ E2). }
  assert (B : (how_many read_message a < 2 ^ 64)%N).
  { rewrite <- La in Hl. eapply N.le_lt_trans; [|exact Hl]. unfold how_many. pose proof (hm_le read_message a) as Q. unfold how_many in Q. lia. }
  unfold received_in_all. rewrite C2, C3, C4, C5, C6. rewrite !N.mod_small by lia. lia.
Qed.
Print Assumptions C57_once_partial.

(** In general: the messages outside of the time of the session are missing, the empty ones are
    there twice. *)
Theorem C57_balance : forall E cap s l s' n a, sessions_calls E cap (s, new_counters) l = Ok (s', n, a) ->
  (2 * N.of_nat (length a) < 2 ^ 64)%N ->
  (received_in_all n + how_many (answered_with outside) a = how_many read_message a + how_many (answered_with no_user_data) a)%N.
Proof.
  intros E cap s l s' n a H Hl. pose proof (calls_reads _ _ _ _ _ _ _ H) as R. apply reads_sorted in R.
  destruct (C57_counters _ _ _ _ _ _ _ H) as (_ & C2 & C3 & C4 & C5 & C6).
  assert (B : (how_many read_message a <= N.of_nat (length a))%N).
  { unfold how_many. pose proof (hm_le read_message a) as Q. unfold how_many in Q. lia. }
  unfold received_in_all. rewrite C2, C3, C4, C5, C6. rewrite !N.mod_small by lia. lia.
Qed.
Print Assumptions C57_balance.

(** A message that comes before the start or after the end of the session is rejected and counted
    nowhere, even if it is authentic. *)
Theorem C57_outside_refuted : exists E cap l s, prims_ok (e_prims E) /\
  (exists s1, sessions_calls E cap (s, new_counters) l = Ok (s1, new_counters, [ARead (inr e_clock_rollback); ARead (inr e_max_session_time_exceeded)])) /\
  exists m t1 t2 p, l = [KValidateData true m t1; KValidateData true m t2] /\ s_valid (ss_active s) = true /\ opens E cap (ss_active s) m p.
Proof.
  exists (ex_E FRaw), 4096, [KValidateData true ex_nine 4000; KValidateData true ex_nine (ms 70000)],
    {| ss_active := ex_init strict_increment hmac_sha256_16 1 2; ss_pending := new_session |}.
  split; [exact toy_ok|]. split; [eexists; vm_compute; reflexivity|].
  exists ex_nine, 4000%Z, (ms 70000), [9]%N. split; [reflexivity|]. split; [reflexivity|]. vm_compute. reflexivity.
Qed.
Print Assumptions C57_outside_refuted.

(** An authentic message without user data is rejected and counted twice: as a success and as a
    failed authentication. *)
Theorem C57_empty_refuted : exists E cap m t s s1 n, prims_ok (e_prims E) /\
  sessions_calls E cap (s, new_counters) [KValidateData true m t] = Ok (s1, n, [ARead (inr e_empty_user_data)]) /\
  num_success n = 1%N /\ num_auth_fail n = 1%N /\ opens E cap (ss_active s) m [].
Proof.
  exists (ex_E FRaw), 4096, ex_empty, 8000%Z, {| ss_active := ex_init strict_increment hmac_sha256_16 1 2; ss_pending := new_session |}.
  do 2 eexists. split; [exact toy_ok|]. split; [vm_compute; reflexivity|]. repeat split; vm_compute; reflexivity.
Qed.
Print Assumptions C57_empty_refuted.

(** What the counters say about one message (as authentication or as data, to either session): it
    came without a session; it did not open under the key of the session (or opened to nothing); it
    opened and came in the time of the session but after the time it carries; it opened in time but
    its nonce cannot come now; all of this was right. *)
Theorem C57_meaning : forall E cap s w (auth : bool) m now s' n a,
  sessions_calls E cap (s, new_counters) [if auth then KValidateAuth w m now else KValidateData w m now] = Ok (s', n, [a]) ->
  let x := if w then ss_active s else ss_pending s in
  let here p := opens E cap x m p /\ in_session x now in
  num_init n = 0%N /\
  ((0 < num_user_data_without_session n)%N <-> s_valid x = false) /\
  ((0 < num_auth_fail n)%N <-> s_valid x = true /\
     ((forall p, ~ opens E cap x m p) \/ (auth = false /\ here [] /\ in_time x m now /\ next_nonce x m auth))) /\
  ((0 < num_ttl_expiration n)%N <-> s_valid x = true /\ exists p, here p /\ ~ in_time x m now) /\
  ((0 < num_nonce_fail n)%N <-> s_valid x = true /\ exists p, here p /\ in_time x m now /\ ~ next_nonce x m auth) /\
  ((0 < num_success n)%N <-> s_valid x = true /\ exists p, here p /\ in_time x m now /\ next_nonce x m auth) /\
  (received_in_all n = 0%N <-> s_valid x = true /\ exists p, opens E cap x m p /\ ~ in_session x now).
Proof.
  intros E cap s w auth m now s' n a H x here. cbn [sessions_calls] in H.
  destruct (sessions_call _ _ _ _) as [[[s1 n1] a1]| |] eqn:E1; cbn [obind] in H; try discriminate. injection H as <- <- <-.
  destruct (one_message _ _ _ _ _ _ _ auth w m now E1) as (r & Ea & -> & F1 & F2 & F3 & F4 & F5 & F6 & F7). cbn [fst snd].
  pose proof (call_reads _ _ _ _ _ _ _ E1) as K. assert (K' : r <> inr e_format) by (intros ->; exact (K Ea)).
  change (get s w) with x in *. unfold here. clear here E1 K.
  destruct (one_counters r K') as (C1 & C2 & C3 & C4 & C5 & C6 & C7). split; [exact C1|].
  split; [rewrite C2; exact F1|]. split.
  { rewrite C3, F2, F6. tauto. }
  split. { rewrite C4, F4. split; intros (V & p & X); split; auto; exists p; tauto. }
  split. { rewrite C5, F5. split; intros (V & p & X); split; auto; exists p; tauto. }
  split.
  { rewrite C6. split.
    - intros [[p X]|X]; [apply F7 in X|apply F6 in X]; (split; [tauto|]); [exists p|exists []]; tauto.
    - intros (V & p & X). destruct auth; [left; exists p; apply F7; tauto|]. destruct p as [|b p].
      + right. apply F6. tauto.
      + left. exists (b :: p). apply F7. split; [exact V|]. split; [tauto|]. split; [right; discriminate|tauto]. }
  rewrite C7, F3. reflexivity.
Qed.
Print Assumptions C57_meaning.

(** The counters are only observed: whatever they are, the same calls have the same effects on the
    sessions and the same answers. *)
Theorem C57_passive : forall E cap s n1 n2 l s' n1' a, sessions_calls E cap (s, n1) l = Ok (s', n1', a) ->
  exists n2', sessions_calls E cap (s, n2) l = Ok (s', n2', a).
Proof. intros E cap s n1 n2 l s' n1' a. exact (calls_blind E cap l s n1 n2 s' n1' a). Qed.
Print Assumptions C57_passive.

(** ** What the user of an initiator or responder reads (get_statistics) *)

(** The endpoint behaves as it does without counters, and after every run, whatever happens: the
    number of sessions initialized is that of the keys derived in handshakes; the successes are the
    messages that authenticated a session, those whose data was passed up, and the empty ones. *)
Theorem C57_endpoint : forall C k ls k' t, run C k ls = Ok (k', t) ->
  exists n, counting C k new_counters ls = Ok (k', n, t) /\
    num_init n = (how_many new_keys t mod 2 ^ 64)%N /\ num_success n = (how_many let_through t mod 2 ^ 64)%N.
Proof.
  intros C k ls k' t H. exists (bumps new_counters (run_stats C k ls)). split; [exact (run_counting _ _ _ new_counters _ _ H)|].
  destruct (run_agrees _ _ _ _ _ H) as (A1 & A2 & _). rewrite <- A1, <- A2.
  split; [exact (bumps_value _ new_counters st_init eq_refl)|exact (bumps_value _ new_counters st_success eq_refl)].
Qed.
Print Assumptions C57_endpoint.

(** All counters of received messages together never exceed the number of messages taken from the
    lower layer, but for the empty ones, which are counted twice. *)
Theorem C57_no_more_than_received : forall C s ls k' n t, counting C (s, []) new_counters ls = Ok (k', n, t) ->
  (received_in_all n <= how_many a_message t + how_many without_data t)%N.
Proof.
  intros C s ls k' n t H. apply counting_run in H as [H ->]. destruct (run_agrees _ _ _ _ _ H) as (_ & _ & _ & A). cbn [snd] in A.
  rewrite hm_nil, received_sum in A. unfold received_in_all.
  pose proof (bumps_le new_counters (run_stats C (s, []) ls) st_no_session eq_refl). pose proof (bumps_le new_counters (run_stats C (s, []) ls) st_auth_fail eq_refl).
  pose proof (bumps_le new_counters (run_stats C (s, []) ls) st_ttl_expiration eq_refl). pose proof (bumps_le new_counters (run_stats C (s, []) ls) st_nonce_fail eq_refl).
  pose proof (bumps_le new_counters (run_stats C (s, []) ls) st_success eq_refl). cbn [value new_counters num_init num_user_data_without_session num_auth_fail
    num_ttl_expiration num_nonce_fail num_success] in *. lia.
Qed.
Print Assumptions C57_no_more_than_received.

(** ** Examples *)

(** Bob receives what Alice sent, with duplicates and reordering: after the initialization of the
    pending session it is authenticated and becomes the active one. *)
Definition ex_calls (msgs : list SessionData) : list scall :=
  match msgs with
  | [m0; m1; m2; m3] =>
      [KValidateData true m1 5500; KInitialize false strict_increment aes_256_gcm ex_param {| k_rx := repeat 1%N 31; k_tx := repeat 2%N 32 |};
       KInitialize false strict_increment aes_256_gcm ex_param {| k_rx := repeat 1%N 32; k_tx := repeat 2%N 32 |};
       KValidateAuth false m0 6000; KActivatePending; KFormatAuth true [] 6001; KValidateData true m1 8000; KValidateData true m1 8001;
       KValidateData true m0 8002; KValidateData true {| sd_metadata := sd_metadata m2; sd_user_data := [66]%N; sd_auth_tag := sd_auth_tag m2 |} 8500;
       KValidateData true m2 9000; KValidateData true m3 (ms 20000); KResetBoth; KValidateData true m3 9600]
  | _ => []
  end.
Example C57_instance : match sessions_calls (ex_E FRaw) 4096 (new_sessions, new_counters) (ex_calls (ex_messages aes_256_gcm)) with
  | Ok (s, n, a) => n = Build_counters 1 2 1 1 2 3 /\ received_in_all n = 9%N /\ how_many read_message a = 9%N /\
      how_many (answered_with outside) a = 0%N /\ how_many (answered_with no_user_data) a = 0%N
  | _ => False end.
Proof. vm_compute. repeat split. Qed.

(** Two endpoints with their handshake, data, a tampered message and a replayed one. *)
From Verif Require Import EndpointRuns PropEndpoint.
Definition ex_tampered (m : SessionData) : list N :=
  match session_data_write {| sd_metadata := sd_metadata m; sd_user_data := sd_user_data m; sd_auth_tag := repeat 0%N 16 |} 100 with WOk b => b | WErr => [] end.
Definition ex_counted : list happening :=
  ex_responder false hmac_sha256_16 ++
  [arrive (ex_tampered ex_nine) 7; arrive (dr_message (dr_session_i hmac_sha256_16) 2 [4; 5]%N) 8; happen (Enter StartRx) 9].
Example C57_endpoint_instance : match counting (dr_r false) (fresh (dr_r false)) new_counters (ex_run (dr_r false) ex_counted) with
  | Ok (_, n, t) => num_init n = 1%N /\ num_success n = 3%N /\ num_auth_fail n = 1%N /\ num_nonce_fail n = 1%N /\
      how_many a_message t = 6%N /\ how_many without_data t = 0%N
  | _ => False end.
Proof. vm_compute. repeat split. Qed.
