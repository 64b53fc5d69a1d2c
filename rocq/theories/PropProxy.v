(** * C40: the sessions of the TCP proxy *)
From Verif Require Import Base BaseFacts Proxy ProxySpec ProxyFacts.
From Coq Require Import Sorting.Sorted.
Local Open Scope nat_scope.

(** There are never more sessions than allowed, whatever the stacks, the sockets and the peers do. *)
Theorem C40_limit : forall max s, reachable max s -> length (current (plog s)) <= allowed max.
Proof.
  intros max s R. pose proof (reachable_inv _ _ R) as H. rewrite <- (li_current _ (i_log _ _ H)). pose proof (i_len _ _ H) as L. rewrite (reachable_max _ _ R) in L.
  unfold allowed. destruct (N.eqb_spec max 0); lia.
Qed.
Print Assumptions C40_limit.

(** Sessions are numbered 0, 1, 2, ... in the order of their arrival; none is removed twice, none is destroyed twice, and only
    removed ones are destroyed. *)
Theorem C40_once : forall max s, reachable max s ->
  (exists n, added (plog s) = map N.of_nat (seq 0 n)) /\ NoDup (removed (plog s)) /\ incl (removed (plog s)) (added (plog s)) /\
  NoDup (destroyed (plog s)) /\ incl (destroyed (plog s)) (removed (plog s)).
Proof.
  intros max s R. pose proof (reachable_inv _ _ R) as H. destruct (i_log _ _ H) as [A1 A2 A3 A4 A5 A6 A7]. split; [|split; [assumption|split; [|split; assumption]]].
  - exists (N.to_nat (next_id s)). exact A1.
  - intros i Hi. rewrite A1. apply In_ids. auto.
Qed.
Print Assumptions C40_once.

(** When a connection arrives and there is room, it is added and nothing is removed. *)
Theorem C40_room : forall max s, reachable max s -> connecting s <> 0 -> length (current (plog s)) < allowed max ->
  exists s' id, step s Connected = Good s' /\ ~ In id (added (plog s)) /\ current (plog s') = current (plog s) ++ [id].
Proof.
  intros max s R C Hl. pose proof (reachable_inv _ _ R) as H. cbn [step]. destruct (connecting s) as [|n]; [contradiction|].
  assert (pinv (set_connecting n s)) as H0 by now apply set_connecting_inv.
  assert (make_room (set_connecting n s) = Good (set_connecting n s)) as E.
  { unfold make_room. cbn [set_connecting sessions max_sessions]. destruct (N.eqb_spec (N.of_nat (length (sessions s))) (max_sessions s)) as [F|F]; [|reflexivity].
    rewrite (li_current _ (i_log _ _ H)), (reachable_max _ _ R) in F. unfold allowed in Hl. destruct (N.eqb_spec max 0); lia. }
  rewrite (connected_spec _ _ H0 E). exists (with_new (set_connecting n s)), (next_id s). split; [reflexivity|]. split.
  - rewrite (li_added _ (i_log _ _ H)), In_ids. lia.
  - assert (pinv (with_new (set_connecting n s))) as H1.
    { apply with_new_inv; [exact H0|]. cbn [set_connecting sessions max_sessions]. rewrite (li_current _ (i_log _ _ H)), (reachable_max _ _ R). unfold allowed in Hl. destruct (N.eqb_spec max 0); lia. }
    rewrite <- (li_current _ (i_log _ _ H1)), <- (li_current _ (i_log _ _ H)). reflexivity.
Qed.
Print Assumptions C40_room.

(** When a connection arrives and there is no room, the oldest session is removed, its connection on the protocol side is closed, and the new
    one is added; the other sessions stay.  Partial: only when the handshake of the oldest session has not succeeded; see
    [C40_evict_refuted]. *)
Theorem C40_oldest_partial : forall max s oldest rest, reachable max s -> connecting s <> 0 -> length (current (plog s)) = allowed max ->
  current (plog s) = oldest :: rest -> ~ established s oldest ->
  exists s' id, step s Connected = Good s' /\ ~ In id (added (plog s)) /\ current (plog s') = rest ++ [id] /\
    (forall other, In other rest -> (oldest < other)%N) /\
    (forall o, lookup oldest (objects s') = Some o -> lower_open o = false) /\
    (forall other, other <> id -> other <> oldest -> lookup other (objects s') = lookup other (objects s)).
Proof.
  intros max s oldest rest R C Hl Hc Ne. pose proof (reachable_inv _ _ R) as H. cbn [step]. destruct (connecting s) as [|n]; [contradiction|].
  assert (pinv (set_connecting n s)) as H0 by now apply set_connecting_inv.
  assert (sessions s = oldest :: rest) as Hs by (rewrite (li_current _ (i_log _ _ H)); exact Hc).
  destruct (i_sess _ _ H oldest ltac:(rewrite Hs; now left)) as [o L].
  assert (app_on o = false) as A by (destruct (app_on o) eqn:A; [exfalso; apply Ne; exists o; auto|reflexivity]).
  assert (N.of_nat (length (sessions s)) = max_sessions s) as Hf.
  { rewrite (li_current _ (i_log _ _ H)), (reachable_max _ _ R), Hl. unfold allowed. destruct (N.eqb_spec max 0); lia. }
  destruct (make_room_before (set_connecting n s) oldest rest o H0 Hf Hs L A) as [E Hi].
  rewrite (connected_spec _ _ Hi E). set (s1 := evicted oldest o (set_connecting n s)) in *.
  assert (pinv (with_new s1)) as H1.
  { apply with_new_inv; [exact Hi|]. subst s1. cbn [evicted set_connecting sessions max_sessions]. rewrite Hs. cbn [remove1]. rewrite N.eqb_refl. rewrite Hs in Hf. cbn [length] in Hf. lia. }
  exists (with_new s1), (next_id s). split; [reflexivity|]. split; [rewrite (li_added _ (i_log _ _ H)), In_ids; lia|]. split; [|split; [|split]].
  - rewrite <- (li_current _ (i_log _ _ H1)). subst s1. cbn [with_new evicted set_connecting sessions next_id]. rewrite Hs. cbn [remove1]. now rewrite N.eqb_refl.
  - intros j Hj. assert (StronglySorted N.lt (current (plog s))) as SS.
    { unfold current. rewrite (li_added _ (i_log _ _ H)). generalize (fun i => negb (existsb (N.eqb i) (removed (plog s)))). intros f. unfold ids. generalize 0. induction (N.to_nat (next_id s)) as [|k IH]; intros b; cbn; [constructor|].
      destruct (f (N.of_nat b)); [|apply IH]. constructor; [apply IH|]. apply Forall_forall. intros x Hx. apply filter_In in Hx as [Hx _]. apply in_map_iff in Hx as [y [<- Hy]]. apply in_seq in Hy. lia. }
    rewrite Hc in SS. inversion SS as [|? ? _ F]; subst. rewrite Forall_forall in F. auto.
  - intros x Lx. assert (~ In oldest (sessions (with_new s1))) as Ns.
    { subst s1. cbn [with_new evicted set_connecting sessions next_id]. rewrite in_app_iff, In_remove1_nodup by apply (sess_nodup _ _ H). intros [[_ F]|[F|[]]]; [now apply F|].
      pose proof (sess_lt _ _ oldest H ltac:(rewrite Hs; now left)). lia. }
    pose proof (i_obj _ _ H1 _ _ Lx ltac:(discriminate)) as [O1 O2 _ _]. destruct (stack_on x); [destruct (O1 eq_refl) as [_ [_ F]]; contradiction|auto].
  - intros j Nj Nj2. subst s1. cbn [with_new evicted set_connecting objects next_id]. rewrite lookup_app.
    cbn [lookup]. destruct (N.eqb_spec (next_id s) j); [congruence|].
    destruct (is_shutdown o); rewrite ?lookup_filter, ?lookup_replace; destruct (N.eqb_spec j oldest); try contradiction; destruct (lookup j (objects s)); reflexivity.
Qed.
Print Assumptions C40_oldest_partial.

(** The proxy uses what no longer exists in exactly two situations (see [hazard]). *)
Theorem C40_undefined : forall max s e, reachable max s -> (exists w, step s e = Bad w) <-> hazard s e.
Proof.
  intros max s e R. pose proof (reachable_inv _ _ R) as H. destruct (step_case s e H) as [[s' [E [_ Nh]]]|[[w [E _]] Hz]]; split; intros X; try contradiction; try assumption.
  - destruct X as [w X]. congruence.
  - eauto.
Qed.
Print Assumptions C40_undefined.

(** So a run without these situations is defined to its end. *)
Theorem C40_defined_partial : forall max es, (forall pre e post s, es = pre ++ e :: post -> steps (new_proxy max) pre = Good s -> ~ hazard s e) ->
  exists s, steps (new_proxy max) es = Good s.
Proof.
  intros max es. induction es as [|e es IH] using rev_ind; intros Hz; [eexists; reflexivity|].
  assert (forall a b s, steps s (a ++ b) = pbind (steps s a) (fun s => steps s b)) as App.
  { clear. induction a as [|x a IH]; intros b s; cbn; [reflexivity|]. destruct (step s x); cbn; auto. }
  destruct IH as [s E].
  { intros pre x post s -> Ep. apply (Hz pre x (post ++ [e])); [now rewrite <- app_assoc|exact Ep]. }
  rewrite App, E. cbn. assert (~ hazard s e) as Nh by (apply (Hz es e []); auto).
  assert (reachable max s) as R by (exists es; exact E).
  destruct (step_case s e (reachable_inv _ _ R)) as [[s' [E1 _]]|[_ F]]; [|contradiction]. rewrite E1. eexists. reflexivity.
Qed.
Print Assumptions C40_defined_partial.

(** A completion never reaches a destroyed session: sessions live as long as the sockets have operations to complete. *)
Theorem C40_completions : forall max s id x d, reachable max s -> In (id, x, d) (pending s) -> In id (added (plog s)) /\ ~ In id (destroyed (plog s)).
Proof.
  intros max s id x d R Hp. pose proof (reachable_inv _ _ R) as H. destruct (i_pend _ _ H _ _ _ Hp) as [o L]. pose proof (obj_lt _ _ _ _ H L) as Lt. apply lookup_In in L.
  rewrite (li_objects _ (i_log _ _ H)) in L. apply filter_In in L as [L1 L2]. rewrite (li_added _ (i_log _ _ H)). split; [now apply In_ids|]. apply negb_true_iff in L2. now apply mem_false in L2.
Qed.
Print Assumptions C40_completions.

(** A removed session is shut down for good: it starts no operation and is not opened again ... *)
Theorem C40_removed_silent : forall max s id, reachable max s -> In id (removed (plog s)) ->
  (forall x d, step s (Starts id x d) = Good s) /\ step s (Opens id) = Good s /\ step s (Closes id) = Good s.
Proof.
  intros max s id R Hr. pose proof (reachable_inv _ _ R) as H. assert (~ In id (sessions s)) as Ns.
  { rewrite (li_current _ (i_log _ _ H)). unfold current. rewrite filter_In. intros [_ F]. apply negb_true_iff in F. change (mem id (removed (plog s)) = false) in F. apply mem_false in F. contradiction. }
  cbn [step]. destruct (lookup id (objects s)) as [o|] eqn:L; [|auto].
  pose proof (i_weak _ _ H _ _ L) as [W1 W2]. pose proof (i_obj _ _ H _ _ L ltac:(discriminate)) as [O1 O2 O3 O4].
  assert (stack_on o = false) as Es by (destruct (stack_on o) eqn:Es; [destruct (O1 eq_refl) as [_ [_ F]]; contradiction|reflexivity]).
  assert (app_on o = false) as Ea by (destruct (app_on o); [rewrite W2 in Es by reflexivity; discriminate|reflexivity]).
  rewrite Es, Ea. cbn [andb]. split; [|auto]. intros [] d; [|reflexivity]. unfold start_operation, with_session. rewrite L. cbn [is_open]. now rewrite (O2 Es).
Qed.
Print Assumptions C40_removed_silent.

(** ... and it is destroyed: while it exists a check is scheduled, and when its operations are completed the scheduled checks destroy it. *)
Theorem C40_removed_destroyed : forall max s id, reachable max s -> In id (removed (plog s)) -> ~ In id (destroyed (plog s)) ->
  In id (posted s) /\
  ((forall x d, ~ In (id, x, d) (pending s)) -> exists k s', steps s (repeat (Checks id) k) = Good s' /\ In id (destroyed (plog s'))).
Proof.
  intros max s id R Hr Hd. pose proof (reachable_inv _ _ R) as H. clear R.
  assert (forall s, pinv s -> In id (removed (plog s)) -> ~ In id (destroyed (plog s)) -> (exists o, lookup id (objects s) = Some o) /\ ~ In id (sessions s) /\ In id (posted s)) as G.
  { clear. intros s H Hr Hd. assert (~ In id (sessions s)) as Ns.
    { rewrite (li_current _ (i_log _ _ H)). unfold current. rewrite filter_In. intros [_ F]. apply negb_true_iff in F. change (mem id (removed (plog s)) = false) in F. apply mem_false in F. contradiction. }
    assert (In id (map fst (objects s))) as Lk.
    { rewrite (li_objects _ (i_log _ _ H)). apply filter_In. split; [apply In_ids, (li_removed_in _ (i_log _ _ H)); assumption|]. apply negb_true_iff, mem_false. assumption. }
    destruct (lookup id (objects s)) as [o|] eqn:L; [|apply lookup_None in L; contradiction]. pose proof (i_obj _ _ H _ _ L ltac:(discriminate)) as [_ _ [O3|O3] _]; [contradiction|]. eauto. }
  split; [now apply G|]. intros Hp. remember (length (posted s)) as n eqn:En. revert s H Hr Hd Hp En. induction n as [n IH] using (well_founded_induction lt_wf).
  intros s H Hr Hd Hp ->. destruct (G s H Hr Hd) as [[o L] [Ns Po]].
  assert (is_shutdown o = true) as Es.
  { apply is_shutdown_spec. intros x d. destruct (is_active x d o) eqn:A; [|reflexivity]. apply (ok_act _ _ _ (i_weak _ _ H _ _ L)) in A. exfalso. exact (Hp _ _ A). }
  destruct (checks_case id s H) as [s1 [E H1]].
  assert (posted s1 = remove1 id (posted s) /\ pending s1 = pending s /\ removed (plog s1) = removed (plog s) /\ (In id (destroyed (plog s1)) \/ ~ In id (destroyed (plog s1)))) as [P1 [P2 [P3 P4]]].
  { split; [|split; [|split]].
    - cbn [step] in E. rewrite (proj2 (mem_In _ _) Po) in E. unfold check_for_close, with_session in E. pstate. rewrite L, Es in E. cbn [pbind] in E. inversion E. unfold release. destruct (_ || _); reflexivity.
    - cbn [step] in E. rewrite (proj2 (mem_In _ _) Po) in E. unfold check_for_close, with_session in E. pstate. rewrite L, Es in E. cbn [pbind] in E. inversion E. unfold release. destruct (_ || _); reflexivity.
    - cbn [step] in E. rewrite (proj2 (mem_In _ _) Po) in E. unfold check_for_close, with_session in E. pstate. rewrite L, Es in E. cbn [pbind] in E. inversion E. unfold release. destruct (_ || _); cbn [plog observe set_locals set_objects]; [reflexivity|].
      rewrite removed_app. apply app_nil_r.
    - destruct (in_dec N.eq_dec id (destroyed (plog s1))); auto. }
  destruct P4 as [P4|P4]; [exists 1, s1; split; [cbn [repeat steps]; now rewrite E|assumption]|].
  destruct (IH (length (posted s1))) with (s := s1) as [k [s2 [E2 D2]]]; auto.
  - rewrite P1. pose proof (length_remove1 _ _ Po). lia.
  - now rewrite P3.
  - intros x d. rewrite P2. apply Hp.
  - exists (S k), s2. split; [cbn [repeat steps]; now rewrite E|assumption].
Qed.
Print Assumptions C40_removed_destroyed.

(** An error on the application side, or the stack giving up, removes an established session and closes both its connections. *)
Theorem C40_error_closes : forall max s id e, reachable max s -> established s id ->
  (e = Closes id \/ exists d, In (id, Upper, d) (pending s) /\ e = Completed id Upper d false) ->
  exists s' l, step s e = Good s' /\ plog s' = plog s ++ l /\ removed l = [id] /\ In (PClosed id Lower) l /\ In (PClosed id Upper) l.
Proof.
  intros max s id e R [o [L A]] He. pose proof (reachable_inv _ _ R) as H.
  pose proof (i_weak _ _ H _ _ L) as [W1 W2]. pose proof (i_obj _ _ H _ _ L ltac:(discriminate)) as [O1 O2 O3 O4]. specialize (W2 A). destruct (O1 W2) as [X1 [X2 X3]]. pose proof (sess_nodup _ _ H) as Nd.
  destruct He as [->|[d [Hp ->]]]; cbn [step].
  - rewrite L, W2, (close_upper_app _ _ _ L A X3 Nd). eexists. eexists. split; [reflexivity|]. unfold dropped, upd. cbn [plog posted locals]. rewrite <- app_assoc. split; [reflexivity|].
    unfold shut_log. cbn [off lower_open upper_open stack_on app_on]. rewrite X1, X2, W2. cbn [andb]. rewrite !removed_app. split; [destruct (_ && _); reflexivity|]. split; [|now left].
    right. right. now left.
  - rewrite (proj2 (op_in _ _) Hp). unfold completed, with_session. change (objects (set_pending (remove_op (id, Upper, d) (pending s)) s)) with (objects s). rewrite L. cbn [is_open]. rewrite X2.
    erewrite try_close_spec by (cbn [put set_objects objects set_pending]; eapply lookup_replace_same; exact L). cbn [pbind put set_objects objects set_pending sessions posted locals pending next_id max_sessions accepting connecting plog].
    unfold error_handler. erewrite error_spec; [|cbn [objects]; rewrite replace_replace; eapply lookup_replace_same; exact L|exact X3|exact Nd].
    eexists. eexists. split; [reflexivity|]. unfold dropped. cbn [plog posted locals]. rewrite <- app_assoc. split; [reflexivity|].
    unfold shut_log. cbn [is_open set_open set_active lower_open upper_open stack_on app_on]. rewrite X1, X2, W2, A. cbn [andb]. rewrite !removed_app. split; [destruct (_ && _); reflexivity|]. split; [|now left].
    right. right. now left.
Qed.
Print Assumptions C40_error_closes.

(** What happens to one session does not touch the others. *)
Theorem C40_isolation : forall max s e s' j, reachable max s -> step s e = Good s' ->
  (exists x d, e = Starts j x d \/ e = Completed j x d true \/ e = Completed j x d false) \/ e = Opens j \/ e = Closes j \/ e = Checks j ->
  forall id, id <> j -> lookup id (objects s') = lookup id (objects s) /\ (In id (current (plog s')) <-> In id (current (plog s))) /\
    (forall x d, In (id, x, d) (pending s') <-> In (id, x, d) (pending s)).
Proof.
  intros max s e s' j R E He id Ne. pose proof (reachable_inv _ _ R) as H.
  assert (pinv s') as H' by (destruct (step_case s e H) as [[s2 [E3 [H3 _]]]|[[w [E3 _]] _]]; congruence).
  rewrite <- (li_current _ (i_log _ _ H)), <- (li_current _ (i_log _ _ H')).
  assert (e <> Connected /\ about e <> Some id) as [N1 N2].
  { destruct He as [[x [d [->|[->| ->]]]]|[->|[->| ->]]]; cbn; split; congruence. }
  destruct (step_apart id _ _ _ (i_nodup _ _ H) E N1 N2) as [A1 [A2 [A3 _]]]. auto.
Qed.
Print Assumptions C40_isolation.

(** ** What does not hold *)

(** Accepting a connection while the proxy is full of working sessions does not close the oldest one: the error handler of the
    oldest session has already erased it when the proxy erases it a second time through an iterator to it. *)
Definition one_session : list pin := [Accepted; Connected; Completed 0 Lower Rx true; Starts 0 Lower Tx; Completed 0 Lower Tx true; Starts 0 Lower Rx;
  Completed 0 Lower Rx true; Starts 0 Lower Tx; Opens 0; Completed 0 Lower Tx true; Starts 0 Lower Rx].
Theorem C40_evict_refuted : exists es s, steps (new_proxy 1) es = Good s /\ established s 0 /\ current (plog s) = [0%N] /\
  steps s [Accepted; Connected] = Bad BadIterator.
Proof.
  exists one_session. eexists. split; [vm_compute; reflexivity|]. split; [eexists; split; reflexivity|]. split; vm_compute; reflexivity.
Qed.
Print Assumptions C40_evict_refuted.

(** The protocol side fails while it transmits data of the application and a frame of the peer waits to be read: the session is destroyed
    while its crypto layer is still closing. *)
Theorem C40_destroyed_refuted : exists es s, steps (new_proxy 8) es = Good s /\ pending s = [(0%N, Lower, Tx)] /\
  step s (Completed 0 Lower Tx false) = Bad Destroyed.
Proof.
  exists (one_session ++ [Completed 0 Upper Rx true; Starts 0 Lower Tx; Completed 0 Lower Rx true]). eexists. split; [vm_compute; reflexivity|]. split; vm_compute; reflexivity.
Qed.
Print Assumptions C40_destroyed_refuted.

(** A session whose protocol side fails before its handshake succeeded is neither removed nor closed on the application side, whatever
    happens, until new connections push it out. *)
Theorem C40_stuck_refuted : (forall max s id o, reachable max s -> In id (current (plog s)) -> lookup id (objects s) = Some o -> lower_open o = false ->
  forall es s', ~ In Connected es -> steps s es = Good s' ->
    In id (current (plog s')) /\ (exists o', lookup id (objects s') = Some o' /\ upper_open o' = true) /\ forall d, ~ In (id, Upper, d) (pending s')) /\
  (exists s o, reachable 8 s /\ In 0%N (current (plog s)) /\ lookup 0 (objects s) = Some o /\ lower_open o = false).
Proof.
  split.
  - intros max s id o R Hc L Lo es s' Nc E. pose proof (reachable_inv _ _ R) as H. rewrite <- (li_current _ (i_log _ _ H)) in Hc.
    assert (stuck id s) as S. { split; [assumption|]. exists o. split; [assumption|]. destruct (stack_on o) eqn:Es; [|reflexivity]. apply (ok_on _ _ _ (i_obj _ _ H _ _ L ltac:(discriminate))) in Es as [F _]. congruence. }
    pose proof (stuck_steps _ _ _ _ H S E Nc) as [Hi [o' [L' Es']]]. pose proof (steps_inv _ _ _ H E) as H'. rewrite <- (li_current _ (i_log _ _ H')). split; [assumption|].
    pose proof (i_weak _ _ H' _ _ L') as [W1 W2]. pose proof (i_obj _ _ H' _ _ L' ltac:(discriminate)) as [O1 O2 O3 O4].
    assert (app_on o' = false) as A by (destruct (app_on o'); [rewrite W2 in Es' by reflexivity; discriminate|reflexivity]). destruct (O4 Hi A) as [Y1 [Y2 Y3]].
    split; [eauto|]. intros d F. apply W1 in F. destruct d; cbn in F; congruence.
  - eexists. eexists. split; [exists [Accepted; Connected; Completed 0 Lower Rx false]; vm_compute; reflexivity|]. vm_compute. auto.
Qed.
Print Assumptions C40_stuck_refuted.

(** After one failed accept the proxy accepts no connection ever again: only those already being connected become sessions. *)
Theorem C40_accept_refuted : forall max s, reachable max s -> exists s1, step s AcceptFailed = Good s1 /\
  forall es s', steps s1 es = Good s' -> length (added (plog s')) <= length (added (plog s)) + connecting s.
Proof.
  intros max s _. eexists. split; [reflexivity|]. intros es. set (s1 := set_accepting false s). change (plog s) with (plog s1). change (connecting s) with (connecting s1).
  assert (accepting s1 = false) as A by reflexivity. clearbody s1. revert s1 A. induction es as [|e es IH]; cbn [steps]; intros s1 A s' E.
  - inversion E; subst. lia.
  - apply pbind_good in E as [s2 [E1 E2]]. apply step_attempts in E1 as [E1 _].
    assert (accepting s2 = false /\ length (added (plog s2)) + connecting s2 <= length (added (plog s1)) + connecting s1) as [A2 L].
    { destruct e; cbn [attempts] in E1.
      - destruct E1 as [B1 [B2 B3]]. rewrite A in B3. rewrite B1, B2, B3. auto.
      - destruct E1 as [B1 [B2 B3]]. rewrite B1, B2, B3. auto.
      - destruct E1 as [B1 [B2 [l [B3 [B4 _]]]]]. rewrite B1, B2, B3, added_app, app_length, B4. split; [assumption|]. destruct (connecting s1); cbn; lia.
      - destruct E1 as [B1 [B2 [l [B3 B4]]]]. rewrite B1, B2, B3, added_app, app_length, B4. split; [assumption|]. cbn. lia.
      - destruct E1 as [_ [B1 [B2 [_ [l [B3 B4]]]]]]. rewrite B1, B2, B3, added_app, app_length, B4. split; [assumption|]. cbn. lia.
      - destruct E1 as [_ [B1 [B2 [_ [l [B3 B4]]]]]]. rewrite B1, B2, B3, added_app, app_length, B4. split; [assumption|]. cbn. lia.
      - destruct E1 as [_ [B1 [B2 [_ [l [B3 B4]]]]]]. rewrite B1, B2, B3, added_app, app_length, B4. split; [assumption|]. cbn. lia.
      - destruct E1 as [_ [B1 [B2 [_ [l [B3 B4]]]]]]. rewrite B1, B2, B3, added_app, app_length, B4. split; [assumption|]. cbn. lia.
      - destruct E1 as [_ [B1 [B2 [_ [l [B3 B4]]]]]]. rewrite B1, B2, B3, added_app, app_length, B4. split; [assumption|]. cbn. lia. }
    specialize (IH _ A2 _ E2). lia.
Qed.
Print Assumptions C40_accept_refuted.

(** ** Concrete cases *)
(** Two sessions, the first established; its application closes the connection: removed, both connections closed, and destroyed when the
    sockets have completed the cancelled operations; the second is untouched. *)
Example C40_instance : exists s, steps (new_proxy 2) (one_session ++ [Accepted; Connected; Completed 0 Upper Rx false; Completed 0 Lower Rx false; Checks 0]) = Good s /\
  plog s = [PAdded 0; PAdded 1; PClosed 0 Upper; PRemoved 0; PClosed 0 Lower; PDestroyed 0] /\ current (plog s) = [1%N] /\ pending s = [(1%N, Lower, Rx)].
Proof. eexists. split; [vm_compute; reflexivity|]. split; [reflexivity|]. split; reflexivity. Qed.

(** A full proxy whose oldest session is still in its handshake: the oldest is replaced. *)
Example C40_instance_full : exists s s', steps (new_proxy 0) [Accepted; Connected; Accepted] = Good s /\ ~ established s 0 /\ length (current (plog s)) = allowed 0 /\
  step s Connected = Good s' /\ plog s' = [PAdded 0; PClosed 0 Lower; PRemoved 0; PAdded 1] /\ current (plog s') = [1%N].
Proof.
  eexists. eexists. split; [vm_compute; reflexivity|]. split; [intros [o [L A]]; inversion L; subst; discriminate|]. split; [reflexivity|]. split; [vm_compute; reflexivity|]. split; reflexivity.
Qed.
