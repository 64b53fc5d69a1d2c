(** * ProxyFacts: the invariant of the TCP proxy *)
From Verif Require Import Base BaseFacts Proxy ProxySpec.
From Coq Require Import Sorting.Sorted Logic.FinFun.
Local Open Scope nat_scope.

Lemma mem_In : forall id l, mem id l = true <-> In id l.
Proof. intros id l. unfold mem. rewrite existsb_exists. split; [intros [x [H E]]; apply N.eqb_eq in E; now subst|intros H; exists id; split; [assumption|apply N.eqb_refl]]. Qed.
Lemma mem_false : forall id l, mem id l = false <-> ~ In id l.
Proof. intros id l. rewrite <- mem_In. destruct (mem id l); split; congruence. Qed.

Lemma lookup_In : forall id l o, lookup id l = Some o -> In id (map fst l).
Proof. intros id l o. induction l as [|[i x] r IH]; cbn; [discriminate|]. destruct (N.eqb_spec i id); [left; assumption|right; auto]. Qed.
Lemma lookup_None : forall id l, lookup id l = None <-> ~ In id (map fst l).
Proof.
  intros id l. induction l as [|[i x] r IH]; cbn; [intuition|]. destruct (N.eqb_spec i id).
  - split; [discriminate|intros H; exfalso; apply H; now left].
  - rewrite IH. intuition.
Qed.
Lemma lookup_replace : forall id j o l, lookup j (replace id o l) = if (j =? id)%N then match lookup id l with Some _ => Some o | None => None end else lookup j l.
Proof.
  intros id j o l. induction l as [|[i x] r IH]; cbn [replace lookup].
  - now destruct (j =? id)%N.
  - destruct (N.eqb_spec i id) as [->|E]; cbn [lookup].
    + rewrite (N.eqb_sym id j). now destruct (j =? id)%N.
    + destruct (N.eqb_spec i j) as [->|E2].
      * destruct (N.eqb_spec j id); congruence.
      * rewrite IH. reflexivity.
Qed.
Lemma lookup_replace_same : forall id o o0 l, lookup id l = Some o0 -> lookup id (replace id o l) = Some o.
Proof. intros. now rewrite lookup_replace, N.eqb_refl, H. Qed.
Lemma replace_replace : forall id a b l, replace id a (replace id b l) = replace id a l.
Proof.
  intros id a b l. induction l as [|[i x] r IH]; cbn [replace]; [reflexivity|].
  destruct (N.eqb_spec i id) as [->|E]; cbn [replace]; [now rewrite N.eqb_refl|].
  destruct (N.eqb_spec i id); [contradiction|]. now rewrite IH.
Qed.
Lemma replace_same : forall id o l, lookup id l = Some o -> replace id o l = l.
Proof.
  intros id o l. induction l as [|[i x] r IH]; cbn [replace lookup]; [reflexivity|].
  destruct (N.eqb_spec i id) as [->|E]; [congruence|]. intros H. now rewrite IH.
Qed.
Lemma keys_replace : forall id o l, map fst (replace id o l) = map fst l.
Proof. intros id o l. induction l as [|[i x] r IH]; cbn; [reflexivity|]. destruct (i =? id)%N eqn:E; cbn; [reflexivity|now rewrite IH]. Qed.
Lemma lookup_app : forall id l m, lookup id (l ++ m) = match lookup id l with Some o => Some o | None => lookup id m end.
Proof. intros id l m. induction l as [|[i x] r IH]; cbn; [reflexivity|]. now destruct (i =? id)%N. Qed.
Lemma lookup_filter : forall id j l, lookup j (filter (fun p : N * psess => negb (fst p =? id)%N) l) = if (j =? id)%N then None else lookup j l.
Proof.
  intros id j l. induction l as [|[i x] r IH]; cbn [filter lookup fst]; [now destruct (j =? id)%N|].
  destruct (N.eqb_spec i id) as [->|E]; cbn [negb].
  - rewrite IH. rewrite (N.eqb_sym id j). now destruct (j =? id)%N.
  - cbn [lookup]. rewrite IH. destruct (N.eqb_spec i j) as [->|]; [|reflexivity]. destruct (N.eqb_spec j id); [contradiction|reflexivity].
Qed.
Lemma keys_filter : forall id l, map fst (filter (fun p : N * psess => negb (fst p =? id)%N) l) = filter (fun i => negb (i =? id)%N) (map fst l).
Proof. intros id l. induction l as [|[i x] r IH]; cbn; [reflexivity|]. destruct (i =? id)%N; cbn; now rewrite IH. Qed.

Lemma In_remove1 : forall id j l, In j (remove1 id l) -> In j l.
Proof. intros id j l. induction l as [|i r IH]; cbn; [auto|]. destruct (i =? id)%N; cbn; intuition. Qed.
Lemma remove1_filter : forall id l, NoDup l -> remove1 id l = filter (fun i => negb (i =? id)%N) l.
Proof.
  intros id l H. induction H as [|i r Hi H IH]; cbn; [reflexivity|]. destruct (N.eqb_spec i id) as [->|E]; cbn; [|now rewrite IH].
  symmetry. clear - Hi. induction r as [|a r IH]; cbn; [reflexivity|]. destruct (N.eqb_spec a id) as [->|E]; cbn; [exfalso; apply Hi; now left|].
  rewrite IH; [reflexivity|]. intros H. apply Hi. now right.
Qed.
Lemma In_remove1_nodup : forall id j l, NoDup l -> (In j (remove1 id l) <-> In j l /\ j <> id).
Proof. intros id j l H. rewrite remove1_filter by assumption. rewrite filter_In. destruct (N.eqb_spec j id); cbn; intuition; discriminate. Qed.
Lemma length_remove1 : forall id l, In id l -> S (length (remove1 id l)) = length l.
Proof. intros id l. induction l as [|i r IH]; cbn; [intros []|]. destruct (N.eqb_spec i id); [reflexivity|]. intros [H|H]; [contradiction|]. cbn. now rewrite IH. Qed.
Lemma NoDup_remove1 : forall id l, NoDup l -> NoDup (remove1 id l).
Proof. intros id l H. rewrite remove1_filter by assumption. now apply NoDup_filter. Qed.
Lemma insert_last : forall id l, (forall j, In j l -> (j < id)%N) -> insert id l = l ++ [id].
Proof.
  intros id l. induction l as [|i r IH]; cbn; intros H; [reflexivity|].
  assert (i < id)%N as Hi by auto. destruct (N.ltb_spec id i); [lia|]. destruct (N.eqb_spec id i); [lia|]. rewrite IH; auto.
Qed.

Lemma op_eqb_eq : forall a b, op_eqb a b = true <-> a = b.
Proof.
  intros [[i x] d] [[j y] e]. cbn. split.
  - intros H. apply andb_prop in H as [H H3]. apply andb_prop in H as [H1 H2]. apply N.eqb_eq in H1. subst. now destruct x, y, d, e; try discriminate.
  - intros H. inversion H; subst. rewrite N.eqb_refl. now destruct y, e.
Qed.
Lemma op_in : forall a l, existsb (op_eqb a) l = true <-> In a l.
Proof. intros a l. rewrite existsb_exists. split; [intros [b [H E]]; apply op_eqb_eq in E; now subst|intros H; exists a; split; [assumption|now apply op_eqb_eq]]. Qed.
Lemma In_remove_op : forall a b l, NoDup l -> (In b (remove_op a l) <-> In b l /\ b <> a).
Proof.
  intros a b l H. induction H as [|c r Hc H IH]; cbn [remove_op]; [cbn; intuition|].
  destruct (op_eqb a c) eqn:E.
  - apply op_eqb_eq in E. subst c. cbn. split; [intros Hb; split; [now right|]; intros ->; contradiction|intros [[->|Hb] N]; [now contradiction N|assumption]].
  - assert (a <> c) as Ne by (intros ->; rewrite (proj2 (op_eqb_eq c c) eq_refl) in E; discriminate).
    cbn [In]. rewrite IH. split; [intros [->|[H1 H2]]; split; auto; congruence|intros [[->|H1] H2]; auto].
Qed.
Lemma NoDup_remove_op : forall a l, NoDup l -> NoDup (remove_op a l).
Proof.
  intros a l H. induction H as [|c r Hc H IH]; cbn; [constructor|]. destruct (op_eqb a c); [assumption|]. constructor; [|assumption].
  intros Hi. apply Hc. now apply (In_remove_op a c r H) in Hi.
Qed.

(** ** The closed form of the shutdown of a session that is still in the map *)
Definition shut (o : psess) : psess :=
  {| lower_open := false; upper_open := if stack_on o && app_on o then false else upper_open o;
     lower_rx := lower_rx o; lower_tx := lower_tx o; upper_rx := upper_rx o; upper_tx := upper_tx o;
     stack_on := false; app_on := if stack_on o then false else app_on o |}.
Definition shut_log (id : N) (o : psess) : list pev :=
  (if lower_open o then [PClosed id Lower] else []) ++ (if stack_on o && app_on o && upper_open o then [PClosed id Upper] else []).

Ltac pstate := unfold observe, put, set_objects, set_sessions, set_posted, set_locals, set_pending, set_next, set_accepting, set_connecting in *; cbn [objects sessions posted locals pending next_id max_sessions accepting connecting plog] in *.

Definition after_shut (id : N) (o : psess) (s : proxy) : proxy :=
  {| objects := replace id (shut o) (objects s); sessions := sessions s;
     posted := if is_shutdown o then posted s else posted s ++ [id]; locals := locals s; pending := pending s; next_id := next_id s;
     max_sessions := max_sessions s; accepting := accepting s; connecting := connecting s; plog := plog s ++ shut_log id o |}.

Lemma proxy_eta : forall s, s = {| objects := objects s; sessions := sessions s; posted := posted s; locals := locals s; pending := pending s; next_id := next_id s;
     max_sessions := max_sessions s; accepting := accepting s; connecting := connecting s; plog := plog s |}.
Proof. now intros []. Qed.

Lemma try_close_spec : forall id x s o, lookup id (objects s) = Some o ->
  try_close_socket id x s = Good {| objects := replace id (set_open x false o) (objects s); sessions := sessions s; posted := posted s; locals := locals s;
     pending := pending s; next_id := next_id s; max_sessions := max_sessions s; accepting := accepting s; connecting := connecting s;
     plog := plog s ++ if is_open x o then [PClosed id x] else [] |}.
Proof.
  intros id x s o H. unfold try_close_socket, with_session. rewrite H. destruct (is_open x o) eqn:E; [reflexivity|].
  assert (set_open x false o = o) as -> by (destruct x, o; cbn in *; now subst). rewrite replace_same by assumption. rewrite app_nil_r. f_equal. apply proxy_eta.
Qed.

(** The error handler does nothing for a session that is not in the map *)
Lemma error_absent : forall n id s, ~ In id (sessions s) -> on_session_error (S n) id s = Good s.
Proof. intros n id s H. cbn. apply mem_false in H. now rewrite H. Qed.

Lemma shutdown_spec : forall h id s o, lookup id (objects s) = Some o ->
  (stack_on o && app_on o = true -> forall s', sessions s' = sessions s -> h id s' = Good s') ->
  shutdown h id s = Good (after_shut id o s).
Proof.
  intros h id s o H Hh. unfold shutdown. rewrite (try_close_spec _ _ _ _ H). cbn [pbind is_open]. unfold close_stack, with_session.
  pstate. rewrite (lookup_replace_same _ _ _ _ H). cbn [stack_on set_open]. destruct (stack_on o) eqn:Es.
  - unfold close_upper, with_session, put. pstate. rewrite replace_replace, (lookup_replace_same _ _ _ _ H). cbn [app_on set_open set_stack_on].
    destruct (app_on o) eqn:Ea; cbn [pbind].
    + pstate. erewrite try_close_spec by (cbn [objects]; rewrite replace_replace; apply (lookup_replace_same _ _ _ _ H)). pstate. cbn [pbind is_open upper_open set_open set_stack_on set_app_on].
      rewrite Hh by reflexivity. cbn [pbind]. pstate. rewrite !replace_replace, (lookup_replace_same _ _ _ _ H). cbn [pbind].
      unfold check_for_close, with_session. pstate. rewrite (lookup_replace_same _ _ _ _ H). unfold is_shutdown at 1. cbn [lower_rx lower_tx upper_rx upper_tx set_open set_stack_on set_app_on].
      change (negb (lower_rx o || lower_tx o || (upper_rx o || upper_tx o))) with (is_shutdown o). unfold after_shut, shut, shut_log. rewrite Es, Ea. cbn [andb]. rewrite <- app_assoc. destruct (is_shutdown o); reflexivity.
    + pstate. rewrite (lookup_replace_same _ _ _ _ H). cbn [pbind]. unfold check_for_close, with_session. pstate. rewrite (lookup_replace_same _ _ _ _ H). unfold is_shutdown at 1.
      cbn [lower_rx lower_tx upper_rx upper_tx set_open set_stack_on set_app_on]. change (negb (lower_rx o || lower_tx o || (upper_rx o || upper_tx o))) with (is_shutdown o).
      unfold after_shut, shut, shut_log, set_open, set_stack_on. rewrite Es, Ea. cbn [andb lower_open upper_open stack_on app_on lower_rx lower_tx upper_rx upper_tx]. rewrite app_nil_r, ?Ea. destruct (is_shutdown o); reflexivity.
  - cbn [pbind]. unfold check_for_close, with_session. pstate. rewrite (lookup_replace_same _ _ _ _ H). unfold is_shutdown at 1.
    cbn [lower_rx lower_tx upper_rx upper_tx set_open set_stack_on set_app_on]. change (negb (lower_rx o || lower_tx o || (upper_rx o || upper_tx o))) with (is_shutdown o).
    unfold after_shut, shut, shut_log, set_open. rewrite Es. cbn [andb]. rewrite app_nil_r. destruct (is_shutdown o); reflexivity.
Qed.

(** Removing a session from the map because of an error *)
Definition dropped (id : N) (o : psess) (s : proxy) : proxy :=
  {| objects := if is_shutdown o && negb (mem id (posted s)) && negb (mem id (locals s)) then filter (fun p => negb (fst p =? id)%N) (objects s) else replace id (shut o) (objects s);
     sessions := remove1 id (sessions s); posted := if is_shutdown o then posted s else posted s ++ [id]; locals := locals s; pending := pending s; next_id := next_id s;
     max_sessions := max_sessions s; accepting := accepting s; connecting := connecting s;
     plog := plog s ++ [PRemoved id] ++ shut_log id o ++ if is_shutdown o && negb (mem id (posted s)) && negb (mem id (locals s)) then [PDestroyed id] else [] |}.

Lemma filter_replace : forall id o l, filter (fun p : N * psess => negb (fst p =? id)%N) (replace id o l) = filter (fun p => negb (fst p =? id)%N) l.
Proof. intros id o l. induction l as [|[i x] r IH]; cbn; [reflexivity|]. destruct (i =? id)%N eqn:E; cbn; rewrite E; cbn; [reflexivity|now rewrite IH]. Qed.
Lemma mem_app : forall id l m, mem id (l ++ m) = mem id l || mem id m.
Proof. intros. apply existsb_app. Qed.

Lemma error_spec : forall n id s o, lookup id (objects s) = Some o -> In id (sessions s) -> NoDup (sessions s) ->
  on_session_error (S (S n)) id s = Good (dropped id o s).
Proof.
  intros n id s o H Hi Hn. set (m := S n). cbn [on_session_error]. subst m. rewrite (proj2 (mem_In _ _) Hi). pstate.
  rewrite (shutdown_spec _ _ _ o); [|exact H|].
  2:{ intros _ s' Hs. apply error_absent. rewrite Hs. cbn [sessions]. rewrite In_remove1_nodup by assumption. intros [_ F]. now apply F. }
  cbn [pbind]. unfold after_shut. pstate. cbn [remove1]. rewrite N.eqb_refl. unfold release. pstate.
  assert (mem id (remove1 id (sessions s)) = false) as -> by (apply mem_false; rewrite In_remove1_nodup by assumption; intros [_ F]; now apply F).
  cbn [orb]. unfold dropped. destruct (is_shutdown o) eqn:Es.
  - destruct (mem id (posted s)), (mem id (locals s)); cbn [orb andb negb]; pstate; rewrite ?filter_replace, ?app_nil_r, <- ?app_assoc; reflexivity.
  - rewrite mem_app. cbn [mem existsb]. rewrite N.eqb_refl. cbn [orb]. rewrite orb_true_r. cbn [orb andb]. rewrite app_nil_r, <- app_assoc. reflexivity.
Qed.

(** ** The invariant *)
Lemma added_app : forall a b, added (a ++ b) = added a ++ added b.
Proof. intros. apply flat_map_app. Qed.
Lemma removed_app : forall a b, removed (a ++ b) = removed a ++ removed b.
Proof. intros. apply flat_map_app. Qed.
Lemma destroyed_app : forall a b, destroyed (a ++ b) = destroyed a ++ destroyed b.
Proof. intros. apply flat_map_app. Qed.

Definition quiet (l : list pev) : Prop := added l = [] /\ removed l = [] /\ destroyed l = [].
Lemma quiet_shut : forall id o, quiet (shut_log id o).
Proof. intros id o. unfold quiet, shut_log. destruct (lower_open o), (stack_on o && app_on o && upper_open o); repeat split; reflexivity. Qed.
Lemma quiet_nil : quiet []. Proof. repeat split. Qed.
Lemma quiet_closed : forall id x, quiet [PClosed id x]. Proof. repeat split. Qed.

Definition ids (n : N) : list N := map N.of_nat (seq 0 (N.to_nat n)).
Lemma ids_S : forall n, ids (n + 1) = ids n ++ [n].
Proof. intros n. unfold ids. replace (N.to_nat (n + 1)) with (S (N.to_nat n)) by lia. rewrite seq_S, map_app. cbn. now rewrite N2Nat.id. Qed.
Lemma In_ids : forall i n, In i (ids n) <-> (i < n)%N.
Proof.
  intros i n. unfold ids. rewrite in_map_iff. split.
  - intros [x [<- H]]. apply in_seq in H. lia.
  - intros H. exists (N.to_nat i). split; [apply N2Nat.id|]. apply in_seq. lia.
Qed.
Lemma NoDup_ids : forall n, NoDup (ids n).
Proof. intros n. unfold ids. apply Injective_map_NoDup; [intros a b H; lia|apply seq_NoDup]. Qed.

Record linv (s : proxy) : Prop := {
  li_added : added (plog s) = ids (next_id s);
  li_current : sessions s = current (plog s);
  li_removed : NoDup (removed (plog s));
  li_removed_in : forall i, In i (removed (plog s)) -> (i < next_id s)%N;
  li_destroyed : NoDup (destroyed (plog s));
  li_destroyed_in : forall i, In i (destroyed (plog s)) -> In i (removed (plog s));
  li_objects : map fst (objects s) = filter (fun i => negb (existsb (N.eqb i) (destroyed (plog s)))) (ids (next_id s)) }.

Record objweak (s : proxy) (id : N) (o : psess) : Prop := {
  ok_act : forall x d, is_active x d o = true <-> In (id, x, d) (pending s);
  ok_app : app_on o = true -> stack_on o = true }.
Record objok (s : proxy) (id : N) (o : psess) : Prop := {
  ok_on : stack_on o = true -> lower_open o = true /\ upper_open o = true /\ In id (sessions s);
  ok_off : stack_on o = false -> lower_open o = false;
  ok_out : In id (sessions s) \/ In id (posted s);
  ok_before : In id (sessions s) -> app_on o = false -> upper_open o = true /\ upper_rx o = false /\ upper_tx o = false }.

Record pinvx (e : option N) (s : proxy) : Prop := {
  i_log : linv s;
  i_locals : locals s = [];
  i_sess : forall id, In id (sessions s) -> exists o, lookup id (objects s) = Some o;
  i_post : forall id, In id (posted s) -> (exists o, lookup id (objects s) = Some o) /\ ~ In id (sessions s);
  i_weak : forall id o, lookup id (objects s) = Some o -> objweak s id o;
  i_obj : forall id o, lookup id (objects s) = Some o -> e <> Some id -> objok s id o;
  i_nodup : NoDup (pending s);
  i_pend : forall id x d, In (id, x, d) (pending s) -> exists o, lookup id (objects s) = Some o;
  i_max : (0 < max_sessions s)%N;
  i_len : (N.of_nat (length (sessions s)) <= max_sessions s)%N }.
Definition pinv := pinvx None.

Lemma current_nodup : forall l n, added l = ids n -> NoDup (current l).
Proof. intros l n H. unfold current. rewrite H. apply NoDup_filter, NoDup_ids. Qed.
Lemma sess_nodup : forall e s, pinvx e s -> NoDup (sessions s).
Proof. intros e s H. rewrite (li_current _ (i_log _ _ H)). eapply current_nodup. apply (li_added _ (i_log _ _ H)). Qed.
Lemma sess_lt : forall e s id, pinvx e s -> In id (sessions s) -> (id < next_id s)%N.
Proof. intros e s id H Hi. rewrite (li_current _ (i_log _ _ H)) in Hi. unfold current in Hi. apply filter_In in Hi as [Hi _]. rewrite (li_added _ (i_log _ _ H)) in Hi. now apply In_ids. Qed.
Lemma obj_lt : forall e s id o, pinvx e s -> lookup id (objects s) = Some o -> (id < next_id s)%N.
Proof. intros e s id o H L. apply lookup_In in L. rewrite (li_objects _ (i_log _ _ H)) in L. apply filter_In in L as [L _]. now apply In_ids. Qed.

Lemma linv_quiet : forall s s' l, linv s -> quiet l -> plog s' = plog s ++ l -> next_id s' = next_id s -> sessions s' = sessions s ->
  map fst (objects s') = map fst (objects s) -> linv s'.
Proof.
  intros s s' l [A B C D E F0 F] [Q1 [Q2 Q3]] Hl Hn Hs Ho.
  constructor; rewrite ?Hl, ?Hn, ?Hs, ?Ho, ?added_app, ?removed_app, ?destroyed_app, ?Q1, ?Q2, ?Q3, ?app_nil_r; try assumption.
  rewrite B. unfold current. now rewrite added_app, removed_app, Q1, Q2, !app_nil_r.
Qed.

Lemma NoDup_app_disj : forall (A : Type) (l m : list A), NoDup l -> NoDup m -> (forall x, In x l -> In x m -> False) -> NoDup (l ++ m).
Proof.
  intros A l m Hl Hm H. induction Hl as [|a l Ha Hl IH]; [assumption|]. cbn. constructor.
  - intros F. apply in_app_iff in F as [F|F]; [contradiction|]. apply (H a); [now left|assumption].
  - apply IH. intros x H1 H2. apply (H x); [now right|assumption].
Qed.

Lemma filter_comp : forall (A : Type) (f g : A -> bool) l, filter f (filter g l) = filter (fun x => g x && f x) l.
Proof. intros A f g l. induction l as [|a l IH]; cbn; [reflexivity|]. destruct (g a) eqn:E; cbn; rewrite ?IH; [now destruct (f a)|reflexivity]. Qed.

(** Removing a session from the map, and possibly destroying it *)
Lemma linv_remove : forall s s' id l (q : bool), linv s -> In id (sessions s) -> (id < next_id s)%N -> quiet l -> next_id s' = next_id s ->
  sessions s' = remove1 id (sessions s) ->
  (plog s' = plog s ++ [PRemoved id] ++ l ++ (if (q : bool) then [PDestroyed id] else []) \/
   plog s' = plog s ++ l ++ [PRemoved id] ++ (if (q : bool) then [PDestroyed id] else [])) ->
  map fst (objects s') = (if q : bool then filter (fun i => negb (i =? id)%N) (map fst (objects s)) else map fst (objects s)) ->
  (q = true -> In id (map fst (objects s))) -> linv s'.
Proof.
  intros s s' id l q [A B C D E E0 F] Hi Hlt [Q1 [Q2 Q3]] Hn Hs Hl Ho Hq.
  assert (NoDup (sessions s)) as Nd by (rewrite B; eapply current_nodup; exact A).
  assert (~ In id (removed (plog s))) as Nr.
  { rewrite B in Hi. unfold current in Hi. apply filter_In in Hi as [_ Hi]. intros F0. apply negb_true_iff in Hi.
    assert (mem id (removed (plog s)) = false) as M by exact Hi. apply mem_false in M. contradiction. }
  assert (q = true -> ~ In id (destroyed (plog s))) as Nq.
  { intros q1 F0. specialize (Hq q1). rewrite F in Hq. apply filter_In in Hq as [_ Hq]. apply negb_true_iff in Hq. change (mem id (destroyed (plog s)) = false) in Hq. apply mem_false in Hq. contradiction. }
  assert (added (plog s') = added (plog s)) as Ea by (destruct Hl as [-> | ->]; rewrite !added_app, Q1; destruct q; cbn; now rewrite !app_nil_r).
  assert (removed (plog s') = removed (plog s) ++ [id]) as Er by (destruct Hl as [-> | ->]; rewrite !removed_app, Q2; destruct q; cbn; now rewrite ?app_nil_r).
  assert (destroyed (plog s') = destroyed (plog s) ++ if q then [id] else []) as Ed by (destruct Hl as [-> | ->]; rewrite !destroyed_app, Q3; destruct q; cbn; now rewrite ?app_nil_r).
  constructor.
  - now rewrite Ea, Hn.
  - rewrite Hs, remove1_filter by assumption. rewrite B. unfold current. rewrite Ea, Er, filter_comp. apply filter_ext. intros i.
    rewrite existsb_app. cbn [existsb]. rewrite orb_false_r. now rewrite negb_orb.
  - rewrite Er. apply NoDup_app_disj; [assumption|repeat constructor; auto|]. intros x Hx [<-|[]]. contradiction.
  - rewrite Er, Hn. intros i H. apply in_app_iff in H as [H|[<-|[]]]; auto.
  - rewrite Ed. destruct q; [|now rewrite app_nil_r]. apply NoDup_app_disj; [assumption|repeat constructor; auto|]. intros x Hx [<-|[]]. now apply Nq.
  - rewrite Ed, Er. intros i Hi2. apply in_app_iff in Hi2 as [Hi2|Hi2]; apply in_app_iff; [left; auto|right]. destruct q; [exact Hi2|destruct Hi2].
  - rewrite Ho, Hn, Ed. destruct q; [|now rewrite app_nil_r]. rewrite F, filter_comp. apply filter_ext. intros i. rewrite existsb_app. cbn [existsb]. rewrite orb_false_r. now rewrite negb_orb.
Qed.

(** Changing one session and the operations in progress *)
Definition upd (id : N) (o : psess) (P : list (N * side * way)) (l : list pev) (s : proxy) : proxy :=
  {| objects := replace id o (objects s); sessions := sessions s; posted := posted s; locals := locals s; pending := P; next_id := next_id s;
     max_sessions := max_sessions s; accepting := accepting s; connecting := connecting s; plog := plog s ++ l |}.

Lemma upd_inv : forall id o o' P l s, pinvx (Some id) s -> lookup id (objects s) = Some o -> NoDup P ->
  (forall j x d, In (j, x, d) P <-> (j = id /\ is_active x d o' = true) \/ (j <> id /\ In (j, x, d) (pending s))) ->
  (app_on o' = true -> stack_on o' = true) -> quiet l -> pinvx (Some id) (upd id o' P l s).
Proof.
  intros id o o' P l s H L Nd HP Ha Q. destruct H as [A B C D E F G I J K]. constructor; unfold upd; cbn [objects sessions posted locals pending next_id max_sessions plog]; try assumption.
  - eapply linv_quiet; [exact A|exact Q|reflexivity|reflexivity|reflexivity|apply keys_replace].
  - intros j Hj. rewrite lookup_replace. destruct (N.eqb_spec j id) as [->|]; [rewrite L; eauto|auto].
  - intros j Hj. rewrite lookup_replace. destruct (D j Hj) as [D1 D2]. split; [|assumption]. destruct (N.eqb_spec j id) as [->|]; [rewrite L; eauto|auto].
  - intros j x Lj. rewrite lookup_replace in Lj. destruct (N.eqb_spec j id) as [->|Ne].
    + rewrite L in Lj. inversion Lj; subst x. constructor; [|assumption]. cbn [pending]. intros x d. rewrite HP. intuition.
    + destruct (E j x Lj) as [E1 E2]. constructor; [|assumption]. cbn [pending]. intros y d. rewrite HP, E1. intuition.
  - intros j x Lj Ne. assert (j <> id) as Ne2 by congruence. rewrite lookup_replace in Lj. destruct (N.eqb_spec j id) as [|_]; [contradiction|].
    destruct (F j x Lj Ne) as [F1 F2 F3 F4]. constructor; assumption.
  - intros j x d Hj. apply HP in Hj. rewrite lookup_replace. destruct (N.eqb_spec j id) as [->|Ne]; [rewrite L; eauto|]. destruct Hj as [[? _]|[_ Hj]]; [contradiction|eauto].
Qed.

Lemma inv_weaken : forall id s, pinv s -> pinvx (Some id) s.
Proof. intros id s [A B C D E F G I J K]. constructor; auto. intros. apply F; [assumption|discriminate]. Qed.
Lemma inv_restore : forall id s, pinvx (Some id) s -> (forall o, lookup id (objects s) = Some o -> objok s id o) -> pinv s.
Proof. intros id s [A B C D E F G I J K] H. constructor; auto. intros j o L _. destruct (N.eq_dec j id) as [->|Ne]; [auto|]. apply F; [assumption|congruence]. Qed.

Lemma is_shutdown_spec : forall o, is_shutdown o = true <-> forall x d, is_active x d o = false.
Proof.
  intros o. unfold is_shutdown. rewrite negb_true_iff, !orb_false_iff. split.
  - intros [[A B] [C D]] [] []; assumption.
  - intros H. split; split; [apply (H Lower Rx)|apply (H Lower Tx)|apply (H Upper Rx)|apply (H Upper Tx)].
Qed.

(** Removing a session from the map, in either order of the notifications *)
Lemma removal_inv : forall id o s s', pinvx (Some id) s -> lookup id (objects s) = Some o -> In id (sessions s) ->
  objects s' = (if is_shutdown o then filter (fun p => negb (fst p =? id)%N) (objects s) else replace id (shut o) (objects s)) ->
  sessions s' = remove1 id (sessions s) -> posted s' = (if is_shutdown o then posted s else posted s ++ [id]) ->
  locals s' = locals s -> pending s' = pending s -> next_id s' = next_id s -> max_sessions s' = max_sessions s ->
  (plog s' = plog s ++ [PRemoved id] ++ shut_log id o ++ (if is_shutdown o then [PDestroyed id] else []) \/
   plog s' = plog s ++ shut_log id o ++ [PRemoved id] ++ (if is_shutdown o then [PDestroyed id] else [])) -> pinv s'.
Proof.
  intros id o s s' H L Hi Ho Hs Hp Hl Hpe Hn Hm Hg. pose proof (sess_nodup _ _ H) as Nd. pose proof (sess_lt _ _ _ H Hi) as Lt.
  destruct H as [A B C D E F G I J K].
  assert (~ In id (posted s)) as Np by (intros X; destruct (D id X) as [_ X2]; contradiction).
  assert (forall j, In j (sessions s') <-> In j (sessions s) /\ j <> id) as Hin by (intros j; rewrite Hs; now apply In_remove1_nodup).
  assert (forall j, j <> id -> lookup j (objects s') = lookup j (objects s)) as Hlk.
  { intros j Ne. rewrite Ho. destruct (is_shutdown o); [rewrite lookup_filter|rewrite lookup_replace]; destruct (N.eqb_spec j id); try contradiction; reflexivity. }
  assert (forall x, lookup id (objects s') = Some x -> is_shutdown o = false /\ x = shut o) as Hid.
  { intros x. rewrite Ho. destruct (is_shutdown o); [rewrite lookup_filter, N.eqb_refl; discriminate|rewrite (lookup_replace_same _ _ _ _ L)]. intros X. inversion X. auto. }
  assert (forall j, In j (posted s') -> j = id /\ is_shutdown o = false \/ j <> id /\ In j (posted s)) as Hpo.
  { intros j. rewrite Hp. destruct (is_shutdown o) eqn:Es; intros Hj.
    - right. split; [|assumption]. intros ->. contradiction.
    - apply in_app_iff in Hj as [Hj|[<-|[]]]; [right; split; [intros ->; contradiction|assumption]|left; auto]. }
  constructor.
  - eapply linv_remove with (id := id) (l := shut_log id o) (q := is_shutdown o); try eassumption; [apply quiet_shut| |].
    + rewrite Ho. destruct (is_shutdown o); [apply keys_filter|apply keys_replace].
    + intros _. now apply lookup_In in L.
  - now rewrite Hl.
  - intros j Hj. apply Hin in Hj as [Hj Ne]. rewrite Hlk by assumption. auto.
  - intros j Hj. rewrite Hin. destruct (Hpo _ Hj) as [[-> Es]|[Ne Hj2]].
    + split; [|intros [_ X]; now apply X]. rewrite Ho, Es. rewrite (lookup_replace_same _ _ _ _ L). eauto.
    + destruct (D j Hj2) as [D1 D2]. rewrite Hlk by assumption. split; [assumption|]. intros [X _]. contradiction.
  - intros j x Lj. destruct (N.eq_dec j id) as [->|Ne].
    + destruct (Hid _ Lj) as [_ ->]. destruct (E _ _ L) as [E1 E2]. constructor; rewrite ?Hpe; [|cbn; destruct (stack_on o) eqn:Es; [discriminate|intros X; now specialize (E2 X)]].
      intros y d. rewrite <- E1. destruct y, d; reflexivity.
    + rewrite Hlk in Lj by assumption. destruct (E _ _ Lj) as [E1 E2]. constructor; rewrite ?Hpe; assumption.
  - intros j x Lj _. destruct (N.eq_dec j id) as [->|Ne].
    + destruct (Hid _ Lj) as [Es ->]. constructor; cbn; [discriminate|reflexivity|right; rewrite Hp, Es; apply in_app_iff; right; now left|].
      intros X. apply Hin in X as [_ X]. now contradiction X.
    + rewrite Hlk in Lj by assumption. destruct (F _ _ Lj ltac:(congruence)) as [F1 F2 F3 F4].
      constructor; [| assumption | |].
      * intros X. destruct (F1 X) as [X1 [X2 X3]]. repeat split; auto. apply Hin. auto.
      * destruct F3 as [F3|F3]; [left; apply Hin; auto|right]. rewrite Hp. destruct (is_shutdown o); [assumption|apply in_app_iff; now left].
      * intros X. apply Hin in X as [X _]. auto.
  - now rewrite Hpe.
  - intros j x d Hj. rewrite Hpe in Hj. destruct (N.eq_dec j id) as [->|Ne]; [|rewrite Hlk by assumption; eauto].
    destruct (E _ _ L) as [E1 _]. apply E1 in Hj. rewrite Ho. destruct (is_shutdown o) eqn:Es; [|rewrite (lookup_replace_same _ _ _ _ L); eauto].
    rewrite is_shutdown_spec in Es. now rewrite Es in Hj.
  - now rewrite Hm.
  - rewrite Hm, Hs. pose proof (length_remove1 _ _ Hi). lia.
Qed.

Lemma dropped_inv : forall id o s, pinvx (Some id) s -> lookup id (objects s) = Some o -> In id (sessions s) -> pinv (dropped id o s).
Proof.
  intros id o s H L Hi. assert (mem id (posted s) = false) as Np by (apply mem_false; intros X; now destruct (i_post _ _ H _ X)).
  eapply (removal_inv id o s); try eassumption; try reflexivity; unfold dropped; cbn [objects plog]; rewrite Np, (i_locals _ _ H); cbn [mem existsb negb]; rewrite !andb_true_r; auto.
Qed.

(** ** Every step keeps the invariant, or is one of the two hazards *)
Definition off (o : psess) : psess :=
  {| lower_open := lower_open o; upper_open := false; lower_rx := lower_rx o; lower_tx := lower_tx o; upper_rx := upper_rx o; upper_tx := upper_tx o; stack_on := stack_on o; app_on := false |}.

Lemma close_upper_app : forall id o s, lookup id (objects s) = Some o -> app_on o = true -> In id (sessions s) -> NoDup (sessions s) ->
  close_upper error_handler id s = Good (dropped id (off o) (upd id (off o) (pending s) (if upper_open o then [PClosed id Upper] else []) s)).
Proof.
  intros id o s L A Hi Nd. unfold close_upper, with_session. rewrite L, A. erewrite try_close_spec by (unfold put; cbn [objects set_objects]; apply (lookup_replace_same _ _ _ _ L)).
  cbn [pbind]. unfold put. pstate. rewrite replace_replace. unfold error_handler. erewrite error_spec.
  - reflexivity.
  - cbn [objects]. apply (lookup_replace_same _ _ _ _ L).
  - exact Hi.
  - exact Nd.
Qed.

Lemma dropped_lookup : forall id o s, lookup id (objects s) = Some o ->
  lookup id (objects (dropped id o s)) = if is_shutdown o && negb (mem id (posted s)) && negb (mem id (locals s)) then None else Some (shut o).
Proof.
  intros id o s L. unfold dropped. cbn [objects]. destruct (is_shutdown o && negb (mem id (posted s)) && negb (mem id (locals s))).
  - now rewrite lookup_filter, N.eqb_refl.
  - apply (lookup_replace_same _ _ _ _ L).
Qed.

(** A failure on the protocol side of a session *)
Lemma close_stack_on : forall id o s, lookup id (objects s) = Some o -> stack_on o = true -> app_on o = true -> In id (sessions s) -> NoDup (sessions s) ->
  ~ In id (posted s) -> locals s = [] ->
  close_stack error_handler id s =
    if is_shutdown o then Bad Destroyed
    else Good (dropped id (off (set_stack_on false o)) (upd id (off (set_stack_on false o)) (pending s) (if upper_open o then [PClosed id Upper] else []) s)).
Proof.
  intros id o s L S A Hi Nd Np Nl. unfold close_stack, with_session. rewrite L, S.
  erewrite close_upper_app with (o := set_stack_on false o); [|unfold put; cbn [objects set_objects]; apply (lookup_replace_same _ _ _ _ L)|exact A|exact Hi|exact Nd].
  cbn [pbind]. rewrite dropped_lookup by (unfold upd, put; cbn [objects set_objects]; rewrite replace_replace; apply (lookup_replace_same _ _ _ _ L)).
  unfold upd, put. pstate. rewrite (proj2 (mem_false _ _) Np), Nl. cbn [mem existsb negb]. rewrite !andb_true_r. rewrite replace_replace.
  change (is_shutdown (off (set_stack_on false o))) with (is_shutdown o). destruct (is_shutdown o) eqn:Es; reflexivity.
Qed.

Lemma close_stack_before : forall h id o s, lookup id (objects s) = Some o -> stack_on o = true -> app_on o = false ->
  close_stack h id s = Good (upd id (set_stack_on false o) (pending s) [] s).
Proof.
  intros h id o s L S A. unfold close_stack, with_session. rewrite L, S. unfold close_upper, with_session, put. pstate. rewrite (lookup_replace_same _ _ _ _ L). cbn [app_on set_stack_on].
  rewrite A. cbn [pbind]. pstate. rewrite (lookup_replace_same _ _ _ _ L). unfold upd. now rewrite app_nil_r.
Qed.

Lemma pend_same : forall s e id o o', pinvx e s -> lookup id (objects s) = Some o -> (forall x d, is_active x d o' = is_active x d o) ->
  forall j x d, In (j, x, d) (pending s) <-> (j = id /\ is_active x d o' = true) \/ (j <> id /\ In (j, x, d) (pending s)).
Proof.
  intros s e id o o' H L Ho j x d. destruct (N.eq_dec j id) as [->|Ne]; [|intuition].
  rewrite Ho, (ok_act _ _ _ (i_weak _ _ H _ _ L)). intuition.
Qed.

Lemma start_inv : forall id x d s o, pinv s -> lookup id (objects s) = Some o -> (x = Upper -> app_on o = true) -> (x = Lower -> True) ->
  exists s', start_operation id x d s = Good s' /\ pinv s'.
Proof.
  intros id x d s o H L Hx _. unfold start_operation, with_session. rewrite L. destruct (is_open x o) eqn:Eo; cbn [negb orb]; [|eauto].
  destruct (is_active x d o) eqn:Ea; [eauto|]. eexists. split; [reflexivity|].
  pose proof (i_weak _ _ H _ _ L) as [W1 W2]. pose proof (i_obj _ _ H _ _ L ltac:(discriminate)) as [O1 O2 O3 O4].
  assert (set_pending (pending s ++ [(id, x, d)]) (put id (set_active x d true o) s) = upd id (set_active x d true o) (pending s ++ [(id, x, d)]) [] s) as -> by (unfold upd, put; pstate; now rewrite app_nil_r).
  assert (~ In (id, x, d) (pending s)) as Nin by (rewrite <- W1, Ea; discriminate).
  apply (inv_restore id).
  - eapply upd_inv; [now apply inv_weaken|exact L| | |exact W2|apply quiet_nil].
    + apply NoDup_app_disj; [apply (i_nodup _ _ H)|repeat constructor; auto|]. intros a Ha [<-|[]]. contradiction.
    + intros j y e. rewrite in_app_iff. destruct (N.eq_dec j id) as [->|Ne].
      * rewrite <- W1. destruct x, y, d, e; cbn; intuition (try congruence; auto).
      * cbn [In]. intuition congruence.
  - intros o' L'. cbn [upd objects] in L'. rewrite (lookup_replace_same _ _ _ _ L) in L'. inversion L'; subst o'. constructor; cbn [upd sessions posted set_active stack_on lower_open upper_open app_on upper_rx upper_tx]; auto.
    intros Hs Ha. destruct (O4 Hs Ha) as [X1 [X2 X3]]. destruct x; [auto|]. rewrite Hx in Ha by reflexivity. discriminate.
Qed.

Lemma upd_lookup : forall id o o0 P l s, lookup id (objects s) = Some o0 -> lookup id (objects (upd id o P l s)) = Some o.
Proof. intros. cbn. eapply lookup_replace_same. eassumption. Qed.
Lemma upd_upd : forall id a b P Q l m s, upd id a P l (upd id b Q m s) = upd id a P (m ++ l) s.
Proof. intros. unfold upd. cbn. now rewrite replace_replace, app_assoc. Qed.

Lemma completed_case : forall id x d ok s, pinv s -> In (id, x, d) (pending s) ->
  let e := Completed id x d ok in
  (exists s', step s e = Good s' /\ pinv s' /\ ~ hazard s e) \/ ((exists w, step s e = Bad w /\ w <> TooDeep) /\ hazard s e).
Proof.
  intros id x d ok s H Hp e. subst e. cbn [step]. rewrite (proj2 (op_in _ _) Hp). destruct (i_pend _ _ H _ _ _ Hp) as [o L].
  unfold completed, with_session. change (objects (set_pending (remove_op (id, x, d) (pending s)) s)) with (objects s). rewrite L.
  pose proof (i_weak _ _ H _ _ L) as [W1 W2]. pose proof (i_obj _ _ H _ _ L ltac:(discriminate)) as [O1 O2 O3 O4].
  set (o1 := set_active x d false o). set (P := remove_op (id, x, d) (pending s)).
  assert (put id o1 (set_pending P s) = upd id o1 P [] s) as -> by (unfold upd, put; pstate; now rewrite app_nil_r).
  assert (NoDup P) as NdP by (apply NoDup_remove_op, (i_nodup _ _ H)).
  assert (forall j y e, In (j, y, e) P <-> (j = id /\ is_active y e o1 = true) \/ (j <> id /\ In (j, y, e) (pending s))) as HP.
  { intros j y e. subst P. rewrite In_remove_op by apply (i_nodup _ _ H). destruct (N.eq_dec j id) as [->|Ne].
    - rewrite <- W1. subst o1. destruct x, y, d, e; cbn; intuition congruence.
    - intuition congruence. }
  assert (pinvx (Some id) (upd id o1 P [] s)) as H1 by (eapply upd_inv; [now apply inv_weaken|exact L|exact NdP|exact HP|exact W2|apply quiet_nil]).
  assert (pinv (upd id o1 P [] s)) as H2.
  { apply (inv_restore id); [exact H1|]. intros o' L'. rewrite (upd_lookup _ _ _ _ _ _ L) in L'. inversion L'; subst o'. subst o1. constructor; cbn [upd sessions posted set_active stack_on lower_open upper_open app_on upper_rx upper_tx]; auto.
    intros Hs Ha. destruct (O4 Hs Ha) as [X1 [X2 X3]]. destruct x, d; auto. }
  pose proof (upd_lookup id o1 o P [] s L) as L1.
  destruct ok.
  { left. eexists. split; [reflexivity|]. split; [exact H2|]. destruct x; cbn; auto. }
  destruct (is_open x o) eqn:Eo.
  2:{ left. eexists. split; [reflexivity|]. split; [exact H2|]. destruct x; cbn; auto. intros [_ [[o' [L' A']] _]]. rewrite L in L'. inversion L'; subst o'.
      specialize (W2 A'). destruct (O1 W2) as [X _]. cbn in Eo. congruence. }
  erewrite try_close_spec by exact L1. cbn [pbind].
  set (o2 := set_open x false o1).
  match goal with |- context [match x with Lower => close_stack _ _ ?u | Upper => _ end] => assert (u = upd id o2 P [PClosed id x] s) as ->;
    [unfold upd; cbn [objects sessions posted locals pending next_id max_sessions accepting connecting plog]; rewrite replace_replace, app_nil_r; replace (is_open x o1) with true by (now destruct x); reflexivity|] end.
  assert (pinvx (Some id) (upd id o2 P [PClosed id x] s)) as H3.
  { eapply upd_inv; [now apply inv_weaken|exact L|exact NdP| |destruct x; exact W2|apply quiet_closed]. intros j y e. rewrite HP. subst o2. destruct x, y, e; reflexivity. }
  pose proof (upd_lookup id o2 o P [PClosed id x] s L) as L2. pose proof (sess_nodup _ _ H) as Nd.
  destruct x.
  - (* the protocol side *)
    destruct (stack_on o) eqn:Es.
    2:{ (* the stack is closed already: lower socket is closed *) cbn in Eo. rewrite O2 in Eo by reflexivity. discriminate. }
    destruct (O1 eq_refl) as [X1 [X2 X3]]. assert (~ In id (posted s)) as Np by (intros F; now destruct (i_post _ _ H _ F)).
    destruct (app_on o) eqn:Ea.
    + rewrite (close_stack_on id o2) by (try assumption; apply (i_locals _ _ H)).
      assert (is_shutdown o2 = true <-> ~ others id Lower d s) as Hsd.
      { rewrite is_shutdown_spec. split.
        - intros F [y [e [Ne Hin]]]. specialize (F y e). assert (In (id, y, e) P) as Hin2 by (subst P; apply In_remove_op; [apply (i_nodup _ _ H)|split; [assumption|congruence]]).
          apply HP in Hin2 as [[_ A2]|[A2 _]]; [|now contradiction A2]. subst o2. destruct y, e; cbn in *; congruence.
        - intros F y e. destruct (is_active y e o2) eqn:A2; [|reflexivity]. exfalso. apply F. exists y, e.
          assert (In (id, y, e) P) as Hin by (apply HP; left; split; [reflexivity|]; subst o2; destruct y, e; assumption).
          subst P. apply In_remove_op in Hin as [Hin Ne]; [|apply (i_nodup _ _ H)]. split; [congruence|assumption]. }
      destruct (is_shutdown o2) eqn:Esd.
      * right. split; [exists Destroyed; split; [reflexivity|discriminate]|]. cbn. split; [assumption|]. split; [exists o; auto|]. now apply Hsd.
      * left. eexists. split; [reflexivity|]. split.
        -- apply dropped_inv; [|eapply upd_lookup; exact L2|exact X3].
           eapply upd_inv; [exact H3|exact L2|exact NdP| |cbn; discriminate|].
           ++ intros j y e. replace (is_active y e (off (set_stack_on false o2))) with (is_active y e o2) by (destruct y, e; reflexivity). cbn [upd pending]. rewrite HP. subst o2. replace (is_active y e (set_open Lower false o1)) with (is_active y e o1) by (destruct y, e; reflexivity). intuition.
           ++ destruct (upper_open o2); [apply quiet_closed|apply quiet_nil].
        -- cbn. intros [_ [_ F]]. apply Hsd in F. discriminate.
    + rewrite (close_stack_before _ id o2) by assumption. left. eexists. split; [reflexivity|]. split.
      * cbn [upd pending]. apply (inv_restore id).
        -- eapply upd_inv; [exact H3|exact L2|exact NdP| |cbn; subst o2 o1; cbn; congruence|apply quiet_nil].
           intros j y e. replace (is_active y e (set_stack_on false o2)) with (is_active y e o1) by (subst o2; destruct y, e; reflexivity). cbn [upd pending]. rewrite HP. intuition.
        -- intros o' L'. rewrite (upd_lookup _ _ _ _ _ _ L2) in L'. inversion L'; subst o'. subst o2 o1.
           constructor; cbn [upd sessions posted set_active set_open set_stack_on stack_on lower_open upper_open app_on upper_rx upper_tx]; auto; try discriminate.
      * cbn. intros [_ [[o' [L' A']] _]]. rewrite L in L'. inversion L'; subst o'. congruence.
  - (* the application side *)
    left. destruct (in_dec N.eq_dec id (sessions s)) as [Hi|Hi].
    + unfold error_handler. rewrite (error_spec _ id _ o2) by assumption. eexists. split; [reflexivity|]. split; [now apply dropped_inv|cbn; auto].
    + unfold error_handler. rewrite error_absent by assumption. eexists. split; [reflexivity|]. split; [|cbn; auto].
      apply (inv_restore id); [exact H3|]. intros o' L'. rewrite L2 in L'. inversion L'; subst o'. subst o2 o1.
      constructor; cbn [upd sessions posted set_active set_open stack_on lower_open upper_open app_on]; auto.
      * intros F. destruct (O1 F) as [_ [_ F3]]. contradiction.
      * intros F. contradiction.
Qed.

(** Making room *)
Definition evicted (id : N) (o : psess) (s : proxy) : proxy :=
  {| objects := if is_shutdown o then filter (fun p => negb (fst p =? id)%N) (objects s) else replace id (shut o) (objects s);
     sessions := remove1 id (sessions s); posted := if is_shutdown o then posted s else posted s ++ [id]; locals := locals s; pending := pending s; next_id := next_id s;
     max_sessions := max_sessions s; accepting := accepting s; connecting := connecting s;
     plog := plog s ++ shut_log id o ++ [PRemoved id] ++ if is_shutdown o then [PDestroyed id] else [] |}.

Lemma make_room_before : forall s id r o, pinv s -> N.of_nat (length (sessions s)) = max_sessions s -> sessions s = id :: r -> lookup id (objects s) = Some o ->
  app_on o = false -> make_room s = Good (evicted id o s) /\ pinv (evicted id o s).
Proof.
  intros s id r o H Hf Hs L A. assert (In id (sessions s)) as Hi by (rewrite Hs; now left). split.
  - unfold make_room. rewrite Hf, N.eqb_refl, Hs. rewrite (shutdown_spec _ _ _ o L) by (rewrite A, andb_false_r; discriminate). cbn [pbind].
    unfold after_shut. pstate. rewrite (proj2 (mem_In _ _) Hi). unfold release. pstate.
    assert (mem id (remove1 id (sessions s)) = false) as -> by (apply mem_false; rewrite In_remove1_nodup by apply (sess_nodup _ _ H); intros [_ F]; now apply F).
    assert (mem id (posted s) = false) as Np by (apply mem_false; intros F; now destruct (i_post _ _ H _ F)).
    rewrite (i_locals _ _ H). cbn [mem existsb orb]. rewrite orb_false_r. unfold evicted. rewrite (i_locals _ _ H). destruct (is_shutdown o).
    + rewrite Np. pstate. rewrite filter_replace, <- !app_assoc. reflexivity.
    + rewrite mem_app. cbn [mem existsb]. rewrite N.eqb_refl, orb_true_r. rewrite app_nil_r, <- !app_assoc. reflexivity.
  - eapply (removal_inv id o s); try reflexivity; try assumption; [now apply inv_weaken|]. right. reflexivity.
Qed.

Lemma make_room_after : forall s id r, pinv s -> N.of_nat (length (sessions s)) = max_sessions s -> sessions s = id :: r -> established s id ->
  exists w, make_room s = Bad w /\ w <> TooDeep.
Proof.
  intros s id r H Hf Hs [o [L A]]. assert (In id (sessions s)) as Hi by (rewrite Hs; now left). pose proof (i_weak _ _ H _ _ L) as [_ W2].
  pose proof (i_obj _ _ H _ _ L ltac:(discriminate)) as [O1 O2 O3 O4]. specialize (W2 A).
  unfold make_room. rewrite Hf, N.eqb_refl, Hs. unfold shutdown. rewrite (try_close_spec _ _ _ _ L). cbn [pbind].
  match goal with |- context [close_stack _ _ ?u] => set (s1 := u) end.
  assert (lookup id (objects s1) = Some (set_open Lower false o)) as L1 by (subst s1; cbn; eapply lookup_replace_same; exact L).
  rewrite (close_stack_on id _ s1 L1) by (try assumption; try apply (sess_nodup _ _ H); try apply (i_locals _ _ H); intros F; now destruct (i_post _ _ H _ F)).
  destruct (is_shutdown (set_open Lower false o)) eqn:Es; cbn [pbind]; [exists Destroyed; split; [reflexivity|discriminate]|].
  unfold check_for_close, with_session. rewrite dropped_lookup by (eapply upd_lookup; exact L1).
  change (is_shutdown (off (set_stack_on false (set_open Lower false o)))) with (is_shutdown (set_open Lower false o)). rewrite Es. cbn [andb].
  set (s2 := dropped _ _ _). assert (mem id (sessions s2) = false) as M.
  { apply mem_false. subst s2. cbn. rewrite In_remove1_nodup by apply (sess_nodup _ _ H). intros [_ F]. now apply F. }
  exists BadIterator. split; [|discriminate]. destruct (is_shutdown _); cbn [pbind]; unfold set_posted; cbn [sessions]; now rewrite M.
Qed.

Lemma set_connecting_inv : forall n s, pinv s -> pinv (set_connecting n s).
Proof. intros n s [A B C D E F G I J K]. constructor; auto; [destruct A; constructor; auto|intros; destruct (E _ _ H); constructor; auto|intros; destruct (F _ _ H H0); constructor; auto]. Qed.
Lemma set_accepting_inv : forall n s, pinv s -> pinv (set_accepting n s).
Proof. intros n s [A B C D E F G I J K]. constructor; auto; [destruct A; constructor; auto|intros; destruct (E _ _ H); constructor; auto|intros; destruct (F _ _ H H0); constructor; auto]. Qed.
Lemma refused_inv : forall s, pinv s -> pinv (observe PRefused s).
Proof.
  intros s [A B C D E F G I J K]. constructor; auto; [|intros; destruct (E _ _ H); constructor; auto|intros; destruct (F _ _ H H0); constructor; auto].
  apply (linv_quiet s _ [PRefused]); auto. repeat split.
Qed.

(** The proxy after a new session was added *)
Definition started : psess :=
  {| lower_open := true; upper_open := true; lower_rx := true; lower_tx := false; upper_rx := false; upper_tx := false; stack_on := true; app_on := false |}.
Definition with_new (s : proxy) : proxy :=
  {| objects := objects s ++ [(next_id s, started)]; sessions := sessions s ++ [next_id s]; posted := posted s; locals := locals s;
     pending := pending s ++ [(next_id s, Lower, Rx)]; next_id := next_id s + 1; max_sessions := max_sessions s; accepting := accepting s;
     connecting := connecting s; plog := plog s ++ [PAdded (next_id s)] |}.

Lemma replace_app_None : forall id o l m, lookup id l = None -> replace id o (l ++ m) = l ++ replace id o m.
Proof. intros id o l m. induction l as [|[i x] r IH]; cbn; [reflexivity|]. destruct (i =? id)%N; [discriminate|]. intros H. now rewrite IH. Qed.

Lemma connected_spec : forall s s1, pinv s1 -> make_room s = Good s1 -> connected s = Good (with_new s1).
Proof.
  intros s s1 H E. unfold connected. rewrite E. cbn [pbind].
  assert (lookup (next_id s1) (objects s1) = None) as Ln.
  { destruct (lookup (next_id s1) (objects s1)) eqn:X; [|reflexivity]. apply (obj_lt _ _ _ _ H) in X. lia. }
  unfold start_operation, with_session. pstate. rewrite lookup_app, Ln. cbn [lookup]. rewrite N.eqb_refl. cbn [is_open is_active fresh_session negb orb lower_open lower_rx pbind].
  unfold put. pstate. rewrite replace_app_None by assumption. cbn [replace]. rewrite N.eqb_refl. rewrite lookup_app, Ln. cbn [lookup]. rewrite N.eqb_refl. cbn [pbind].
  rewrite replace_app_None by assumption. cbn [replace]. rewrite N.eqb_refl. rewrite insert_last by (intros; now apply (sess_lt _ _ _ H)). reflexivity.
Qed.

Lemma with_new_inv : forall s, pinv s -> (N.of_nat (length (sessions s)) < max_sessions s)%N -> pinv (with_new s).
Proof.
  intros s H Hlen. pose proof (fun id o => obj_lt _ _ id o H) as OL. pose proof (fun id => sess_lt _ _ id H) as SL. destruct H as [A B C D E F G I J K].
  assert (lookup (next_id s) (objects s) = None) as Ln by (destruct (lookup (next_id s) (objects s)) eqn:X; [apply OL in X; lia|reflexivity]).
  assert (forall j, lookup j (objects (with_new s)) = if (j =? next_id s)%N then Some started else lookup j (objects s)) as LK.
  { intros j. cbn. rewrite lookup_app. destruct (N.eqb_spec j (next_id s)) as [->|Ne]; [rewrite Ln; cbn; now rewrite N.eqb_refl|].
    destruct (lookup j (objects s)); [reflexivity|]. cbn. destruct (N.eqb_spec (next_id s) j); [congruence|reflexivity]. }
  assert (forall j x d, In (j, x, d) (pending s) -> (j < next_id s)%N) as PL by (intros j x d Hj; destruct (I _ _ _ Hj) as [o Lo]; eauto).
  constructor.
  - destruct A as [A1 A2 A3 A4 A5 A7 A6].
    assert (removed (plog s ++ [PAdded (next_id s)]) = removed (plog s)) as ER by (rewrite removed_app; apply app_nil_r).
    assert (destroyed (plog s ++ [PAdded (next_id s)]) = destroyed (plog s)) as ED by (rewrite destroyed_app; apply app_nil_r).
    assert (added (plog s ++ [PAdded (next_id s)]) = ids (next_id s) ++ [next_id s]) as EA by (rewrite added_app, A1; reflexivity).
    constructor; cbn [with_new plog next_id sessions objects]; rewrite ?EA, ?ER, ?ED, ?ids_S; auto.
    + unfold current. rewrite EA, ER, filter_app, A2. unfold current. rewrite A1. f_equal. cbn.
      assert (existsb (N.eqb (next_id s)) (removed (plog s)) = false) as ->; [|reflexivity]. apply mem_false. intros X. apply A4 in X. lia.
    + intros i Hi. apply A4 in Hi. lia.
    + rewrite map_app, filter_app, A6. f_equal. cbn. assert (existsb (N.eqb (next_id s)) (destroyed (plog s)) = false) as ->; [|reflexivity].
      apply mem_false. intros X. apply A7, A4 in X. lia.
  - exact B.
  - intros j Hj. rewrite LK. destruct (N.eqb_spec j (next_id s)); [eauto|]. cbn in Hj. apply in_app_iff in Hj as [Hj|[<-|[]]]; [auto|contradiction].
  - intros j Hj. rewrite LK. destruct (D j Hj) as [[o D1] D2]. pose proof (OL _ _ D1). destruct (N.eqb_spec j (next_id s)); [lia|]. split; [eauto|].
    cbn. rewrite in_app_iff. intros [X|[X|[]]]; [contradiction|lia].
  - intros j o Lj. rewrite LK in Lj. destruct (N.eqb_spec j (next_id s)) as [->|Ne].
    + inversion Lj; subst o. constructor; [|cbn; discriminate]. intros x d. cbn [with_new pending]. rewrite in_app_iff. cbn [In]. split.
      * intros X. right. left. destruct x, d; try discriminate. reflexivity.
      * intros [X|[X|[]]]; [apply PL in X; lia|inversion X; reflexivity].
    + destruct (E _ _ Lj) as [E1 E2]. constructor; [|assumption]. intros x d. cbn [with_new pending]. rewrite in_app_iff, E1. cbn [In]. intuition congruence.
  - intros j o Lj _. rewrite LK in Lj. destruct (N.eqb_spec j (next_id s)) as [->|Ne].
    + inversion Lj; subst o. constructor; cbn; auto; try discriminate. intros _. repeat split; auto. all: try (apply in_app_iff; right; now left). left. apply in_app_iff. right. now left.
    + destruct (F _ _ Lj ltac:(discriminate)) as [F1 F2 F3 F4]. constructor; cbn [with_new sessions posted]; auto.
      * intros X. destruct (F1 X) as [X1 [X2 X3]]. repeat split; auto. apply in_app_iff. now left.
      * destruct F3; [left; apply in_app_iff; now left|now right].
      * intros X. apply in_app_iff in X as [X|[X|[]]]; [auto|congruence].
  - cbn. apply NoDup_app_disj; [assumption|repeat constructor; auto|]. intros [[j x] d] Hj [X|[]]. inversion X; subst. apply PL in Hj. lia.
  - intros j x d Hj. rewrite LK. destruct (N.eqb_spec j (next_id s)); [eauto|]. cbn in Hj. apply in_app_iff in Hj as [Hj|[Hj|[]]]; [eauto|congruence].
  - exact J.
  - cbn. rewrite app_length. cbn. lia.
Qed.

Lemma connected_case : forall s, pinv s ->
  (exists s', step s Connected = Good s' /\ pinv s' /\ ~ hazard s Connected) \/ ((exists w, step s Connected = Bad w /\ w <> TooDeep) /\ hazard s Connected).
Proof.
  intros s H. cbn [step hazard]. destruct (connecting s) as [|n] eqn:Ec.
  { left. exists s. split; [reflexivity|]. split; [exact H|]. intros [F _]. now apply F. }
  set (s0 := set_connecting n s). assert (pinv s0) as H0 by now apply set_connecting_inv.
  assert (sessions s0 = sessions s) as Es by reflexivity. assert (max_sessions s0 = max_sessions s) as Em by reflexivity. assert (objects s0 = objects s) as Eo by reflexivity.
  destruct (N.eq_dec (N.of_nat (length (sessions s))) (max_sessions s)) as [Hf|Hf].
  - destruct (sessions s) as [|id r] eqn:Hs; [pose proof (i_max _ _ H); cbn in Hf; lia|].
    destruct (i_sess _ _ H id ltac:(rewrite Hs; now left)) as [o L].
    destruct (app_on o) eqn:A.
    + right. assert (established s id) as Est by (exists o; auto). split.
      * destruct (make_room_after s0 id r H0 ltac:(rewrite Es; exact Hf) Es ltac:(exists o; auto)) as [w [E Ew]]. exists w. split; [|assumption]. unfold connected. now rewrite E.
      * split; [discriminate|]. split; [exact Hf|]. exists id, r. auto.
    + left. destruct (make_room_before s0 id r o H0 ltac:(rewrite Es; exact Hf) Es L A) as [E Hi].
      rewrite (connected_spec _ _ Hi E). eexists. split; [reflexivity|]. split.
      * apply with_new_inv; [exact Hi|]. cbn [evicted sessions max_sessions]. rewrite Es. cbn [remove1]. rewrite N.eqb_refl. rewrite Em. cbn [length] in Hf. lia.
      * intros [_ [_ [i [r' [X [o' [L' A']]]]]]]. inversion X; subst. rewrite L in L'. inversion L'; subst. congruence.
  - left. assert (make_room s0 = Good s0) as E by (unfold make_room; rewrite Es, Em; apply N.eqb_neq in Hf; now rewrite Hf).
    rewrite (connected_spec _ _ H0 E). eexists. split; [reflexivity|]. split.
    + apply with_new_inv; [exact H0|]. pose proof (i_len _ _ H). rewrite Es, Em. lia.
    + intros [_ [F _]]. contradiction.
Qed.

(** Posted checks *)
Lemma remove1_other : forall id j l, j <> id -> In j (remove1 id l) <-> In j l.
Proof.
  intros id j l Ne. induction l as [|i r IH]; cbn; [tauto|]. destruct (N.eqb_spec i id) as [->|]; [|cbn; now rewrite IH]. split; [now right|intros [X|X]; [congruence|assumption]].
Qed.

Lemma checks_case : forall id s, pinv s -> exists s', step s (Checks id) = Good s' /\ pinv s'.
Proof.
  intros id s H. cbn [step]. destruct (mem id (posted s)) eqn:Hm; [|eauto]. apply mem_In in Hm. destruct (i_post _ _ H _ Hm) as [[o L] Ns].
  unfold check_for_close, with_session. pstate. rewrite L. pose proof (i_locals _ _ H) as Nl. pose proof (proj2 (mem_false _ _) Ns) as Ms.
  pose proof H as [A B C D E F G I J K].
  destruct (is_shutdown o) eqn:Es; cbn [pbind locals remove1]; rewrite N.eqb_refl, Nl; unfold release; pstate; rewrite Ms; cbn [mem existsb orb]; rewrite ?orb_false_r.
  - fold (mem id (remove1 id (posted s))). destruct (mem id (remove1 id (posted s))) eqn:Hm2; eexists; (split; [reflexivity|]).
    + constructor; cbn [objects sessions posted locals pending next_id max_sessions plog]; auto.
      * destruct A; constructor; auto.
      * intros j Hj. apply In_remove1 in Hj. auto.
      * intros j x Lj. destruct (E _ _ Lj); constructor; auto.
      * intros j x Lj Hn. destruct (F _ _ Lj Hn) as [F1 F2 F3 F4]. constructor; cbn [sessions posted]; auto. destruct F3 as [F3|F3]; [now left|right].
        destruct (N.eq_dec j id) as [->|Ne]; [now apply mem_In|now apply remove1_other].
    + (* destroyed *)
      assert (forall j, lookup j (filter (fun p : N * psess => negb (fst p =? id)%N) (objects s)) = if (j =? id)%N then None else lookup j (objects s)) as LK by (intros; apply lookup_filter).
      constructor; cbn [objects sessions posted locals pending next_id max_sessions plog]; auto.
      * pose proof (obj_lt _ _ _ _ H L) as Lt. destruct A as [A1 A2 A3 A4 A5 A7 A6].
        assert (~ In id (destroyed (plog s))) as Nd.
        { intros X. apply lookup_In in L. rewrite A6 in L. apply filter_In in L as [_ L]. apply negb_true_iff in L. change (mem id (destroyed (plog s)) = false) in L. apply mem_false in L. contradiction. }
        constructor; cbn [plog next_id sessions objects]; rewrite ?added_app, ?removed_app, ?destroyed_app; cbn [added removed destroyed flat_map app]; rewrite ?app_nil_r; auto.
        -- rewrite A2. unfold current. rewrite added_app, removed_app. cbn [added removed flat_map app]. now rewrite !app_nil_r.
        -- apply NoDup_app_disj; [assumption|repeat constructor; auto|]. intros x Hx [<-|[]]. contradiction.
        -- intros i Hi. apply in_app_iff in Hi as [Hi|[<-|[]]]; [auto|]. (* it was removed from the map *)
           rewrite A2 in Ns. unfold current in Ns. rewrite filter_In, A1, In_ids in Ns. destruct (existsb (N.eqb id) (removed (plog s))) eqn:X; [now apply mem_In|]. exfalso. apply Ns. auto.
        -- rewrite keys_filter, A6, filter_comp. apply filter_ext. intros i. rewrite existsb_app. cbn [existsb]. rewrite orb_false_r. now rewrite negb_orb.
      * intros j Hj. rewrite LK. destruct (N.eqb_spec j id) as [->|]; [contradiction|auto].
      * intros j Hj. rewrite LK. destruct (N.eqb_spec j id) as [->|Ne]; [apply mem_false in Hm2; contradiction|]. apply remove1_other in Hj; [auto|assumption].
      * intros j x Lj. rewrite LK in Lj. destruct (N.eqb_spec j id); [discriminate|]. destruct (E _ _ Lj); constructor; auto.
      * intros j x Lj Hn. rewrite LK in Lj. destruct (N.eqb_spec j id) as [|Ne]; [discriminate|]. destruct (F _ _ Lj Hn) as [F1 F2 F3 F4]. constructor; cbn [sessions posted]; auto.
        destruct F3 as [F3|F3]; [now left|right]. now apply remove1_other.
      * intros j x d Hj. rewrite LK. destruct (N.eqb_spec j id) as [->|]; [|eauto]. exfalso. destruct (E _ _ L) as [E1 _]. apply E1 in Hj. rewrite is_shutdown_spec in Es. now rewrite Es in Hj.
  - assert (mem id (remove1 id (posted s) ++ [id]) = true) as M2 by (apply mem_In, in_app_iff; right; now left). unfold mem in M2 |- *. rewrite M2. eexists. split; [reflexivity|].
    constructor; cbn [objects sessions posted locals pending next_id max_sessions plog]; auto.
    + destruct A; constructor; auto.
    + intros j Hj. apply in_app_iff in Hj as [Hj|[<-|[]]]; [apply In_remove1 in Hj; auto|]. split; eauto.
    + intros j x Lj. destruct (E _ _ Lj); constructor; auto.
    + intros j x Lj Hn. destruct (F _ _ Lj Hn) as [F1 F2 F3 F4]. constructor; cbn [sessions posted]; auto. destruct F3 as [F3|F3]; [now left|right].
      apply in_app_iff. destruct (N.eq_dec j id) as [->|Ne]; [right; now left|left; now apply remove1_other].
Qed.

Lemma step_case : forall s e, pinv s ->
  (exists s', step s e = Good s' /\ pinv s' /\ ~ hazard s e) \/ ((exists w, step s e = Bad w /\ w <> TooDeep) /\ hazard s e).
Proof.
  intros s e H. destruct e as [| | | |id x d ok|id x d|id|id|id].
  - left. cbn [step hazard]. destruct (accepting s); eexists; (split; [reflexivity|]); split; auto using set_connecting_inv.
  - left. cbn [step hazard]. eexists; (split; [reflexivity|]); split; auto using set_accepting_inv.
  - now apply connected_case.
  - left. cbn [step hazard]. destruct (connecting s); eexists; (split; [reflexivity|]); split; auto. apply refused_inv. now apply set_connecting_inv.
  - destruct (existsb (op_eqb (id, x, d)) (pending s)) eqn:E; [apply completed_case; [exact H|now apply op_in]|].
    left. exists s. cbn [step]. rewrite E. split; [reflexivity|]. split; [exact H|]. assert (~ In (id, x, d) (pending s)) as Nin by (intros F; apply op_in in F; congruence).
    destruct x, ok; cbn; tauto.
  - left. cbn [step hazard]. destruct (lookup id (objects s)) as [o|] eqn:L; [|eauto]. destruct x.
    + destruct (start_inv id Lower d s o H L ltac:(discriminate) ltac:(auto)) as [s' [E Hs]]. eauto.
    + destruct (app_on o) eqn:A; [|eauto]. destruct (start_inv id Upper d s o H L ltac:(auto) ltac:(auto)) as [s' [E Hs]]. eauto.
  - left. cbn [step hazard]. destruct (lookup id (objects s)) as [o|] eqn:L; [|eauto]. destruct (stack_on o) eqn:S; cbn [andb]; [|eauto]. destruct (app_on o) eqn:A; cbn [negb]; [eauto|].
    pose proof (i_weak _ _ H _ _ L) as [W1 W2]. pose proof (i_obj _ _ H _ _ L ltac:(discriminate)) as [O1 O2 O3 O4].
    assert (put id (set_app_on true o) s = upd id (set_app_on true o) (pending s) [] s) as -> by (unfold upd, put; pstate; now rewrite app_nil_r).
    assert (pinv (upd id (set_app_on true o) (pending s) [] s)) as H1.
    { apply (inv_restore id).
      - eapply upd_inv; [now apply inv_weaken|exact L|apply (i_nodup _ _ H)| |intros _; exact S|apply quiet_nil]. eapply pend_same; [exact H|exact L|]. intros [] []; reflexivity.
      - intros o' L'. rewrite (upd_lookup _ _ _ _ _ _ L) in L'. inversion L'; subst o'. constructor; cbn [upd sessions posted set_app_on stack_on lower_open upper_open app_on]; auto; try discriminate. }
    destruct (start_inv id Upper Rx _ (set_app_on true o) H1 (upd_lookup _ _ _ _ _ _ L) ltac:(auto) ltac:(auto)) as [s' [E Hs]]. eauto.
  - left. cbn [step hazard]. destruct (lookup id (objects s)) as [o|] eqn:L; [|eauto]. destruct (stack_on o) eqn:S; [|eauto].
    pose proof (i_weak _ _ H _ _ L) as [W1 W2]. pose proof (i_obj _ _ H _ _ L ltac:(discriminate)) as [O1 O2 O3 O4]. destruct (O1 S) as [_ [_ Hi]].
    destruct (app_on o) eqn:A; [|unfold close_upper, with_session; rewrite L, A; eauto].
    rewrite (close_upper_app _ _ _ L A Hi (sess_nodup _ _ H)). eexists. split; [reflexivity|]. split; [|auto].
    apply dropped_inv; [|eapply upd_lookup; exact L|exact Hi].
    eapply upd_inv; [now apply inv_weaken|exact L|apply (i_nodup _ _ H)| |cbn; discriminate|destruct (upper_open o); [apply quiet_closed|apply quiet_nil]].
    eapply pend_same; [exact H|exact L|]. intros [] []; reflexivity.
  - left. destruct (checks_case id s H) as [s' [E Hs]]. cbn [hazard]. eauto.
Qed.

Lemma new_inv : forall max, pinv (new_proxy max).
Proof.
  intros max. constructor; cbn; try (intros; contradiction); try (intros; discriminate); auto; try constructor; try (intros; contradiction); auto; try constructor.
  - destruct (N.eqb_spec max 0); lia.
  - destruct (N.eqb_spec max 0); lia.
Qed.

Lemma steps_inv : forall es s s', pinv s -> steps s es = Good s' -> pinv s'.
Proof.
  induction es as [|e es IH]; cbn; intros s s' H E; [inversion E; now subst|].
  destruct (step_case s e H) as [[s1 [E1 [H1 _]]]|[[w [E1 _]] _]]; rewrite E1 in E; cbn [pbind] in E; [eauto|discriminate].
Qed.
Lemma reachable_inv : forall max s, reachable max s -> pinv s.
Proof. intros max s [es E]. eapply steps_inv; [apply new_inv|exact E]. Qed.

(** ** What a step leaves unchanged *)
Definition kept (s s' : proxy) : Prop :=
  max_sessions s' = max_sessions s /\ accepting s' = accepting s /\ connecting s' = connecting s /\ next_id s' = next_id s /\ exists l, plog s' = plog s ++ l /\ added l = [].
Lemma kept_refl : forall s, kept s s.
Proof. intros s. repeat split. exists []. now rewrite app_nil_r. Qed.
Lemma kept_trans : forall a b c, kept a b -> kept b c -> kept a c.
Proof.
  intros a b c [A1 [A2 [A3 [A4 [l [A5 A6]]]]]] [B1 [B2 [B3 [B4 [m [B5 B6]]]]]]. repeat split; try congruence. exists (l ++ m). rewrite B5, A5, app_assoc, added_app, A6, B6. auto.
Qed.
Lemma kept_upd : forall id o P l s, added l = [] -> kept s (upd id o P l s).
Proof. intros. repeat split. now exists l. Qed.
Lemma kept_same : forall s s', max_sessions s' = max_sessions s -> accepting s' = accepting s -> connecting s' = connecting s -> next_id s' = next_id s -> plog s' = plog s -> kept s s'.
Proof. intros. repeat split; auto. exists []. now rewrite app_nil_r. Qed.
Lemma kept_observe : forall s s' e, max_sessions s' = max_sessions s -> accepting s' = accepting s -> connecting s' = connecting s -> next_id s' = next_id s -> plog s' = plog s ++ [e] -> added [e] = [] -> kept s s'.
Proof. intros. repeat split; auto. now exists [e]. Qed.

Lemma kept_try_close : forall id x s s', try_close_socket id x s = Good s' -> kept s s'.
Proof.
  intros id x s s'. unfold try_close_socket, with_session. destruct (lookup id (objects s)) as [o|]; [|discriminate]. destruct (is_open x o); intros E; inversion E; [|apply kept_refl].
  eapply kept_observe; reflexivity.
Qed.
Lemma kept_start : forall id x d s s', start_operation id x d s = Good s' -> kept s s'.
Proof.
  intros id x d s s'. unfold start_operation, with_session. destruct (lookup id (objects s)) as [o|]; [|discriminate]. destruct (negb (is_open x o) || is_active x d o); intros E; inversion E; [apply kept_refl|].
  apply kept_same; reflexivity.
Qed.
Lemma kept_check : forall id s s', check_for_close id s = Good s' -> kept s s'.
Proof.
  intros id s s'. unfold check_for_close, with_session. destruct (lookup id (objects s)) as [o|]; [|discriminate]. destruct (is_shutdown o); intros E; inversion E; [apply kept_refl|apply kept_same; reflexivity].
Qed.
Lemma kept_release : forall id s, kept s (release id s).
Proof. intros id s. unfold release. destruct (_ || _); [apply kept_refl|eapply kept_observe; reflexivity]. Qed.
Lemma pbind_good : forall r f s, pbind r f = Good s -> exists s1, r = Good s1 /\ f s1 = Good s.
Proof. intros [s1|w] f s E; [eauto|discriminate]. Qed.

Section frames.
Variable h : N -> proxy -> pres.
Hypothesis kept_h : forall id s s', h id s = Good s' -> kept s s'.
Lemma kept_close_upper : forall id s s', close_upper h id s = Good s' -> kept s s'.
Proof.
  intros id s s'. unfold close_upper, with_session. destruct (lookup id (objects s)) as [o|]; [|discriminate]. destruct (app_on o); [|intros E; inversion E; apply kept_refl].
  intros E. apply pbind_good in E as [s1 [E1 E2]]. eapply kept_trans; [|eapply kept_trans; [eapply kept_try_close; exact E1|eapply kept_h; exact E2]]. apply kept_same; reflexivity.
Qed.
Lemma kept_close_stack : forall id s s', close_stack h id s = Good s' -> kept s s'.
Proof.
  intros id s s'. unfold close_stack. unfold with_session at 1. destruct (lookup id (objects s)) as [o|]; [|discriminate]. destruct (stack_on o); [|intros E; inversion E; apply kept_refl].
  intros E. apply pbind_good in E as [s1 [E1 E2]]. unfold with_session in E2. destruct (lookup id (objects s1)); [|discriminate]. inversion E2; subst s1.
  eapply kept_trans; [|eapply kept_close_upper; exact E1]. apply kept_same; reflexivity.
Qed.
Lemma kept_shutdown : forall id s s', shutdown h id s = Good s' -> kept s s'.
Proof.
  intros id s s' E. unfold shutdown in E. apply pbind_good in E as [s1 [E1 E]]. apply pbind_good in E as [s2 [E2 E3]].
  eapply kept_trans; [eapply kept_try_close; exact E1|]. eapply kept_trans; [eapply kept_close_stack; exact E2|eapply kept_check; exact E3].
Qed.
End frames.

Lemma kept_error : forall n id s s', on_session_error n id s = Good s' -> kept s s'.
Proof.
  induction n as [|n IH]; cbn [on_session_error]; intros id s s' E; [discriminate|]. destruct (mem id (sessions s)); [|inversion E; apply kept_refl].
  apply pbind_good in E as [s1 [E1 E2]]. inversion E2; subst s'. eapply kept_trans; [|apply kept_release]. eapply kept_trans; [|apply (kept_same s1); reflexivity].
  eapply kept_trans; [|eapply kept_shutdown; [exact IH|exact E1]]. eapply kept_observe; reflexivity.
Qed.

Definition attempts (s : proxy) (e : pin) (s' : proxy) : Prop :=
  match e with
  | Accepted => accepting s' = accepting s /\ plog s' = plog s /\ connecting s' = (if accepting s then S (connecting s) else connecting s)
  | AcceptFailed => accepting s' = false /\ plog s' = plog s /\ connecting s' = connecting s
  | Connected => accepting s' = accepting s /\ connecting s' = pred (connecting s) /\
      exists l, plog s' = plog s ++ l /\ added l = (match connecting s with O => [] | S _ => [next_id s] end) /\ next_id s' = (match connecting s with O => next_id s | S _ => next_id s + 1 end)%N
  | ConnectFailed => accepting s' = accepting s /\ connecting s' = pred (connecting s) /\ exists l, plog s' = plog s ++ l /\ added l = []
  | _ => kept s s'
  end.

Lemma step_attempts : forall s e s', step s e = Good s' -> attempts s e s' /\ max_sessions s' = max_sessions s.
Proof.
  assert (forall s s', kept s s' -> kept s s' /\ max_sessions s' = max_sessions s) as K by (intros s s' K; split; [exact K|apply K]).
  intros s e s' E. destruct e as [| | | |id x d ok|id x d|id|id|id]; cbn [step attempts] in *.
  - destruct (accepting s) eqn:A; inversion E; subst; cbn; repeat split; auto.
  - inversion E; subst; cbn; repeat split; auto.
  - destruct (connecting s) as [|n] eqn:C.
    + inversion E; subst. cbn. repeat split; auto. exists []. now rewrite app_nil_r.
    + unfold connected in E. apply pbind_good in E as [s1 [E1 E]]. apply pbind_good in E as [s4 [E4 E]].
      assert (kept (set_connecting n s) s1) as K1.
      { unfold make_room in E1. destruct (_ =? _)%N; [|inversion E1; apply kept_refl]. destruct (sessions (set_connecting n s)) as [|o r]; [discriminate|].
        apply pbind_good in E1 as [s2 [E2 E3]]. destruct (mem o (sessions s2)); [|discriminate]. inversion E3; subst s1.
        eapply kept_trans; [eapply kept_shutdown; [apply kept_error|exact E2]|]. eapply kept_trans; [|apply kept_release]. eapply kept_observe; reflexivity. }
      apply kept_start in E4. unfold with_session in E. destruct (lookup (next_id s1) (objects s4)) as [o|]; [|discriminate]. inversion E; subst s'.
      destruct K1 as [A1 [A2 [A3 [A4 [l [A5 A6]]]]]]. destruct E4 as [B1 [B2 [B3 [B4 [m [B5 B6]]]]]]. cbn in *. repeat split; try congruence.
      exists (l ++ [PAdded (next_id s1)] ++ m). rewrite B5, A5. rewrite !added_app, A6, B6. cbn. rewrite A4. rewrite <- !app_assoc. repeat split; auto. now rewrite B4, A4.
  - destruct (connecting s) as [|n] eqn:C; inversion E; subst; cbn; repeat split; auto; [exists []; now rewrite app_nil_r|exists [PRefused]; auto].
  - apply K. destruct (existsb _ _); [|inversion E; apply kept_refl]. unfold completed, with_session in E. change (objects (set_pending (remove_op (id, x, d) (pending s)) s)) with (objects s) in E.
    destruct (lookup id (objects s)) as [o|]; [|discriminate].
    assert (kept s (put id (set_active x d false o) (set_pending (remove_op (id, x, d) (pending s)) s))) as K0 by (apply kept_same; reflexivity).
    destruct ok; [inversion E; subst; exact K0|]. destruct (is_open x o); [|inversion E; subst; exact K0].
    apply pbind_good in E as [s1 [E1 E2]]. eapply kept_trans; [exact K0|]. eapply kept_trans; [eapply kept_try_close; exact E1|].
    destruct x; [eapply kept_close_stack; [apply kept_error|exact E2]|eapply kept_error; exact E2].
  - apply K. destruct (lookup id (objects s)) as [o|]; [|inversion E; apply kept_refl]. destruct x; [eapply kept_start; exact E|]. destruct (app_on o); [eapply kept_start; exact E|inversion E; apply kept_refl].
  - apply K. destruct (lookup id (objects s)) as [o|]; [|inversion E; apply kept_refl]. destruct (stack_on o && negb (app_on o)); [|inversion E; apply kept_refl].
    eapply kept_trans; [|eapply kept_start; exact E]. apply kept_same; reflexivity.
  - apply K. destruct (lookup id (objects s)) as [o|]; [|inversion E; apply kept_refl]. destruct (stack_on o); [|inversion E; apply kept_refl]. eapply kept_close_upper; [apply kept_error|exact E].
  - apply K. destruct (mem id (posted s)); [|inversion E; apply kept_refl]. apply pbind_good in E as [s1 [E1 E2]]. inversion E2; subst s'.
    eapply kept_trans; [|apply kept_release]. eapply kept_trans; [|apply (kept_same s1); reflexivity]. eapply kept_trans; [|eapply kept_check; exact E1]. apply kept_same; reflexivity.
Qed.

Lemma reachable_max : forall max s, reachable max s -> max_sessions s = if (max =? 0)%N then 1%N else max.
Proof.
  intros max s [es E]. assert (forall es s0 s1, steps s0 es = Good s1 -> max_sessions s1 = max_sessions s0) as G.
  { clear. induction es as [|e es IH]; cbn; intros s0 s1 E; [inversion E; now subst|]. apply pbind_good in E as [s2 [E1 E2]]. apply IH in E2. apply step_attempts in E1. destruct E1. congruence. }
  apply G in E. exact E.
Qed.

(** ** Other sessions are left alone *)
Definition apart (id : N) (s s' : proxy) : Prop :=
  lookup id (objects s') = lookup id (objects s) /\ (In id (sessions s') <-> In id (sessions s)) /\ (forall x d, In (id, x, d) (pending s') <-> In (id, x, d) (pending s)) /\
  (In id (posted s') <-> In id (posted s)).
Lemma apart_refl : forall id s, apart id s s. Proof. intros. repeat split; auto. Qed.
Lemma apart_trans : forall id a b c, apart id a b -> apart id b c -> apart id a c.
Proof. intros id a b c [A1 [A2 [A3 A4]]] [B1 [B2 [B3 B4]]]. split; [congruence|]. split; [now rewrite B2|]. split; [|now rewrite B4]. intros x d. now rewrite B3. Qed.
Lemma apart_put : forall id j o s s', j <> id -> objects s' = replace j o (objects s) -> sessions s' = sessions s -> pending s' = pending s -> posted s' = posted s -> apart id s s'.
Proof. intros id j o s s' Ne E1 E2 E3 E4. unfold apart. rewrite E1, E2, E3, E4, lookup_replace. destruct (N.eqb_spec id j); [congruence|]. repeat split; auto. Qed.
Lemma apart_same : forall id s s', objects s' = objects s -> sessions s' = sessions s -> pending s' = pending s -> posted s' = posted s -> apart id s s'.
Proof. intros id s s' E1 E2 E3 E4. unfold apart. rewrite E1, E2, E3, E4. repeat split; auto. Qed.
Lemma apart_try_close : forall id j x s s', j <> id -> try_close_socket j x s = Good s' -> apart id s s'.
Proof.
  intros id j x s s' Ne. unfold try_close_socket, with_session. destruct (lookup j (objects s)) as [o|]; [|discriminate]. destruct (is_open x o); intros E; inversion E; [|apply apart_refl].
  eapply apart_put; [exact Ne|reflexivity..].
Qed.
Lemma apart_start : forall id j x d s s', j <> id -> start_operation j x d s = Good s' -> apart id s s'.
Proof.
  intros id j x d s s' Ne. unfold start_operation, with_session. destruct (lookup j (objects s)) as [o|]; [|discriminate]. destruct (negb (is_open x o) || is_active x d o); intros E; inversion E; [apply apart_refl|].
  unfold apart, put. pstate. rewrite lookup_replace. destruct (N.eqb_spec id j); [congruence|]. split; [reflexivity|]. split; [tauto|]. split; [|tauto].
  intros y e. rewrite in_app_iff. split; [intros [X|[X|[]]]; [assumption|congruence]|now left].
Qed.
Lemma apart_check : forall id j s s', j <> id -> check_for_close j s = Good s' -> apart id s s'.
Proof.
  intros id j s s' Ne. unfold check_for_close, with_session. destruct (lookup j (objects s)) as [o|]; [|discriminate]. destruct (is_shutdown o); intros E; inversion E; [apply apart_refl|].
  unfold apart. pstate. repeat split; auto; rewrite in_app_iff; [intros [X|[X|[]]]; [assumption|congruence]|now left].
Qed.
Lemma apart_release : forall id j s, j <> id -> apart id s (release j s).
Proof.
  intros id j s Ne. unfold release. destruct (_ || _); [apply apart_refl|]. unfold apart. pstate. rewrite lookup_filter. destruct (N.eqb_spec id j); [congruence|]. repeat split; auto.
Qed.

Section apart.
Variable id : N.
Variable h : N -> proxy -> pres.
Hypothesis apart_h : forall j s s', j <> id -> h j s = Good s' -> apart id s s'.
Lemma apart_close_upper : forall j s s', j <> id -> close_upper h j s = Good s' -> apart id s s'.
Proof.
  intros j s s' Ne. unfold close_upper, with_session. destruct (lookup j (objects s)) as [o|]; [|discriminate]. destruct (app_on o); [|intros E; inversion E; apply apart_refl].
  intros E. apply pbind_good in E as [s1 [E1 E2]]. eapply apart_trans; [|eapply apart_trans; [eapply apart_try_close; [exact Ne|exact E1]|eapply apart_h; [exact Ne|exact E2]]]. eapply apart_put; [exact Ne|reflexivity..].
Qed.
Lemma apart_close_stack : forall j s s', j <> id -> close_stack h j s = Good s' -> apart id s s'.
Proof.
  intros j s s' Ne. unfold close_stack. unfold with_session at 1. destruct (lookup j (objects s)) as [o|]; [|discriminate]. destruct (stack_on o); [|intros E; inversion E; apply apart_refl].
  intros E. apply pbind_good in E as [s1 [E1 E2]]. unfold with_session in E2. destruct (lookup j (objects s1)); [|discriminate]. inversion E2; subst s1.
  eapply apart_trans; [|eapply apart_close_upper; [exact Ne|exact E1]]. eapply apart_put; [exact Ne|reflexivity..].
Qed.
Lemma apart_shutdown : forall j s s', j <> id -> shutdown h j s = Good s' -> apart id s s'.
Proof.
  intros j s s' Ne E. unfold shutdown in E. apply pbind_good in E as [s1 [E1 E]]. apply pbind_good in E as [s2 [E2 E3]].
  eapply apart_trans; [eapply apart_try_close; [exact Ne|exact E1]|]. eapply apart_trans; [eapply apart_close_stack; [exact Ne|exact E2]|eapply apart_check; [exact Ne|exact E3]].
Qed.
End apart.

Lemma apart_error : forall id n j s s', j <> id -> on_session_error n j s = Good s' -> apart id s s'.
Proof.
  intros id. induction n as [|n IH]; cbn [on_session_error]; intros j s s' Ne E; [discriminate|]. destruct (mem j (sessions s)); [|inversion E; apply apart_refl].
  apply pbind_good in E as [s1 [E1 E2]]. inversion E2; subst s'. eapply apart_trans; [|apply apart_release; exact Ne]. eapply apart_trans; [|apply (apart_same id s1); reflexivity].
  eapply apart_trans; [|eapply apart_shutdown; [exact IH|exact Ne|exact E1]]. unfold apart. pstate. repeat split; auto; intros X; [eapply In_remove1; exact X|]. apply remove1_other; [congruence|assumption].
Qed.

Definition about (e : pin) : option N :=
  match e with Completed j _ _ _ | Starts j _ _ | Opens j | Closes j | Checks j => Some j | _ => None end.

Lemma step_apart : forall id s e s', NoDup (pending s) -> step s e = Good s' -> e <> Connected -> about e <> Some id -> apart id s s'.
Proof.
  intros id s e s' Nd E Nc Ne. destruct e as [| | | |j x d ok|j x d|j|j|j]; cbn [step about] in *; try (assert (j <> id) as Nj by congruence).
  - destruct (accepting s); inversion E; subst; apply apart_same; reflexivity.
  - inversion E; subst; apply apart_same; reflexivity.
  - congruence.
  - destruct (connecting s); inversion E; subst; apply apart_same; reflexivity.
  - destruct (existsb _ _); [|inversion E; apply apart_refl]. unfold completed, with_session in E. change (objects (set_pending (remove_op (j, x, d) (pending s)) s)) with (objects s) in E.
    destruct (lookup j (objects s)) as [o|]; [|discriminate].
    assert (apart id s (put j (set_active x d false o) (set_pending (remove_op (j, x, d) (pending s)) s))) as K0.
    { unfold apart, put. pstate. rewrite lookup_replace. destruct (N.eqb_spec id j); [congruence|]. split; [reflexivity|]. split; [tauto|]. split; [|tauto]. intros y e. rewrite In_remove_op by assumption. intuition congruence. }
    destruct ok; [inversion E; subst; exact K0|]. destruct (is_open x o); [|inversion E; subst; exact K0].
    apply pbind_good in E as [s1 [E1 E2]]. eapply apart_trans; [exact K0|]. eapply apart_trans; [eapply apart_try_close; [exact Nj|exact E1]|].
    destruct x; [eapply apart_close_stack; [apply apart_error|exact Nj|exact E2]|eapply apart_error; [exact Nj|exact E2]].
  - destruct (lookup j (objects s)) as [o|]; [|inversion E; apply apart_refl]. destruct x; [eapply apart_start; [exact Nj|exact E]|]. destruct (app_on o); [eapply apart_start; [exact Nj|exact E]|inversion E; apply apart_refl].
  - destruct (lookup j (objects s)) as [o|]; [|inversion E; apply apart_refl]. destruct (stack_on o && negb (app_on o)); [|inversion E; apply apart_refl].
    eapply apart_trans; [|eapply apart_start; [exact Nj|exact E]]. eapply apart_put; [exact Nj|reflexivity..].
  - destruct (lookup j (objects s)) as [o|]; [|inversion E; apply apart_refl]. destruct (stack_on o); [|inversion E; apply apart_refl]. eapply apart_close_upper; [apply apart_error|exact Nj|exact E].
  - destruct (mem j (posted s)); [|inversion E; apply apart_refl]. apply pbind_good in E as [s1 [E1 E2]]. inversion E2; subst s'.
    eapply apart_trans; [|apply apart_release; exact Nj]. eapply apart_trans; [|apply (apart_same id s1); reflexivity]. eapply apart_trans; [|eapply apart_check; [exact Nj|exact E1]].
    unfold apart. pstate. repeat split; auto; intros X; [eapply In_remove1; exact X|]. apply remove1_other; [congruence|assumption].
Qed.

(** A session whose protocol side was closed before its handshake succeeded *)
Definition stuck (id : N) (s : proxy) : Prop :=
  In id (sessions s) /\ exists o, lookup id (objects s) = Some o /\ stack_on o = false.
Lemma stuck_step : forall id s e s', pinv s -> stuck id s -> step s e = Good s' -> e <> Connected -> stuck id s'.
Proof.
  intros id s e s' H [Hi [o [L Es]]] E Nc.
  assert (about e = Some id \/ about e <> Some id) as [Ea|Ea] by (destruct (about e) as [j|]; [destruct (N.eq_dec j id); [left; congruence|right; congruence]|right; discriminate]).
  2:{ destruct (step_apart id _ _ _ (i_nodup _ _ H) E Nc Ea) as [A1 [A2 _]]. split; [now apply A2|]. exists o. split; [congruence|assumption]. }
  pose proof (i_weak _ _ H _ _ L) as [W1 W2]. pose proof (i_obj _ _ H _ _ L ltac:(discriminate)) as [O1 O2 O3 O4].
  assert (app_on o = false) as A by (destruct (app_on o); [rewrite W2 in Es by reflexivity; discriminate|reflexivity]). destruct (O4 Hi A) as [Y1 [Y2 Y3]].
  destruct e as [| | | |j x d ok|j x d|j|j|j]; cbn [about] in Ea; try discriminate; inversion Ea; subst j; cbn [step] in E.
  - destruct (existsb (op_eqb (id, x, d)) (pending s)) eqn:Ep; [|inversion E; subst; split; eauto]. apply op_in in Ep. apply W1 in Ep.
    destruct x; [|destruct d; cbn in Ep; congruence]. unfold completed, with_session in E. change (objects (set_pending (remove_op (id, Lower, d) (pending s)) s)) with (objects s) in E. rewrite L in E. cbn [is_open] in E. rewrite (O2 Es) in E.
    assert (s' = put id (set_active Lower d false o) (set_pending (remove_op (id, Lower, d) (pending s)) s)) as -> by (destruct ok; now inversion E). split; [exact Hi|].
    exists (set_active Lower d false o). split; [|exact Es]. unfold put. pstate. eapply lookup_replace_same. exact L.
  - rewrite L in E. destruct x; [|rewrite A in E; inversion E; subst; split; eauto]. unfold start_operation, with_session in E. rewrite L in E. cbn [is_open] in E. rewrite (O2 Es) in E. inversion E; subst; split; eauto.
  - rewrite L, Es in E. inversion E; subst; split; eauto.
  - rewrite L, Es in E. inversion E; subst; split; eauto.
  - destruct (mem id (posted s)) eqn:Ep; [|inversion E; subst; split; eauto]. apply mem_In in Ep. now destruct (i_post _ _ H _ Ep).
Qed.
Lemma stuck_steps : forall es id s s', pinv s -> stuck id s -> steps s es = Good s' -> ~ In Connected es -> stuck id s'.
Proof.
  induction es as [|e es IH]; cbn; intros id s s' H S E Nc; [inversion E; now subst|]. apply pbind_good in E as [s1 [E1 E2]].
  apply (IH id s1); auto; [|eapply stuck_step; eauto]. destruct (step_case s e H) as [[s2 [E3 [H3 _]]]|[[w [E3 _]] _]]; congruence.
Qed.
