(** * QixStore: proofs about the key store and the key source *)
From Coq Require Import Sorting.Sorted.
From Verif Require Import Base BaseFacts Link Qix QixSpec.
Local Open Scope nat_scope.

Definition lt_id (a b : N * option (list N)) : Prop := (fst a < fst b)%N.
Definition sorted (m : key_map) : Prop := StronglySorted lt_id m.

(** ** The map *)
Lemma find_cons i v m id : map_find ((i, v) :: m) id = if (i =? id)%N then Some v else map_find m id.
Proof. unfold map_find. cbn. destruct (i =? id)%N; reflexivity. Qed.

Lemma find_put m id v id' : map_find (map_put m id v) id' = if (id =? id')%N then Some v else map_find m id'.
Proof.
  induction m as [|[i w] m IH]; cbn [map_put].
  - rewrite find_cons. reflexivity.
  - destruct (N.ltb_spec id i) as [L|L]; [rewrite find_cons; reflexivity|].
    destruct (N.eqb_spec id i) as [->|Q].
    + rewrite !find_cons. destruct (i =? id')%N; reflexivity.
    + rewrite !find_cons, IH. destruct (N.eqb_spec i id') as [<-|]; [|reflexivity].
      destruct (N.eqb_spec id i); [contradiction|reflexivity].
Qed.

Lemma find_erase m id id' : map_find (map_erase m id) id' = if (id =? id')%N then None else map_find m id'.
Proof.
  induction m as [|[i w] m IH]; cbn [map_erase filter fst].
  - unfold map_find. cbn. destruct (id =? id')%N; reflexivity.
  - destruct (N.eqb_spec i id) as [->|Q]; cbn [negb].
    + fold (map_erase m id). rewrite IH, find_cons. destruct (id =? id')%N; reflexivity.
    + fold (map_erase m id). rewrite !find_cons, IH. destruct (N.eqb_spec i id') as [<-|]; [|reflexivity].
      destruct (N.eqb_spec id i); [congruence|reflexivity].
Qed.

Lemma find_in m id v : map_find m id = Some v -> In (id, v) m.
Proof.
  induction m as [|[i w] m IH]; [discriminate|]. rewrite find_cons. destruct (N.eqb_spec i id) as [->|]; intros H; [left; congruence|right; auto].
Qed.
Lemma in_find m id v : sorted m -> In (id, v) m -> map_find m id = Some v.
Proof.
  induction 1 as [|[i w] m Hs IH Hf]; intros I; [destruct I|]. rewrite find_cons. destruct I as [E|I].
  - inversion E; subst. now rewrite N.eqb_refl.
  - destruct (N.eqb_spec i id) as [->|]; [|auto]. rewrite Forall_forall in Hf. specialize (Hf _ I). unfold lt_id in Hf. cbn in Hf. lia.
Qed.

Lemma put_forall (P : N * option (list N) -> Prop) m id v : P (id, v) -> Forall P m -> Forall P (map_put m id v).
Proof.
  intros H. induction 1 as [|[i w] m Hp Hm IH]; cbn [map_put]; [auto|].
  destruct (_ <? _)%N; [auto|]. destruct (_ =? _)%N; auto.
Qed.
Lemma put_sorted m id v : sorted m -> sorted (map_put m id v).
Proof.
  induction 1 as [|[i w] m Hs IH Hf]; cbn [map_put]; [repeat constructor|].
  destruct (N.ltb_spec id i) as [L|L].
  - constructor; [constructor; auto|]. constructor; [exact L|].
    rewrite Forall_forall in *. intros x I. specialize (Hf x I). unfold lt_id in *. cbn in *. lia.
  - destruct (N.eqb_spec id i) as [->|Q]; [constructor; auto|].
    constructor; [exact IH|]. apply put_forall; [|exact Hf]. unfold lt_id. cbn. lia.
Qed.
Lemma erase_sorted m id : sorted m -> sorted (map_erase m id).
Proof.
  induction 1 as [|[i w] m Hs IH Hf]; cbn [map_erase filter]; [constructor|]. destruct (negb _); [|exact IH].
  constructor; [exact IH|]. rewrite Forall_forall in *. intros x I. apply filter_In in I. apply Hf. tauto.
Qed.
Lemma tl_sorted m : sorted m -> sorted (tl m).
Proof. destruct 1; [constructor|assumption]. Qed.

Lemma put_length m id v : length (map_put m id v) <= S (length m).
Proof. induction m as [|[i w] m IH]; cbn [map_put]; [auto|]. destruct (_ <? _)%N; [cbn; lia|]. destruct (_ =? _)%N; cbn in *; lia. Qed.
Lemma put_length_new m id v : map_find m id = None -> length (map_put m id v) = S (length m).
Proof.
  induction m as [|[i w] m IH]; cbn [map_put]; [auto|]. rewrite find_cons. destruct (N.eqb_spec i id) as [->|]; [discriminate|]. intros H.
  destruct (_ <? _)%N; [reflexivity|]. destruct (N.eqb_spec id i); [congruence|]. cbn. now rewrite IH.
Qed.
Lemma put_length_old m id v w : sorted m -> map_find m id = Some w -> length (map_put m id v) = length m.
Proof.
  intros Hs. revert w. induction Hs as [|[i x] m Hs IH Hf]; intros w; [discriminate|]. rewrite find_cons. cbn [map_put].
  destruct (N.eqb_spec i id) as [->|Q]; intros H.
  - rewrite N.ltb_irrefl, N.eqb_refl. reflexivity.
  - destruct (N.ltb_spec id i) as [L|L].
    + apply find_in in H. rewrite Forall_forall in Hf. specialize (Hf _ H). unfold lt_id in Hf. cbn in Hf. lia.
    + destruct (N.eqb_spec id i); [congruence|]. cbn. f_equal. eauto.
Qed.
Lemma erase_length m id : length (map_erase m id) <= length m.
Proof. unfold map_erase. induction m as [|e m IH]; cbn; [auto|]. destruct (negb _); cbn; lia. Qed.

Lemma find_none_above m i v id : sorted ((i, v) :: m) -> (id < i)%N -> map_find ((i, v) :: m) id = None.
Proof.
  intros Hs L. destruct (map_find ((i, v) :: m) id) eqn:E; [|reflexivity]. apply find_in in E.
  inversion Hs as [|? ? _ Hf]; subst. destruct E as [E|E]; [inversion E; subst; lia|].
  rewrite Forall_forall in Hf. specialize (Hf _ E). unfold lt_id in Hf. cbn in Hf. lia.
Qed.
Lemma find_tl m id : sorted m -> map_find (tl m) id =
  match m with (i, _) :: _ => if (i =? id)%N then None else map_find m id | [] => None end.
Proof.
  intros Hs. destruct m as [|[i v] m]; [reflexivity|]. cbn [tl]. rewrite find_cons. destruct (N.eqb_spec i id) as [<-|]; [|reflexivity].
  destruct (map_find m i) eqn:E; [|reflexivity]. apply find_in in E. inversion Hs as [|? ? _ Hf]; subst.
  rewrite Forall_forall in Hf. specialize (Hf _ E). unfold lt_id in Hf. cbn in Hf. lia.
Qed.

Lemma last_none m : map_last m = None -> m = [].
Proof.
  induction m as [|a m IH]; [auto|]. destruct m as [|b m]; [discriminate|]. intros H.
  change (map_last (b :: m) = None) in H. discriminate (IH H).
Qed.
Lemma last_spec m hi v : sorted m -> map_last m = Some (hi, v) ->
  map_find m hi = Some v /\ (forall id w, map_find m id = Some w -> (id <= hi)%N).
Proof.
  induction 1 as [|[i w] m Hs IH Hf]; intros H; [discriminate|]. destruct m as [|b m].
  - cbn in H. inversion H; subst. rewrite find_cons, N.eqb_refl. split; [reflexivity|].
    intros id x. rewrite find_cons. destruct (N.eqb_spec hi id); [intros; lia|discriminate].
  - change (map_last (b :: m) = Some (hi, v)) in H. destruct (IH H) as [A B].
    assert (i < hi)%N as L. { apply find_in in A. rewrite Forall_forall in Hf. exact (Hf _ A). }
    split; [rewrite find_cons; destruct (N.eqb_spec i hi); [lia|exact A]|].
    intros id x. rewrite find_cons. destruct (N.eqb_spec i id); [intros; lia|apply B].
Qed.

(** ** One operation *)
Lemma would_find_map m id : would_find m id = match map_find m id with Some (Some k) => Some k | _ => None end.
Proof. unfold would_find. cbn. unfold find_and_consume_key. destruct (map_find m id) as [[k|]|]; reflexivity. Qed.

Lemma add_sorted max m f : sorted m -> sorted (add_key max m f).
Proof.
  intros H. unfold add_key. assert (sorted (match map_last m with Some (hi, _) => if (q_id f <? hi)%N then [] else m | None => m end)) as H1.
  { destruct (map_last m) as [[hi v]|]; [|exact H]. destruct (_ <? _)%N; [constructor|exact H]. }
  destruct (_ <? _); auto using put_sorted, tl_sorted.
Qed.
Lemma op_sorted max m o : sorted m -> sorted (fst (do_op max m o)).
Proof.
  intros H. destruct o as [f| |id]; cbn.
  - now apply add_sorted.
  - unfold consume_key. destruct (map_last m) as [[id k]|]; cbn; auto using erase_sorted.
  - unfold find_and_consume_key. destruct (map_find m id) as [[k|]|]; cbn; auto using erase_sorted.
Qed.
Lemma op_length max m o : length m <= max -> length (fst (do_op max m o)) <= max.
Proof.
  intros H. destruct o as [f| |id]; cbn.
  - unfold add_key. set (m1 := match map_last m with Some _ => _ | None => _ end).
    assert (length m1 <= max) as H1. { unfold m1. destruct (map_last m) as [[hi v]|]; [|exact H]. destruct (_ <? _)%N; [cbn; lia|exact H]. }
    pose proof (put_length m1 (q_id f) (make_key (q_key f))) as L.
    destruct (Nat.ltb_spec max (length (map_put m1 (q_id f) (make_key (q_key f))))) as [Q|Q]; [|exact Q].
    destruct (map_put m1 (q_id f) (make_key (q_key f))); cbn in *; lia.
  - unfold consume_key. destruct (map_last m) as [[id k]|]; cbn; [|exact H]. pose proof (erase_length m id). lia.
  - unfold find_and_consume_key. pose proof (erase_length m id). destruct (map_find m id) as [[k|]|]; cbn; lia.
Qed.

(** What is held after an operation was added by it or held before *)
Lemma op_find max m o id v : sorted m -> map_find (fst (do_op max m o)) id = Some v ->
  (exists f, o = Add f /\ q_id f = id /\ v = make_key (q_key f)) \/
  (map_find m id = Some v /\ adds id o = false /\ (forall k, handed (o, snd (do_op max m o)) <> Some (id, k))).
Proof.
  intros Hs. destruct o as [f| |i]; cbn.
  - unfold add_key. set (m1 := match map_last m with Some _ => _ | None => _ end).
    assert (sorted m1 /\ forall v, map_find m1 id = Some v -> map_find m id = Some v) as [H1 H2].
    { unfold m1. destruct (map_last m) as [[hi w]|]; [|auto]. destruct (_ <? _)%N; [split; [constructor|discriminate]|auto]. }
    set (m2 := map_put m1 (q_id f) (make_key (q_key f))). intros E.
    assert (map_find m2 id = Some v) as E2.
    { destruct (_ <? _); [|exact E]. rewrite find_tl in E by (apply put_sorted, H1). destruct m2 as [|[i w] m3]; [discriminate|].
      destruct (i =? id)%N; [discriminate|exact E]. }
    unfold m2 in E2. rewrite find_put in E2. destruct (N.eqb_spec (q_id f) id) as [Q|Q].
    + left. exists f. inversion E2; subst. auto.
    + right. split; [apply H2, E2|]. split; [reflexivity|]. intros k X. discriminate X.
  - unfold consume_key. destruct (map_last m) as [[hi k]|] eqn:E; cbn; intros F.
    + rewrite find_erase in F. destruct (N.eqb_spec hi id); [discriminate|]. right. split; [exact F|]. split; [reflexivity|].
      intros k0. destruct k; congruence.
    + right. split; [exact F|]. split; [reflexivity|]. discriminate.
  - unfold find_and_consume_key. destruct (map_find m i) as [[k|]|] eqn:E; cbn; intros F; right.
    + rewrite find_erase in F. destruct (N.eqb_spec i id); [discriminate|]. split; [exact F|]. split; [reflexivity|]. congruence.
    + rewrite find_erase in F. destruct (N.eqb_spec i id); [discriminate|]. split; [exact F|]. split; [reflexivity|]. congruence.
    + split; [exact F|]. split; [reflexivity|]. congruence.
Qed.

(** What is handed out was held *)
Lemma op_handed max m o id k : sorted m -> handed (o, snd (do_op max m o)) = Some (id, k) -> map_find m id = Some (Some k).
Proof.
  intros Hs. destruct o as [f| |i]; cbn; [discriminate| |].
  - unfold consume_key. destruct (map_last m) as [[hi [w|]]|] eqn:E; cbn; try discriminate.
    intros H. inversion H; subst. apply (last_spec _ _ _ Hs E).
  - unfold find_and_consume_key. destruct (map_find m i) as [[w|]|] eqn:E; cbn; try discriminate. intros H. inversion H; subst. exact E.
Qed.

(** ** Histories *)
Lemma do_ops_app max m os1 os2 : do_ops max m (os1 ++ os2) =
  (fst (do_ops max (fst (do_ops max m os1)) os2), snd (do_ops max m os1) ++ snd (do_ops max (fst (do_ops max m os1)) os2)).
Proof.
  revert m; induction os1 as [|o os1 IH]; intros m; cbn [app do_ops fst snd].
  - now destruct (do_ops max m os2).
  - destruct (do_op max m o) as [m1 a]. rewrite IH. destruct (do_ops max m1 os1); reflexivity.
Qed.
Lemma do_ops_fst max os : forall m, map fst (snd (do_ops max m os)) = os.
Proof.
  induction os as [|o os IH]; intros m; cbn [do_ops]; [reflexivity|]. destruct (do_op max m o) as [m1 a]. specialize (IH m1).
  destruct (do_ops max m1 os). cbn in *. now rewrite IH.
Qed.
Lemma last_added_app os1 os2 id d : last_added (os1 ++ os2) id d = last_added os2 id (last_added os1 id d).
Proof. revert d; induction os1 as [|[f| |i] os1 IH]; intros d; cbn; auto. Qed.
Lemma last_added_none os id d : existsb (adds id) os = false -> last_added os id d = d.
Proof.
  revert d; induction os as [|[f| |i] os IH]; intros d H; cbn in *; auto.
  apply Bool.orb_false_iff in H. destruct H as [-> H]. auto.
Qed.

Definition fresh (h : list (op * answer)) (id : N) : Prop :=
  forall h1 x h2 k, h = h1 ++ x :: h2 -> handed x = Some (id, k) -> Exists (fun y => adds id (fst y) = true) h2.

Lemma store_inv max os : let m := fst (do_ops max [] os) in let h := snd (do_ops max [] os) in
  sorted m /\ length m <= max /\
  (forall id v, map_find m id = Some v -> (exists k, last_added os id None = Some k /\ v = make_key k) /\ fresh h id).
Proof.
  induction os as [|o os IH] using rev_ind; cbn zeta in *.
  - cbn. split; [constructor|]. split; [lia|]. discriminate.
  - rewrite do_ops_app. cbn [fst snd]. destruct IH as [I1 [I2 I3]].
    set (m := fst (do_ops max [] os)) in *. set (h := snd (do_ops max [] os)) in *.
    cbn [do_ops]. destruct (do_op max m o) as [m1 a] eqn:E. cbn [fst snd].
    assert (m1 = fst (do_op max m o)) as E1 by now rewrite E. assert (a = snd (do_op max m o)) as E2 by now rewrite E.
    split; [subst m1; now apply op_sorted|]. split; [subst m1; now apply op_length|].
    intros id v F. rewrite E1 in F. destruct (op_find _ _ _ _ _ I1 F) as [[f [-> [Q ->]]]|[Q1 [Q2 Q3]]].
    + split.
      * exists (q_key f). rewrite last_added_app. cbn. subst id. rewrite N.eqb_refl. auto.
      * intros h1 x h2 k H Hx. destruct h2 as [|y h2] using rev_ind.
        -- apply app_inj_tail in H. destruct H as [_ <-]. discriminate.
        -- clear IHh2. rewrite app_comm_cons, app_assoc in H. apply app_inj_tail in H. destruct H as [_ <-].
           apply Exists_app. right. constructor. cbn. subst id. apply N.eqb_refl.
    + destruct (I3 _ _ Q1) as [[k [L1 L2]] L3]. split.
      * exists k. rewrite last_added_app. split; [|exact L2]. rewrite L1. apply last_added_none. cbn. now rewrite Q2.
      * intros h1 x h2 k0 H Hx. destruct h2 as [|y h2] using rev_ind.
        -- apply app_inj_tail in H. destruct H as [_ <-]. subst a. destruct (Q3 _ Hx).
        -- clear IHh2. rewrite app_comm_cons, app_assoc in H. apply app_inj_tail in H. destruct H as [H _].
           apply Exists_app. left. exact (L3 _ _ _ _ H Hx).
Qed.

Lemma do_ops_split max os h1 x h2 : snd (do_ops max [] os) = h1 ++ x :: h2 ->
  exists os1 os2, os = os1 ++ fst x :: os2 /\ snd (do_ops max [] os1) = h1 /\ x = (fst x, snd (do_op max (fst (do_ops max [] os1)) (fst x))).
Proof.
  intros H. pose proof (do_ops_fst max os []) as F. rewrite H, map_app in F. cbn [map] in F.
  exists (map fst h1), (map fst h2). split; [symmetry; exact F|]. rewrite <- F in H. rewrite do_ops_app in H. cbn [snd] in H.
  apply app_inv_len in H. 2:{ pose proof (f_equal (@length op) (do_ops_fst max (map fst h1) [])) as Q. rewrite !map_length in Q. exact Q. }
  destruct H as [H1 H2]. split; [exact H1|]. cbn [do_ops] in H2.
  destruct (do_op max (fst (do_ops max [] (map fst h1))) (fst x)) as [m1 a] eqn:E. destruct (do_ops max m1 (map fst h2)). cbn in H2.
  inversion H2. reflexivity.
Qed.

Lemma single_use max os h1 x h2 y h3 id k k' : snd (do_ops max [] os) = h1 ++ x :: h2 ++ y :: h3 ->
  handed x = Some (id, k) -> handed y = Some (id, k') -> Exists (fun z => adds id (fst z) = true) h2.
Proof.
  intros H Hx Hy. rewrite app_comm_cons, app_assoc in H. destruct (do_ops_split _ _ _ _ _ H) as [os1 [os2 [_ [E1 E2]]]].
  destruct (store_inv max os1) as [I1 [_ I3]]. rewrite E2 in Hy. apply op_handed in Hy; [|exact I1].
  destruct (I3 _ _ Hy) as [_ L]. exact (L _ _ _ _ E1 Hx).
Qed.

Lemma handed_last max os h1 x h2 id k : snd (do_ops max [] os) = h1 ++ x :: h2 -> handed x = Some (id, k) ->
  last_added (map fst h1) id None = Some k /\ length k = 32.
Proof.
  intros H Hx. destruct (do_ops_split _ _ _ _ _ H) as [os1 [os2 [E0 [E1 E2]]]].
  destruct (store_inv max os1) as [I1 [_ I3]]. rewrite E2 in Hx. apply op_handed in Hx; [|exact I1].
  destruct (I3 _ _ Hx) as [[k0 [L1 L2]] _]. rewrite <- E1, do_ops_fst. unfold make_key in L2.
  destruct (Nat.eqb_spec (length k0) 32) as [Q|Q]; [|discriminate]. inversion L2; subst. auto.
Qed.

Lemma held32 max os id : adds32 os -> map_find (fst (do_ops max [] os)) id <> Some None.
Proof.
  intros H E. destruct (store_inv max os) as [_ [_ I3]]. destruct (I3 _ _ E) as [[k [L1 L2]] _].
  assert (length k = 32) as L. { clear - H L1. assert (forall d, (forall k, d = Some k -> length k = 32) -> last_added os id d = Some k -> length k = 32) as G.
    { clear L1. induction H as [|o os Ho Hos IH]; intros d Hd E; cbn in E; [auto|].
      destruct o as [f| |i]; cbn in E; eauto. apply IH in E; [exact E|]. intros k0 Q. destruct (q_id f =? id)%N; [inversion Q; subst; exact Ho|auto]. }
    apply (G None); [discriminate|exact L1]. }
  unfold make_key in L2. rewrite L in L2. discriminate.
Qed.

Lemma consume_highest max os : adds32 os -> let m := fst (do_ops max [] os) in
  match do_op max m Consume with
  | (m', Record_ id (Some k)) => would_find m id = Some k /\ (forall id', (id < id')%N -> would_find m id' = None) /\
                                 (forall id', would_find m' id' = if (id' =? id)%N then None else would_find m id')
  | (m', Null) => m' = m /\ forall id, would_find m id = None
  | _ => False
  end.
Proof.
  intros H m. destruct (store_inv max os) as [I1 _]. fold m in I1. cbn. unfold consume_key.
  destruct (map_last m) as [[hi v]|] eqn:E.
  - destruct (last_spec _ _ _ I1 E) as [A B]. destruct v as [k|]; [|destruct (held32 max os hi H A)].
    rewrite !would_find_map. rewrite A. split; [reflexivity|]. split.
    + intros id' L. rewrite would_find_map. destruct (map_find m id') as [w|] eqn:Q; [|reflexivity]. specialize (B _ _ Q). lia.
    + intros id'. rewrite !would_find_map, find_erase, N.eqb_sym. destruct (_ =? _)%N; reflexivity.
  - apply last_none in E. rewrite E. split; [reflexivity|]. intros id. now rewrite would_find_map.
Qed.

Lemma find_exact max m id : let (m', a) := do_op max m (Find id) in
  a = match would_find m id with Some k => Key k | None => Null end /\
  forall id', would_find m' id' = if (id' =? id)%N then None else would_find m id'.
Proof.
  cbn. unfold find_and_consume_key. rewrite would_find_map. destruct (map_find m id) as [[k|]|] eqn:E; (split; [reflexivity|]); intros id';
    rewrite !would_find_map, ?find_erase; rewrite ?(N.eqb_sym id id'); destruct (N.eqb_spec id' id) as [->|]; try reflexivity. now rewrite E.
Qed.

Lemma add_backward max m f hi k : sorted m -> 0 < max -> length (q_key f) = 32 -> would_find m hi = Some k -> (q_id f < hi)%N ->
  forall id, would_find (add_key max m f) id = if (id =? q_id f)%N then Some (q_key f) else None.
Proof.
  intros Hs Hm H32 Hh L id. rewrite would_find_map in *. destruct (map_find m hi) as [[k0|]|] eqn:F; try discriminate.
  unfold add_key. destruct (map_last m) as [[i v]|] eqn:E; [|apply last_none in E; subst; discriminate].
  destruct (last_spec _ _ _ Hs E) as [_ B]. specialize (B _ _ F).
  destruct (N.ltb_spec (q_id f) i) as [Q|Q]; [|lia]. cbn [map_put length]. destruct (Nat.ltb_spec max 1); [lia|].
  rewrite find_cons, N.eqb_sym. destruct (_ =? _)%N; [|reflexivity]. unfold make_key. now rewrite H32.
Qed.

Lemma add_forward max m f : sorted m -> 0 < max -> length m <= max -> length (q_key f) = 32 ->
  (forall id k, map_find m id = Some k -> (id <= q_id f)%N) ->
  exists dropped : N -> bool, (forall id, would_find (add_key max m f) id = if (id =? q_id f)%N then Some (q_key f) else if dropped id then None else would_find m id) /\
  ((forall id, dropped id = false) \/
   (length m = max /\ exists low, map_find m low <> None /\ (forall id k, map_find m id = Some k -> (low <= id)%N) /\ dropped = N.eqb low)).
Proof.
  intros Hs Hm Hl H32 Hle.
  assert (add_key max m f = let m2 := map_put m (q_id f) (make_key (q_key f)) in if max <? length m2 then tl m2 else m2) as EA.
  { unfold add_key. destruct (map_last m) as [[i v]|] eqn:E; [|reflexivity]. destruct (last_spec _ _ _ Hs E) as [A _]. apply Hle in A.
    destruct (N.ltb_spec (q_id f) i); [lia|reflexivity]. }
  rewrite EA. cbn zeta.
  pose proof (put_sorted m (q_id f) (make_key (q_key f)) Hs) as S2. pose proof (find_put m (q_id f) (make_key (q_key f))) as FP.
  assert (make_key (q_key f) = Some (q_key f)) as MK by (unfold make_key; now rewrite H32).
  destruct (Nat.ltb_spec max (length (map_put m (q_id f) (make_key (q_key f))))) as [L|L].
  - (* full *)
    assert (map_find m (q_id f) = None) as Nf.
    { destruct (map_find m (q_id f)) eqn:Q; [|reflexivity]. rewrite (put_length_old _ _ _ _ Hs Q) in L. lia. }
    rewrite (put_length_new _ _ _ Nf) in L. destruct m as [|[low v] m']; [cbn in L; lia|].
    assert (low < q_id f)%N as Ll. { assert (map_find ((low, v) :: m') low = Some v) as Q by (rewrite find_cons, N.eqb_refl; reflexivity).
      pose proof (Hle _ _ Q). destruct (N.eq_dec low (q_id f)); [subst; congruence|lia]. }
    exists (N.eqb low). split.
    + intros id. rewrite !would_find_map, find_tl by exact S2. cbn [map_put]. destruct (N.ltb_spec (q_id f) low); [lia|].
      destruct (N.eqb_spec (q_id f) low); [lia|]. rewrite !find_cons, find_put, MK.
      destruct (N.eqb_spec low id) as [->|].
      * destruct (N.eqb_spec id (q_id f)); [lia|reflexivity].
      * rewrite N.eqb_sym. destruct (id =? q_id f)%N; reflexivity.
    + right. split; [lia|]. exists low. split; [rewrite find_cons, N.eqb_refl; discriminate|]. split; [|reflexivity].
      intros id k Q. destruct (N.le_gt_cases low id); [assumption|]. rewrite (find_none_above _ _ _ _ Hs) in Q by assumption. discriminate.
  - exists (fun _ => false). split; [|left; reflexivity]. intros id. rewrite !would_find_map, FP, N.eqb_sym, MK. destruct (_ =? _)%N; reflexivity.
Qed.

(** ** The source *)
Lemma do_sops_app s os1 os2 : do_sops s (os1 ++ os2) =
  obind (do_sops s os1) (fun r => obind (do_sops (fst r) os2) (fun r2 => Ok (fst r2, snd r ++ snd r2))).
Proof.
  revert s; induction os1 as [|o os1 IH]; intros s; cbn [app do_sops].
  - cbn [obind fst snd]. destruct (do_sops s os2) as [[s2 h2]| |]; reflexivity.
  - destruct (do_sop s o) as [[s1 a]| |]; cbn [obind]; try reflexivity. rewrite IH.
    destruct (do_sops s1 os1) as [[s2 h2]| |]; cbn [obind fst snd]; try reflexivity.
    destruct (do_sops s2 os2) as [[s3 h3]| |]; reflexivity.
Qed.
Lemma do_sops_snoc s os o s' h : do_sops s (os ++ [o]) = Ok (s', h) ->
  exists s1 h1 a, do_sops s os = Ok (s1, h1) /\ do_sop s1 o = Ok (s', a) /\ h = h1 ++ [(o, a)].
Proof.
  rewrite do_sops_app. destruct (do_sops s os) as [[s1 h1]| |]; try discriminate. cbn [obind do_sops fst snd].
  destruct (do_sop s1 o) as [[s2 a]| |] eqn:E; try discriminate. cbn. intros H. inversion H; subst. exists s1, h1, a. auto.
Qed.
Lemma do_sops_fst os : forall s s' h, do_sops s os = Ok (s', h) -> map fst h = os.
Proof.
  induction os as [|o os IH]; intros s s' h H; cbn [do_sops] in H; [inversion H; reflexivity|].
  destruct (do_sop s o) as [[s1 a]| |]; try discriminate. cbn [obind] in H.
  destruct (do_sops s1 os) as [[s2 h2]| |] eqn:E; try discriminate. inversion H; subst. cbn. now rewrite (IH _ _ _ E).
Qed.
Lemma last_carried_app os1 os2 id d : last_carried (os1 ++ os2) id d = last_carried os2 id (last_carried os1 id d).
Proof. revert d; induction os1 as [|o os1 IH]; intros d; cbn; auto. Qed.

Definition sfresh (h : list (sop * sanswer)) (id : N) : Prop :=
  forall h1 x h2 sub k, h = h1 ++ x :: h2 -> shanded x = Some (sub, id, k) -> Exists (fun y => carries id (fst y) = true) h2.

Record xinv (n : N) (h : list (sop * sanswer)) (x : subscriber) : Prop :=
  { x_sorted : sorted (sub_keys x);
    x_length : length (sub_keys x) <= sub_max x;
    x_held : forall id v, map_find (sub_keys x) id = Some v ->
      u16 (id mod n) = sub_id x /\ sfresh h id /\ exists k, last_carried (map fst h) id None = Some k /\ v = make_key k }.
Definition sinv (n : N) (h : list (sop * sanswer)) (s : source) : Prop :=
  src_subscribers s = n /\ NoDup (map sub_id (src_stores s)) /\ (forall x, In x (src_stores s) -> xinv n h x).

Lemma fresh_snoc h id y : sfresh h id -> (forall sub k, shanded y <> Some (sub, id, k)) -> sfresh (h ++ [y]) id.
Proof.
  intros H N1 h1 x h2 sub k E Hx. destruct h2 as [|z h2] using rev_ind.
  - apply app_inj_tail in E. destruct E as [_ <-]. destruct (N1 _ _ Hx).
  - clear IHh2. rewrite app_comm_cons, app_assoc in E. apply app_inj_tail in E. destruct E as [E _].
    apply Exists_app. left. exact (H _ _ _ _ _ E Hx).
Qed.
Lemma fresh_carried h id y : carries id (fst y) = true -> sfresh (h ++ [y]) id.
Proof.
  intros H h1 x h2 sub k E Hx. destruct h2 as [|z h2] using rev_ind.
  - apply app_inj_tail in E. destruct E as [_ <-]. destruct y as [[] ?]; discriminate.
  - clear IHh2. rewrite app_comm_cons, app_assoc in E. apply app_inj_tail in E. destruct E as [_ <-]. apply Exists_app. right. now constructor.
Qed.

Lemma xinv_keep n h y x : xinv n h x -> (forall id sub k, map_find (sub_keys x) id <> None -> shanded y <> Some (sub, id, k)) ->
  (forall id, map_find (sub_keys x) id <> None -> carries id (fst y) = false) -> xinv n (h ++ [y]) x.
Proof.
  intros [A B C] H1 H2. constructor; auto. intros id v F. destruct (C _ _ F) as [C1 [C2 [k [C3 C4]]]].
  split; [exact C1|]. split; [apply fresh_snoc; auto; intros; apply H1; congruence|].
  exists k. split; [|exact C4]. rewrite map_app, last_carried_app, C3. cbn [map last_carried].
  assert (carries id (fst y) = false) as H3 by (apply H2; congruence). destruct (fst y); auto. now rewrite H3.
Qed.

Lemma map_ids g l : (forall x, sub_id (g x) = sub_id x) -> map sub_id (map g l) = map sub_id l.
Proof. intros H. rewrite map_map. apply map_ext. exact H. Qed.

Lemma nodup_same l x y : NoDup (map sub_id l) -> In x l -> In y l -> sub_id x = sub_id y -> x = y.
Proof.
  induction l as [|a l IH]; intros Hn Hx Hy E; [destruct Hx|]. inversion Hn as [|? ? N1 N2]; subst.
  destruct Hx as [->|Hx], Hy as [->|Hy]; auto.
  - destruct N1. rewrite E. now apply in_map.
  - destruct N1. rewrite <- E. now apply in_map.
Qed.

Lemma sinv_step n h s o s' a : (n < 2 ^ 16)%N -> sinv n h s -> match o with Take _ (Add _) => False | _ => True end ->
  do_sop s o = Ok (s', a) -> sinv n (h ++ [(o, a)]) s'.
Proof.
  intros Hn [S1 [S2 S3]] Ho E. destruct o as [sub mx|f|sub o]; cbn [do_sop] in E.
  - (* bind *)
    unfold bind_key_store in E. destruct (existsb _ _) eqn:Q; inversion E; subst; clear E.
    + split; [reflexivity|]. split; [exact S2|]. intros x Hx. apply xinv_keep; auto; discriminate.
    + split; [reflexivity|]. cbn [src_stores map]. split.
      * constructor; [|exact S2]. intros I. apply in_map_iff in I. destruct I as [x [E I]]. apply (Bool.diff_false_true). rewrite <- Q.
        apply existsb_exists. exists x. cbn in E. split; [exact I|now apply N.eqb_eq].
      * intros x [<-|Hx]; [|apply xinv_keep; auto; discriminate].
        constructor; cbn; [constructor|lia|discriminate].
  - (* frame *)
    destruct (handle s f) as [s1| |] eqn:E1; try discriminate. cbn [obind] in E. inversion E; subst; clear E.
    unfold handle in E1.
    assert (forall s2, s' = s2 -> usable f && (length (q_key f) =? 32) = false -> s2 = s -> sinv (src_subscribers s) (h ++ [(Frame f, Handled)]) s2) as G.
    { intros s2 _ U ->. split; [reflexivity|]. split; [exact S2|]. intros x Hx. apply xinv_keep; auto; [discriminate|].
      intros id _. cbn [fst carries]. rewrite U. reflexivity. }
    unfold usable in G. destruct (q_status f) eqn:St; try (inversion E1; subst; apply (G _ eq_refl); auto; fail).
    destruct (length (q_key f) =? 32) eqn:K; cbn [negb] in E1; [|inversion E1; subst; apply (G _ eq_refl); auto].
    clear G. destruct (N.eqb_spec (src_subscribers s) 0) as [Z|Z]; [discriminate|]. inversion E1; subst; clear E1.
    assert (usable f = true) as U by (unfold usable; now rewrite St).
    split; [reflexivity|]. cbn [src_stores]. split.
    { rewrite map_ids; [exact S2|]. intros x. destruct (_ =? _)%N; reflexivity. }
    intros x Hx. apply in_map_iff in Hx. destruct Hx as [y [<- Hy]]. destruct (S3 _ Hy) as [A B C].
    destruct (N.eqb_spec (sub_id y) (u16 (q_id f mod src_subscribers s))) as [Q|Q].
    + constructor; cbn [sub_keys sub_id sub_max].
      * now apply add_sorted.
      * exact (op_length (sub_max y) (sub_keys y) (Add f) B).
      * intros id v F. destruct (op_find (sub_max y) (sub_keys y) (Add f) id v A F) as [[f0 [Ef [Ei ->]]]|[F1 [F2 F3]]].
        -- inversion Ef; subst f0. assert (carries id (Frame f) = true) as Cy. { cbn. rewrite U, K. cbn. now apply N.eqb_eq. }
           split; [subst id; now symmetry|]. split; [now apply fresh_carried|]. exists (q_key f). split; [|reflexivity].
           rewrite map_app, last_carried_app. cbn [map fst last_carried]. now rewrite Cy.
        -- cbn in F2. destruct (C _ _ F1) as [C1 [C2 [k [C3 C4]]]]. split; [exact C1|]. split; [apply fresh_snoc; auto; discriminate|].
           exists k. split; [|exact C4]. rewrite map_app, last_carried_app, C3. cbn [map fst last_carried carries]. now rewrite F2, Bool.andb_false_r.
    + apply xinv_keep; [constructor; auto|discriminate|]. intros id Hd. cbn [fst carries]. rewrite U, K. cbn [andb].
      destruct (N.eqb_spec (q_id f) id) as [Ei|]; [|reflexivity]. destruct (map_find (sub_keys y) id) eqn:F; [|contradiction].
      destruct (C _ _ F) as [C1 _]. rewrite <- Ei in C1. congruence.
  - (* take *)
    unfold take in E. destruct (find _ _) as [y|] eqn:Q; inversion E; subst; clear E.
    2:{ split; [reflexivity|]. split; [exact S2|]. intros x Hx. apply xinv_keep; auto. discriminate. }
    apply find_some in Q. destruct Q as [Hy Qy]. apply N.eqb_eq in Qy.
    split; [reflexivity|]. cbn [src_stores]. split.
    { rewrite map_ids; [exact S2|]. intros x. destruct (_ =? _)%N; reflexivity. }
    intros x Hx. apply in_map_iff in Hx. destruct Hx as [z [<- Hz]]. destruct (S3 _ Hz) as [A B C].
    destruct (N.eqb_spec (sub_id z) sub) as [Qz|Qz].
    + assert (z = y) as -> by (eapply nodup_same; eauto; congruence).
      constructor; cbn [sub_keys sub_id sub_max].
      * now apply op_sorted.
      * now apply op_length.
      * intros id v F. destruct (op_find (sub_max y) (sub_keys y) o id v A F) as [[f0 [-> _]]|[F1 [F2 F3]]]; [contradiction|].
        destruct (C _ _ F1) as [C1 [C2 [k [C3 C4]]]]. split; [exact C1|]. split.
        -- apply fresh_snoc; auto. intros sub0 k0. cbn [shanded].
           destruct (handed (o, snd (do_op (sub_max y) (sub_keys y) o))) as [[i w]|] eqn:Hh; [|discriminate].
           intros X. inversion X; subst. exact (F3 _ eq_refl).
        -- exists k. split; [|exact C4]. rewrite map_app, last_carried_app, C3. reflexivity.
    + apply xinv_keep; [constructor; auto| |reflexivity]. intros id sub0 k0 Hd. cbn [shanded].
      destruct (handed (o, snd (do_op (sub_max y) (sub_keys y) o))) as [[i w]|] eqn:Hh; [|discriminate].
      intros X. inversion X; subst. destruct (S3 _ Hy) as [Ay _ Cy].
      apply op_handed in Hh; [|exact Ay]. destruct (Cy _ _ Hh) as [C1 _].
      destruct (map_find (sub_keys z) id) eqn:F; [|contradiction]. destruct (C _ _ F) as [C2 _]. congruence.
Qed.

Lemma sinv_run n os : (n < 2 ^ 16)%N -> takes_only os -> forall s h, do_sops (new_source n) os = Ok (s, h) -> sinv n h s.
Proof.
  intros Hn. induction os as [|o os IH] using rev_ind; intros Ht s h E.
  - inversion E; subst. split; [reflexivity|]. split; [constructor|]. intros x [].
  - apply Forall_app in Ht. destruct Ht as [T1 T2]. inversion T2; subst.
    destruct (do_sops_snoc _ _ _ _ _ E) as [s1 [h1 [a [E1 [E2 ->]]]]]. eapply sinv_step; eauto.
Qed.

Lemma do_sops_split n os s h h1 x h2 : do_sops (new_source n) os = Ok (s, h) -> h = h1 ++ x :: h2 ->
  exists os1 os2 s1 s2, os = os1 ++ fst x :: os2 /\ do_sops (new_source n) os1 = Ok (s1, h1) /\ do_sop s1 (fst x) = Ok (s2, snd x).
Proof.
  intros E H. pose proof (do_sops_fst _ _ _ _ E) as F. rewrite H, map_app in F. cbn [map] in F.
  rewrite <- F, do_sops_app in E. destruct (do_sops (new_source n) (map fst h1)) as [[s1 g1]| |] eqn:E1; try discriminate.
  cbn [obind fst snd do_sops] in E. destruct (do_sop s1 (fst x)) as [[s2 a]| |] eqn:E2; try discriminate. cbn [obind fst snd] in E.
  destruct (do_sops s2 (map fst h2)) as [[s3 g2]| |]; try discriminate. cbn in E. inversion E as [[Es Eh]].
  rewrite H in Eh. apply app_inv_len in Eh.
  2:{ pose proof (f_equal (@length sop) (do_sops_fst _ _ _ _ E1)) as Q. rewrite !map_length in Q. exact Q. }
  destruct Eh as [-> Eh]. inversion Eh; subst. exists (map fst h1), (map fst h2), s1, s2. auto.
Qed.

Lemma take_handed n h s sub o a s' id k : sinv n h s -> do_sop s (Take sub o) = Ok (s', a) -> shanded (Take sub o, a) = Some (sub, id, k) ->
  u16 (id mod n) = sub /\ sfresh h id /\ last_carried (map fst h) id None = Some k /\ length k = 32.
Proof.
  intros [S1 [S2 S3]] E H. cbn [do_sop] in E. unfold take in E. destruct (find _ _) as [y|] eqn:Q; inversion E; subst; [|discriminate].
  apply find_some in Q. destruct Q as [Hy Qy]. apply N.eqb_eq in Qy. destruct (S3 _ Hy) as [A B C]. cbn [shanded] in H.
  destruct (handed (o, snd (do_op (sub_max y) (sub_keys y) o))) as [[i w]|] eqn:Hh; [|discriminate]. inversion H; subst.
  apply op_handed in Hh; [|exact A]. destruct (C _ _ Hh) as [C1 [C2 [k0 [C3 C4]]]]. split; [exact C1|]. split; [exact C2|].
  unfold make_key in C4. destruct (Nat.eqb_spec (length k0) 32); [|discriminate]. inversion C4; subst. auto.
Qed.

Lemma shanded_take x sub id k : shanded x = Some (sub, id, k) -> exists o a, x = (Take sub o, a).
Proof.
  destruct x as [[| |s o] a]; cbn [shanded]; try discriminate. destruct a; try discriminate.
  destruct (handed (o, a)) as [[? ?]|]; [|intros H; discriminate H]. intros H. inversion H; subst. eauto.
Qed.

Lemma source_handed n os s h h1 x h2 sub id k : (n < 2 ^ 16)%N -> takes_only os -> do_sops (new_source n) os = Ok (s, h) -> h = h1 ++ x :: h2 ->
  shanded x = Some (sub, id, k) ->
  sub = (id mod n)%N /\ sfresh h1 id /\ last_carried (map fst h1) id None = Some k /\ length k = 32.
Proof.
  intros Hn Ht E H Hx. destruct (do_sops_split _ _ _ _ _ _ _ E H) as [os1 [os2 [s1 [s2 [E0 [E1 E2]]]]]].
  assert (takes_only os1) as T1. { rewrite E0 in Ht. apply Forall_app in Ht. tauto. }
  pose proof (sinv_run n os1 Hn T1 _ _ E1) as I. destruct (shanded_take _ _ _ _ Hx) as [o [a ->]]. cbn [fst snd] in E2.
  destruct (take_handed _ _ _ _ _ _ _ _ _ I E2 Hx) as [A [B C]]. split; [|auto]. rewrite <- A. unfold u16, trunc. rewrite N.mod_small; [reflexivity|].
  destruct (N.eq_dec n 0) as [->|Z].
  - exfalso. destruct C as [C _]. clear - C E1.
    assert (forall os s h, do_sops (new_source 0) os = Ok (s, h) -> src_subscribers s = 0%N /\ forall id, last_carried os id None = None) as G.
    { clear. induction os as [|o os IH] using rev_ind; intros s h E; [inversion E; subst; auto|].
      destruct (do_sops_snoc _ _ _ _ _ E) as [s1 [h1 [a [E1 [E2 ->]]]]]. destruct (IH _ _ E1) as [I1 I2].
      destruct o as [sub mx|f|sub o]; cbn [do_sop] in E2.
      - split; [|intros id; rewrite last_carried_app, I2; reflexivity]. unfold bind_key_store in E2. destruct (existsb _ _); inversion E2; subst; auto.
      - destruct (handle s1 f) as [s3| |] eqn:E3; try discriminate. inversion E2; subst. unfold handle in E3. rewrite I1 in E3. cbn [N.eqb] in E3.
        destruct (q_status f) eqn:Q; try (inversion E3; subst; split; [exact I1|]; intros id; rewrite last_carried_app, I2; cbn [last_carried carries]; unfold usable; rewrite Q; reflexivity).
        destruct (length (q_key f) =? 32) eqn:K; cbn [negb] in E3; [discriminate|]. inversion E3; subst. split; [exact I1|].
        intros id. rewrite last_carried_app, I2. cbn [last_carried carries]. rewrite K, Bool.andb_false_r. reflexivity.
      - split; [|intros id; rewrite last_carried_app, I2; reflexivity]. unfold take in E2. destruct (find _ _); inversion E2; subst; auto. }
    destruct (G _ _ _ E1) as [_ G2]. rewrite (do_sops_fst _ _ _ _ E1), G2 in C. discriminate.
  - pose proof (N.mod_upper_bound id n Z). lia.
Qed.

Lemma source_defined n os : n <> 0%N -> exists r, do_sops (new_source n) os = Ok r.
Proof.
  intros Hn. assert (exists s h, do_sops (new_source n) os = Ok (s, h) /\ src_subscribers s = n) as [s [h [E _]]]; [|eauto].
  induction os as [|o os [s [h [E Es]]]] using rev_ind; [do 2 eexists; split; reflexivity|].
  rewrite do_sops_app, E. cbn [obind fst snd do_sops].
  assert (exists s' a, do_sop s o = Ok (s', a) /\ src_subscribers s' = n) as [s' [a [E1 E2]]].
  { destruct o as [sub mx|f|sub o]; cbn [do_sop].
    - unfold bind_key_store. destruct (existsb _ _); do 2 eexists; (split; [reflexivity|]); exact Es.
    - unfold handle. destruct (N.eqb_spec (src_subscribers s) 0); [congruence|].
      destruct (q_status f); [destruct (negb _)| |]; cbn [obind]; do 2 eexists; (split; [reflexivity|]); exact Es.
    - unfold take. destruct (find _ _); do 2 eexists; (split; [reflexivity|]); exact Es. }
  rewrite E1. cbn. do 2 eexists. split; [reflexivity|exact E2].
Qed.
