(** * UdpProxyFacts: the invariant of the UDP proxy *)
From Verif Require Import Base BaseFacts Proxy ProxySpec ProxyFacts UdpProxy UdpProxySpec.
Local Open Scope nat_scope.

Ltac ustate := unfold say, store, with_obj, with_cur, with_posted, with_held, with_pend, with_next in *; cbn [uobj ucur uposted uheld upend unext ulog] in *.

Lemma upd_same f id v : upd f id v id = v. Proof. unfold upd. now rewrite N.eqb_refl. Qed.
Lemma upd_other f id v j : j <> id -> upd f id v j = f j. Proof. intros H. unfold upd. destruct (N.eqb_spec j id); [contradiction|reflexivity]. Qed.

Lemma port_taken_spec x s : (forall i p, uobj s i = Some p -> (i < unext s)%N) ->
  (port_taken x s = true <-> exists i p, uobj s i = Some p /\ so_open (sock_of x p) = true).
Proof.
  intros L. unfold port_taken. rewrite existsb_exists. split.
  - intros [n [_ H]]. destruct (uobj s (N.of_nat n)) as [p|] eqn:E; [|discriminate]. eauto.
  - intros (i & p & E & H). exists (N.to_nat i). split; [apply in_seq; specialize (L _ _ E); lia|]. now rewrite N2Nat.id, E.
Qed.

Definition fresh : usess := {| lo := set_act Rx true new_sock; up := new_sock; ustack := true; uapp := false |}.

(** Starting a session when all sockets are closed *)
Lemma start_session_spec c s : ucur s = Some c -> unext s = (c + 1)%N -> uheld s = [] ->
  (forall i p, uobj s i = Some p -> (i <= c)%N /\ so_open (lo p) = false /\ so_open (up p) = false) ->
  exists s', start_session s = UGood s' /\
    (forall i, uobj s' i = if (i =? c + 1)%N then Some fresh else if (i =? c)%N && negb (mem c (uposted s)) then None else uobj s i) /\
    ucur s' = Some (c + 1)%N /\ uposted s' = uposted s /\ uheld s' = [] /\ upend s' = upend s ++ [((c + 1)%N, Lower, Rx)] /\ unext s' = (c + 1 + 1)%N /\
    ulog s' = ulog s ++ [UBound (c + 1) Lower; UBound (c + 1) Upper; UStarted (c + 1)] ++ if mem c (uposted s) then [] else [UDestroyed c].
Proof.
  intros Hc Hn Hh Ho. unfold start_session.
  assert (forall x, port_taken x s = false) as P.
  { intros x. destruct (port_taken x s) eqn:E; [|reflexivity]. apply port_taken_spec in E; [|intros i p Hi; apply Ho in Hi; lia].
    destruct E as (i & p & E1 & E2). apply Ho in E1. destruct x; cbn in E2; intuition congruence. }
  rewrite !P. cbn [orb]. rewrite Hc. unfold drop. ustate. rewrite Hn, Hh. destruct (N.eqb_spec (c + 1) c) as [F|_]; [lia|]. cbn [mem existsb orb]. rewrite orb_false_r.
  destruct (mem c (uposted s)) eqn:Em.
  - unfold u_start, member. ustate. rewrite upd_same. cbn [active sock_of lo so_rx new_sock ubind]. ustate. rewrite upd_same. eexists. split; [reflexivity|]. ustate.
    split; [|repeat split; rewrite <- ?app_assoc; reflexivity]. intros i. unfold upd. cbn [negb]. rewrite andb_false_r.
    destruct (N.eqb_spec i (c + 1)); reflexivity.
  - unfold u_start, member. ustate. assert (upd (upd (uobj s) (c + 1) (Some {| lo := new_sock; up := new_sock; ustack := false; uapp := false |})) c None (c + 1)%N = Some {| lo := new_sock; up := new_sock; ustack := false; uapp := false |}) as E.
    { rewrite upd_other by lia. apply upd_same. }
    rewrite E. cbn [active sock_of lo so_rx new_sock ubind]. ustate. rewrite upd_same. eexists. split; [reflexivity|]. ustate.
    split; [|repeat split; rewrite <- ?app_assoc; reflexivity]. intros i. unfold upd. cbn [negb]. rewrite andb_true_r.
    destruct (N.eqb_spec i (c + 1)); [reflexivity|]. destruct (N.eqb_spec i c); reflexivity.
Qed.

(** The shutdown of a session whose upper layer is closed *)
Definition off (o : usess) : usess := {| lo := if so_open (lo o) then closed_sock (lo o) else lo o; up := up o; ustack := false; uapp := uapp o |}.
Lemma idle_off o : idle (off o) = idle o. Proof. unfold idle, off. cbn. now destruct (so_open (lo o)). Qed.

Lemma shutdown_spec h c o s : uobj s c = Some o -> uapp o = false ->
  exists s', u_shutdown h c s = UGood s' /\ (forall i, uobj s' i = if (i =? c)%N then Some (off o) else uobj s i) /\
    ucur s' = ucur s /\ uposted s' = (if idle o then uposted s else uposted s ++ [c]) /\ uheld s' = uheld s /\ upend s' = upend s /\ unext s' = unext s /\
    ulog s' = ulog s ++ if so_open (lo o) then [UClosed c Lower] else [].
Proof.
  intros Ho Ha. unfold u_shutdown, u_try_close, member. rewrite Ho. cbn [sock_of].
  assert (exists s1, (if so_open (lo o) then UGood (say (UClosed c Lower) (store c (set_sock Lower (closed_sock (lo o)) o) s)) else UGood s) = UGood s1 /\
    uobj s1 c = Some (set_sock Lower (if so_open (lo o) then closed_sock (lo o) else lo o) o) /\ (forall i, i <> c -> uobj s1 i = uobj s i) /\
    ucur s1 = ucur s /\ uposted s1 = uposted s /\ uheld s1 = uheld s /\ upend s1 = upend s /\ unext s1 = unext s /\
    ulog s1 = ulog s ++ if so_open (lo o) then [UClosed c Lower] else []) as (s1 & E1 & A1 & A2 & A3 & A4 & A5 & A6 & A7 & A8).
  { destruct (so_open (lo o)); eexists; (split; [reflexivity|]); ustate; [rewrite upd_same; split; [reflexivity|]; split; [intros; now apply upd_other|repeat split]|].
    rewrite Ho, app_nil_r. repeat split. now destruct o. }
  rewrite E1. cbn [ubind]. unfold u_close_stack, member. rewrite A1. cbn [ustack set_sock].
  assert (exists s2, (if ustack o then go s2 <- u_close_upper h c (store c (set_ustack false (set_sock Lower (if so_open (lo o) then closed_sock (lo o) else lo o) o)) s1); match uobj s2 c with Some _ => UGood s2 | None => UBad UseAfterFree end
     else UGood s1) = UGood s2 /\ uobj s2 c = Some (off o) /\ (forall i, i <> c -> uobj s2 i = uobj s i) /\
    ucur s2 = ucur s /\ uposted s2 = uposted s /\ uheld s2 = uheld s /\ upend s2 = upend s /\ unext s2 = unext s /\
    ulog s2 = ulog s ++ if so_open (lo o) then [UClosed c Lower] else []) as (s2 & E2 & B1 & B2 & B3 & B4 & B5 & B6 & B7 & B8).
  { destruct (ustack o) eqn:Es.
    - unfold u_close_upper, member. ustate. rewrite upd_same. cbn [set_ustack uapp set_sock]. rewrite Ha. cbn [ubind uobj]. rewrite upd_same. eexists. split; [reflexivity|]. ustate.
      rewrite upd_same. split; [unfold off, set_ustack; cbn; now rewrite ?Ha|]. split; [intros i Hi; rewrite upd_other by assumption; now apply A2|repeat split; assumption].
    - eexists. split; [reflexivity|]. split; [rewrite A1; unfold off; rewrite <- Es; reflexivity|repeat split; assumption]. }
  cbn [set_sock lo] in E2. rewrite E2. cbn [ubind]. unfold u_check, member. rewrite B1, idle_off.
  destruct (idle o); eexists; (split; [reflexivity|]); ustate; rewrite ?B3, ?B4, ?B5, ?B6, ?B7, ?B8; (split; [|repeat split; congruence]); intros i; (destruct (N.eqb_spec i c) as [->|Hi]; [assumption|auto]).
Qed.

(** The handler, when the upper layer of the current session is already closed *)
Definition renewed (c : N) (o : usess) (s s' : udp) : Prop :=
  (forall i, uobj s' i = if (i =? c + 1)%N then Some fresh else if (i =? c)%N then (if idle o then None else Some (off o)) else uobj s i) /\
  ucur s' = Some (c + 1)%N /\ uposted s' = (if idle o then uposted s else uposted s ++ [c]) /\ uheld s' = [] /\
  upend s' = upend s ++ [((c + 1)%N, Lower, Rx)] /\ unext s' = (c + 1 + 1)%N /\
  ulog s' = ulog s ++ (if so_open (lo o) then [UClosed c Lower] else []) ++ [UBound (c + 1) Lower; UBound (c + 1) Upper; UStarted (c + 1)] ++ (if idle o then [UDestroyed c] else []).

Lemma restart_spec n c o s : ucur s = Some c -> uobj s c = Some o -> uapp o = false -> so_open (up o) = false -> unext s = (c + 1)%N ->
  (forall i p, i <> c -> uobj s i = Some p -> (i < c)%N /\ so_open (lo p) = false /\ so_open (up p) = false) -> ~ In c (uposted s) -> uheld s = [] ->
  exists s', u_session_error (S n) s = UGood s' /\ renewed c o s s'.
Proof.
  intros Hc Ho Ha Hu Hn Hx Hp Hh. cbn [u_session_error]. rewrite Hc.
  destruct (shutdown_spec (u_session_error n) c o s Ho Ha) as (s1 & E1 & A1 & A2 & A3 & A4 & A5 & A6 & A7). rewrite E1. cbn [ubind].
  destruct (start_session_spec c s1) as (s2 & E2 & B1 & B2 & B3 & B4 & B5 & B6 & B7); try congruence.
  { intros i p. rewrite A1. destruct (N.eqb_spec i c) as [->|Hi].
    - intros [= <-]. split; [lia|]. split; [|exact Hu]. cbn. destruct (so_open (lo o)) eqn:E; [reflexivity|exact E].
    - intros Hi'. destruct (Hx _ _ Hi Hi') as (X1 & X2 & X3). split; [lia|auto]. }
  exists s2. split; [exact E2|].
  assert (mem c (uposted s1) = negb (idle o)) as M.
  { rewrite A3. destruct (idle o); cbn [negb]; [now apply mem_false|]. apply mem_In, in_or_app. right. now left. }
  unfold renewed. rewrite M in *. split; [|split; [exact B2|split; [congruence|split; [exact B4|split; [congruence|split; [exact B6|]]]]]].
  - intros i. rewrite B1, A1. destruct (i =? c + 1)%N; [reflexivity|]. destruct (i =? c)%N; [|reflexivity]. destruct (idle o); reflexivity.
  - rewrite B7, A7, <- app_assoc. destruct (idle o); reflexivity.
Qed.

(** ** The invariant *)
Definition ev_id (e : uev) : N := match e with UBound i _ | UStarted i | UUp i | UDone i _ _ _ | UClosed i _ | UDestroyed i => i end.

Record oldok (s : udp) (c i : N) (p : usess) : Prop := {
  old_lt : (i < c)%N; old_lo : so_open (lo p) = false; old_up : so_open (up p) = false; old_stack : ustack p = false; old_app : uapp p = false;
  old_seen : forall d, seen d (up p) = true -> active d (up p) = false; old_posted : In i (uposted s) }.

Record uinv (s : udp) (c : N) (o : usess) : Prop := {
  u_cur : ucur s = Some c; u_next : unext s = (c + 1)%N; u_obj : uobj s c = Some o; u_lo : so_open (lo o) = true; u_up : so_open (up o) = true;
  u_seen : forall x d, seen d (sock_of x o) = true <-> In (UDone c x d true) (ulog s);
  u_app : uapp o = true <-> In (UUp c) (ulog s); u_stack : uapp o = true -> ustack o = true;
  u_upper : forall d, active d (up o) = true -> uapp o = true;
  u_posted : forall i, In i (uposted s) -> (i < c)%N /\ exists p, uobj s i = Some p; u_held : uheld s = [];
  u_old : forall i p, i <> c -> uobj s i = Some p -> oldok s c i p;
  u_pend : forall i x d, In (i, x, d) (upend s) <-> exists p, uobj s i = Some p /\ active d (sock_of x p) = true;
  u_nodup : NoDup (upend s);
  u_started : started (ulog s) = ids (c + 1);
  u_holding : forall x, holding x (ulog s) = [c];
  u_gone : forall i, In i (gone (ulog s)) <-> (i <= c)%N /\ uobj s i = None;
  u_ids : forall e, In e (ulog s) -> (ev_id e <= c)%N }.

Lemma started_app a b : started (a ++ b) = started a ++ started b. Proof. apply flat_map_app. Qed.
Lemma gone_app a b : gone (a ++ b) = gone a ++ gone b. Proof. apply flat_map_app. Qed.
Lemma holding_app x a b : holding x (a ++ b) = fold_left (binding x) b (holding x a). Proof. apply fold_left_app. Qed.
Lemma In_snoc {A} (x y : A) l : In x (l ++ [y]) <-> In x l \/ x = y. Proof. rewrite in_app_iff. cbn. intuition. Qed.

(** A state that differs only in the sockets and flags of one session, and in the log by events that bind and destroy nothing *)
Lemma latest_inv s c o : uinv s c o -> latest (ulog s) = Some c.
Proof. intros H. unfold latest. rewrite (u_started _ _ _ H), ids_S, map_app. cbn. apply last_last. Qed.

Definition mild (id : N) (l : list uev) : Prop := forall e, In e l -> match e with UUp i | UDone i _ _ _ => i = id | _ => False end.
Lemma mild_started id l : mild id l -> started l = [].
Proof. induction l as [|e l IH]; intros H; [reflexivity|]. specialize (IH ltac:(intros a Ha; apply H; now right)). specialize (H e (or_introl eq_refl)). destruct e; try contradiction; exact IH. Qed.
Lemma mild_gone id l : mild id l -> gone l = [].
Proof. induction l as [|e l IH]; intros H; [reflexivity|]. specialize (IH ltac:(intros a Ha; apply H; now right)). specialize (H e (or_introl eq_refl)). destruct e; try contradiction; exact IH. Qed.
Lemma mild_holding id l : mild id l -> forall x h, fold_left (binding x) l h = h.
Proof. induction l as [|e l IH]; intros H x h; [reflexivity|]. cbn. specialize (IH ltac:(intros a Ha; apply H; now right) x). specialize (H e (or_introl eq_refl)). destruct e; try contradiction; apply IH. Qed.
Lemma mild_ids id l e : mild id l -> In e l -> ev_id e = id.
Proof. intros H He. specialize (H e He). now destruct e. Qed.

Lemma local_inv s c o s' id p p' l : uinv s c o -> uobj s id = Some p -> (forall i, uobj s' i = if (i =? id)%N then Some p' else uobj s i) ->
  ucur s' = ucur s -> unext s' = unext s -> uposted s' = uposted s -> uheld s' = uheld s -> ulog s' = ulog s ++ l -> mild id l ->
  so_open (lo p') = so_open (lo p) -> so_open (up p') = so_open (up p) ->
  (id = c -> (forall x d, seen d (sock_of x p') = true <-> seen d (sock_of x p) = true \/ In (UDone c x d true) l) /\ (uapp p' = true <-> uapp p = true \/ In (UUp c) l) /\
     (uapp p' = true -> ustack p' = true) /\ (forall d, active d (up p') = true -> uapp p' = true)) ->
  (id <> c -> ustack p' = false /\ uapp p' = false /\ forall d, seen d (up p') = true -> active d (up p') = false) ->
  (forall i x d, In (i, x, d) (upend s') <-> exists q, uobj s' i = Some q /\ active d (sock_of x q) = true) -> NoDup (upend s') ->
  exists o', uinv s' c o'.
Proof.
  intros H Hp Ho H1 H2 H3 H4 Hl Hm L1 L2 Hc Hn P1 P2. exists (if (id =? c)%N then p' else o).
  assert (Lt : (id <= c)%N). { destruct (N.eq_dec id c) as [->|F]; [lia|]. pose proof (old_lt _ _ _ _ (u_old _ _ _ H _ _ F Hp)). lia. }
  assert (X : forall e, ev_id e <> id -> ~ In e l). { intros e F He. apply F. eapply mild_ids; eauto. }
  destruct H as [A1 A2 A3 A4 A5 A6 A7 A8 A9 A10 A11 A12 A13 A14 A15 A16 A17 A18].
  destruct (N.eqb_spec id c) as [->|Ne].
  - assert (o = p) as -> by congruence. destruct (Hc eq_refl) as (C1 & C2 & C3 & C4).
    constructor; try congruence.
    + rewrite Ho, N.eqb_refl. reflexivity.
    + intros x d. rewrite C1, A6, Hl, in_app_iff. reflexivity.
    + rewrite C2, A7, Hl, in_app_iff. reflexivity.
    + exact C3.
    + exact C4.
    + intros i. rewrite H3, Ho. intros K. apply A10 in K. destruct (i =? c)%N; [split; [apply K|eauto]|exact K].
    + intros i q F. rewrite Ho. destruct (N.eqb_spec i c); [contradiction|]. intros E. destruct (A12 _ _ F E). constructor; auto. now rewrite H3.
    + exact P1.
    + rewrite Hl, started_app, (mild_started _ _ Hm), app_nil_r. exact A15.
    + intros x. rewrite Hl, holding_app, (mild_holding _ _ Hm). apply A16.
    + intros i. rewrite Hl, gone_app, (mild_gone _ _ Hm), app_nil_r, A17, Ho. destruct (N.eqb_spec i c) as [->|]; [|reflexivity]. rewrite A3. split; intros [_ F]; discriminate.
    + intros e. rewrite Hl, in_app_iff. intros [He|He]; [auto|]. rewrite (mild_ids _ _ _ Hm He). lia.
  - destruct (Hn Ne) as (C1 & C2 & C3). pose proof (A12 _ _ Ne Hp) as [O1 O2 O3 O4 O5 O6 O7].
    constructor; try congruence.
    + rewrite Ho. destruct (N.eqb_spec c id); [congruence|assumption].
    + intros x d. rewrite A6, Hl, in_app_iff. split; [auto|]. intros [K|K]; [assumption|]. exfalso. eapply X; [|exact K]. cbn. congruence.
    + rewrite A7, Hl, in_app_iff. split; [auto|]. intros [K|K]; [assumption|]. exfalso. eapply X; [|exact K]. cbn. congruence.
    + exact A8.
    + exact A9.
    + intros i. rewrite H3, Ho. intros K. apply A10 in K. destruct (i =? id)%N; [split; [apply K|eauto]|exact K].
    + intros i q F. rewrite Ho. destruct (N.eqb_spec i id) as [->|].
      * intros [= <-]. constructor; try congruence; auto.
      * intros E. destruct (A12 _ _ F E). constructor; auto. now rewrite H3.
    + exact P1.
    + rewrite Hl, started_app, (mild_started _ _ Hm), app_nil_r. exact A15.
    + intros x. rewrite Hl, holding_app, (mild_holding _ _ Hm). apply A16.
    + intros i. rewrite Hl, gone_app, (mild_gone _ _ Hm), app_nil_r, A17, Ho. destruct (N.eqb_spec i id) as [->|]; [|reflexivity]. rewrite Hp. split; intros [_ F]; discriminate.
    + intros e. rewrite Hl, in_app_iff. intros [He|He]; [auto|]. rewrite (mild_ids _ _ _ Hm He). lia.
Qed.

Lemma idle_spec o : idle o = true <-> forall x d, active d (sock_of x o) = false.
Proof.
  unfold idle. rewrite negb_true_iff, !orb_false_iff. split.
  - intros [[A B] [C D]] [] []; assumption.
  - intros H. repeat split; [apply (H Lower Rx)|apply (H Lower Tx)|apply (H Upper Rx)|apply (H Upper Tx)].
Qed.

Lemma renewed_inv s c o s' p l P : uinv s c o ->
  (forall i, uobj s' i = if (i =? c + 1)%N then Some fresh else if (i =? c)%N then (if idle p then None else Some p) else uobj s i) ->
  so_open (lo p) = false -> so_open (up p) = false -> ustack p = false -> uapp p = false -> (forall d, seen d (up p) = false) ->
  ucur s' = Some (c + 1)%N -> uposted s' = (if idle p then uposted s else uposted s ++ [c]) -> uheld s' = [] -> unext s' = (c + 1 + 1)%N ->
  upend s' = P ++ [((c + 1)%N, Lower, Rx)] -> NoDup P ->
  (forall i x d, In (i, x, d) P <-> exists q, (if (i =? c)%N then Some p else uobj s i) = Some q /\ active d (sock_of x q) = true) ->
  ulog s' = ulog s ++ l ++ [UBound (c + 1) Lower; UBound (c + 1) Upper; UStarted (c + 1)] ++ (if idle p then [UDestroyed c] else []) ->
  started l = [] -> gone l = [] -> (forall x, fold_left (binding x) l [c] = []) -> (forall e, In e l -> ev_id e = c) ->
  uinv s' (c + 1)%N fresh.
Proof.
  intros H Ho L1 L2 L3 L4 L5 H1 H2 H3 H4 Hp Nd P1 Hl Q1 Q2 Q3 Q4.
  destruct H as [A1 A2 A3 A4 A5 A6 A7 A8 A9 A10 A11 A12 A13 A14 A15 A16 A17 A18].
  assert (LT : forall i q, uobj s i = Some q -> (i <= c)%N). { intros i q E. destruct (N.eq_dec i c) as [->|F]; [lia|]. pose proof (old_lt _ _ _ _ (A12 _ _ F E)). lia. }
  assert (NI : forall e, ev_id e = (c + 1)%N -> ~ In e (ulog s)). { intros e F He. apply A18 in He. lia. }
  assert (NL : forall e, ev_id e = (c + 1)%N -> ~ In e l). { intros e F He. apply Q4 in He. lia. }
  constructor; try congruence; try reflexivity.
  - rewrite Ho, N.eqb_refl. reflexivity.
  - intros x d. rewrite Hl, !in_app_iff. split.
    + destruct x, d; discriminate.
    + intros [K|[K|[K|K]]]; exfalso; [eapply NI; [|exact K]; reflexivity|eapply NL; [|exact K]; reflexivity|cbn in K; intuition discriminate|destruct (idle p); cbn in K; intuition discriminate].
  - rewrite Hl, !in_app_iff. split; [discriminate|].
    intros [K|[K|[K|K]]]; exfalso; [eapply NI; [|exact K]; reflexivity|eapply NL; [|exact K]; reflexivity|cbn in K; intuition discriminate|destruct (idle p); cbn in K; intuition discriminate].
  - intros []; discriminate.
  - intros i. rewrite H2, Ho. intros K. assert (In i (uposted s) \/ i = c /\ idle p = false) as [Z|[-> Z]].
    { destruct (idle p); [auto|]. apply in_app_iff in K. destruct K as [K|[K|[]]]; auto. }
    + apply A10 in Z. destruct Z as [Z1 Z2]. split; [lia|]. destruct (N.eqb_spec i (c + 1)); [lia|]. destruct (N.eqb_spec i c); [lia|exact Z2].
    + split; [lia|]. destruct (N.eqb_spec c (c + 1)); [lia|]. rewrite N.eqb_refl, Z. eauto.
  - intros i q F. rewrite Ho. destruct (N.eqb_spec i (c + 1)); [contradiction|]. destruct (N.eqb_spec i c) as [->|Ne].
    + destruct (idle p) eqn:I; [discriminate|]. intros [= <-]. constructor; auto; [lia|now intros; rewrite L5 in *|]. rewrite H2. apply in_app_iff. right. now left.
    + intros E. destruct (A12 _ _ Ne E). constructor; auto; [lia|]. rewrite H2. destruct (idle p); [assumption|]. apply in_app_iff. now left.
  - intros i x d. rewrite Hp, in_app_iff, P1, Ho. destruct (N.eqb_spec i (c + 1)) as [->|Ne].
    + destruct (N.eqb_spec (c + 1) c); [lia|]. split.
      * intros [(q & E & _)|[K|[]]]; [apply LT in E; lia|]. inversion K; subst. exists fresh. split; reflexivity.
      * intros (q & [= <-] & K). right. left. destruct x, d; try discriminate. reflexivity.
    + split.
      * intros [K|[K|[]]]; [|congruence]. destruct (N.eqb_spec i c) as [->|]; [|assumption]. destruct K as (q & [= <-] & K).
        destruct (idle p) eqn:I; [|eauto]. rewrite idle_spec in I. rewrite I in K. discriminate.
      * intros K. left. destruct (N.eqb_spec i c) as [->|]; [|assumption]. destruct (idle p); [destruct K as (q & F & _); discriminate|assumption].
  - rewrite Hp. apply NoDup_app_disj; [assumption|repeat constructor; intros []|]. intros a K [<-|[]]. apply P1 in K. destruct K as (q & E & _). destruct (N.eqb_spec (c + 1) c); [lia|]. apply LT in E. lia.
  - rewrite Hl, !started_app, Q1, A15, (ids_S (c + 1)). cbn. destruct (idle p); reflexivity.
  - intros x. rewrite Hl, holding_app, A16, fold_left_app, Q3. destruct x, (idle p); reflexivity.
  - intros i. rewrite Hl, !gone_app, Q2, in_app_iff, A17, Ho. cbn [app gone flat_map].
    destruct (N.eqb_spec i (c + 1)) as [->|Ne].
    + split; [intros [[K _]|K]; [lia|]|intros [_ F]; discriminate]. destruct (idle p); cbn in K; [destruct K as [K|[]]; lia|contradiction].
    + destruct (N.eqb_spec i c) as [->|Ne2].
      * rewrite A3. destruct (idle p); cbn; split; try (intros [[_ F]|[]]; discriminate); try (intros [_ F]; discriminate); try (intros; split; [lia|reflexivity]); intros; right; now left.
      * split.
        -- intros [[K1 K2]|K]; [split; [lia|assumption]|]. destruct (idle p); cbn in K; [destruct K as [K|[]]; congruence|contradiction].
        -- intros [K1 K2]. left. split; [lia|assumption].
  - intros e. rewrite Hl, !in_app_iff. intros [K|[K|[K|K]]]; [apply A18 in K; lia|apply Q4 in K; lia|cbn in K; intuition (subst; cbn; lia)|destruct (idle p); cbn in K; intuition (subst; cbn; lia)].
Qed.

(** ** Operations *)
Definition same_way (a b : way) : bool := match a, b with Rx, Rx | Tx, Tx => true | _, _ => false end.
Definition act_set (x : side) (d : way) (b : bool) (p p' : usess) : Prop :=
  forall y e, active e (sock_of y p') = if same_side x y && same_way d e then b else active e (sock_of y p).
Lemma same_spec x y d e : same_side x y && same_way d e = true <-> (y, e) = (x, d).
Proof. destruct x, y, d, e; cbn; split; congruence. Qed.

Lemma pend_add s c o id x d p p' obj' : uinv s c o -> uobj s id = Some p -> active d (sock_of x p) = false -> act_set x d true p p' ->
  (forall i, obj' i = if (i =? id)%N then Some p' else uobj s i) ->
  (forall i y e, In (i, y, e) (upend s ++ [(id, x, d)]) <-> exists q, obj' i = Some q /\ active e (sock_of y q) = true) /\ NoDup (upend s ++ [(id, x, d)]).
Proof.
  intros H Hp Ha S Ho. split.
  - intros i y e. rewrite in_app_iff, (u_pend _ _ _ H), Ho. destruct (N.eqb_spec i id) as [->|Ne].
    + rewrite Hp. split.
      * intros [(q & [= <-] & K)|[K|[]]]; exists p'; (split; [reflexivity|]); rewrite S; [destruct (same_side x y && same_way d e); auto|]. inversion K; subst. now rewrite (proj2 (same_spec y y e e) eq_refl).
      * intros (q & [= <-] & K). rewrite S in K. destruct (same_side x y && same_way d e) eqn:E; [apply same_spec in E; inversion E; subst; right; now left|left; eauto].
    + split; [intros [K|[K|[]]]; [assumption|congruence]|auto].
  - apply NoDup_app_disj; [apply (u_nodup _ _ _ H)|repeat constructor; intros []|]. intros a K [<-|[]]. apply (u_pend _ _ _ H) in K. destruct K as (q & E & K). congruence.
Qed.

Lemma pend_remove s c o id x d p p' obj' : uinv s c o -> uobj s id = Some p -> act_set x d false p p' ->
  (forall i, obj' i = if (i =? id)%N then Some p' else uobj s i) ->
  (forall i y e, In (i, y, e) (remove_op (id, x, d) (upend s)) <-> exists q, obj' i = Some q /\ active e (sock_of y q) = true) /\ NoDup (remove_op (id, x, d) (upend s)).
Proof.
  intros H Hp S Ho. pose proof (u_nodup _ _ _ H) as Nd. split; [|now apply NoDup_remove_op].
  intros i y e. rewrite (In_remove_op _ _ _ Nd), (u_pend _ _ _ H), Ho. destruct (N.eqb_spec i id) as [->|Ne].
  - rewrite Hp. split.
    + intros [(q & [= <-] & K) F]. exists p'. split; [reflexivity|]. rewrite S. destruct (same_side x y && same_way d e) eqn:E; [apply same_spec in E; congruence|assumption].
    + intros (q & [= <-] & K). rewrite S in K. destruct (same_side x y && same_way d e) eqn:E; [discriminate|]. split; [eauto|]. intros [= -> ->]. rewrite (proj2 (same_spec _ _ _ _) eq_refl) in E. discriminate.
  - split; [intros [K _]; assumption|]. intros K. split; [assumption|congruence].
Qed.

Lemma pend_obj s c o id x d : uinv s c o -> In (id, x, d) (upend s) -> exists p, uobj s id = Some p /\ active d (sock_of x p) = true.
Proof. intros H. apply (u_pend _ _ _ H). Qed.

Lemma start_inv s c o id x d p : uinv s c o -> uobj s id = Some p -> (x = Upper -> uapp p = true) ->
  exists s' o', u_start id x d s = UGood s' /\ uinv s' c o' /\ ulog s' = ulog s /\
    (forall i y e, In (i, y, e) (upend s') <-> In (i, y, e) (upend s) \/ (i, y, e) = (id, x, d)).
Proof.
  intros H Hp Hx. unfold u_start, member. rewrite Hp. destruct (active d (sock_of x p)) eqn:A.
  - exists s, o. split; [reflexivity|]. split; [assumption|]. split; [reflexivity|]. intros. split; [auto|]. intros [K|K]; [assumption|]. inversion K; subst. apply (u_pend _ _ _ H). eauto.
  - set (p' := set_sock x (set_act d true (sock_of x p)) p). eexists.
    assert (S : act_set x d true p p') by (intros [] []; destruct x, d; reflexivity).
    destruct (pend_add s c o id x d p p' (upd (uobj s) id (Some p')) H Hp A S ltac:(intros; reflexivity)) as [P1 P2].
    destruct (local_inv s c o (with_pend (upend s ++ [(id, x, d)]) (store id p' s)) id p p' [] H Hp) as [o' I]; ustate; try reflexivity; auto.
    + symmetry. apply app_nil_r.
    + intros e [].
    + subst p'. destruct x, d; reflexivity.
    + subst p'. destruct x, d; reflexivity.
    + intros ->. rewrite (u_obj _ _ _ H) in Hp. inversion Hp; subst p. split; [|split; [|split]].
      * intros y e. cbn. subst p'. destruct x, d, y, e; cbn; tauto.
      * subst p'. destruct x; cbn; tauto.
      * intros K. assert (ustack p' = ustack o) as -> by (subst p'; destruct x; reflexivity). apply (u_stack _ _ _ H). subst p'. destruct x; exact K.
      * intros e K. assert (uapp p' = uapp o) as -> by (subst p'; destruct x; reflexivity). destruct x; [|auto]. apply (u_upper _ _ _ H e). subst p'. exact K.
    + intros Ne. pose proof (u_old _ _ _ H _ _ Ne Hp) as [O1 O2 O3 O4 O5 O6 O7]. assert (x = Lower) as -> by (destruct x; [reflexivity|rewrite Hx in O5 by reflexivity; discriminate]).
      subst p'. cbn. auto.
    + exists o'. split; [reflexivity|]. split; [exact I|]. split; [reflexivity|]. intros. cbn. rewrite in_app_iff. cbn. intuition.
Qed.

Lemma opens_inv s c o : uinv s c o -> ustack o = true -> uapp o = false ->
  exists s' o', ustep s (UOpens c) = UGood s' /\ uinv s' c o' /\ ulog s' = ulog s ++ [UUp c] /\ In (c, Upper, Rx) (upend s').
Proof.
  intros H Hs Ha. cbn [ustep]. rewrite (u_obj _ _ _ H), Hs, Ha. cbn [andb negb].
  destruct (local_inv s c o (say (UUp c) (store c (set_uapp true o) s)) c o (set_uapp true o) [UUp c] H (u_obj _ _ _ H)) as [o1 I]; ustate; try reflexivity; auto.
  - intros e [<-|[]]. reflexivity.
  - intros _. split; [|split; [|split]].
    + intros x d. assert (sock_of x (set_uapp true o) = sock_of x o) as -> by (destruct x; reflexivity). split; [auto|]. intros [K|[K|[]]]; [assumption|discriminate].
    + cbn. intuition.
    + intros _. exact Hs.
    + reflexivity.
  - intros F. now contradiction F.
  - intros i x d. rewrite (u_pend _ _ _ H). unfold upd. destruct (N.eqb_spec i c) as [->|]; [|reflexivity]. rewrite (u_obj _ _ _ H).
    split; intros (q & [= <-] & K); eexists; (split; [reflexivity|]); destruct x, d; exact K.
  - apply (u_nodup _ _ _ H).
  - edestruct (start_inv _ _ _ c Upper Rx (set_uapp true o) I) as (s2 & o2 & E & I2 & L & P).
    + cbn. apply upd_same.
    + reflexivity.
    + exists s2, o2. split; [exact E|]. split; [exact I2|]. split; [rewrite L; reflexivity|]. apply P. right. reflexivity.
Qed.

(** The end of an operation, as far as the socket is concerned *)
Lemma done_inv s c o id x d p (ok : bool) : uinv s c o -> uobj s id = Some p -> active d (sock_of x p) = true ->
  let k := set_act d false (sock_of x p) in let p' := set_sock x (if ok then set_seen d k else k) p in
  exists o', uinv (say (UDone id x d ok) (store id p' (with_pend (remove_op (id, x, d) (upend s)) s))) c o'.
Proof.
  intros H Hp A k p'. assert (S : act_set x d false p p') by (intros [] []; subst p' k; destruct x, d, ok; reflexivity).
  destruct (pend_remove s c o id x d p p' (upd (uobj s) id (Some p')) H Hp S ltac:(intros; reflexivity)) as [P1 P2].
  eapply (local_inv s c o _ id p p' [UDone id x d ok]); ustate; try reflexivity; auto.
  - intros e [<-|[]]. reflexivity.
  - subst p' k. destruct x, d, ok; reflexivity.
  - subst p' k. destruct x, d, ok; reflexivity.
  - intros ->. rewrite (u_obj _ _ _ H) in Hp. inversion Hp; subst p. split; [|split; [|split]].
    + intros y e. cbn [In]. subst p' k. destruct ok, x, d, y, e; cbn; (split; [auto; intros K; right; left; reflexivity|intros [K|[K|[]]]; first [reflexivity | exact K | discriminate K]]).
    + assert (uapp p' = uapp o) as -> by (subst p'; destruct x; reflexivity). cbn. intuition; discriminate.
    + assert (uapp p' = uapp o) as -> by (subst p'; destruct x; reflexivity). assert (ustack p' = ustack o) as -> by (subst p'; destruct x; reflexivity). apply (u_stack _ _ _ H).
    + assert (uapp p' = uapp o) as -> by (subst p'; destruct x; reflexivity). intros e K. apply (u_upper _ _ _ H e). change (up p') with (sock_of Upper p') in K. rewrite S in K.
      destruct (same_side x Upper && same_way d e); [discriminate|exact K].
  - intros Ne. pose proof (u_old _ _ _ H _ _ Ne Hp) as [O1 O2 O3 O4 O5 O6 O7]. split; [subst p'; destruct x; exact O4|]. split; [subst p'; destruct x; exact O5|].
    intros e K. change (up p') with (sock_of Upper p'). rewrite S. destruct (same_side x Upper && same_way d e) eqn:E; [reflexivity|]. apply O6.
    subst p' k. destruct x; [exact K|]. destruct d, e, ok; cbn in *; try discriminate; exact K.
Qed.

(** ** Errors *)
Lemma error_renews n s c o m q b : uinv s c o -> q = {| lo := lo o; up := closed_sock (up o); ustack := b; uapp := false |} ->
  (forall i, uobj m i = if (i =? c)%N then Some q else uobj s i) -> ucur m = ucur s -> uposted m = uposted s -> uheld m = uheld s -> upend m = upend s -> unext m = unext s ->
  ulog m = ulog s ++ [UClosed c Upper] ->
  exists s', u_session_error (S n) m = UGood s' /\ uinv s' (c + 1)%N fresh /\ (uobj s' c = None <-> idle o = true) /\
    ulog s' = ulog s ++ [UClosed c Upper; UClosed c Lower; UBound (c + 1) Lower; UBound (c + 1) Upper; UStarted (c + 1)] ++ (if idle o then [UDestroyed c] else []).
Proof.
  intros H Eq Ho H1 H2 H3 H4 H5 H6. assert (Iq : idle q = idle o) by (subst q; reflexivity).
  assert (Qc : uobj m c = Some q) by (rewrite Ho, N.eqb_refl; reflexivity).
  destruct (restart_spec n c q m) as (s' & E & R1 & R2 & R3 & R4 & R5 & R6 & R7).
  - rewrite H1. apply (u_cur _ _ _ H).
  - exact Qc.
  - subst q. reflexivity.
  - subst q. reflexivity.
  - rewrite H5. apply (u_next _ _ _ H).
  - intros i p Ne. rewrite Ho. destruct (N.eqb_spec i c); [contradiction|]. intros K. destruct (u_old _ _ _ H _ _ Ne K). auto.
  - rewrite H2. intros K. apply (u_posted _ _ _ H) in K. lia.
  - rewrite H3. apply (u_held _ _ _ H).
  - exists s'. split; [exact E|].
    assert (Lq : so_open (lo q) = true) by (subst q; apply (u_lo _ _ _ H)). rewrite Lq in R7.
    assert (Io : idle (off q) = idle o) by (rewrite idle_off; exact Iq).
    assert (Ol : ulog s' = ulog s ++ [UClosed c Upper; UClosed c Lower] ++ [UBound (c + 1) Lower; UBound (c + 1) Upper; UStarted (c + 1)] ++ (if idle o then [UDestroyed c] else [])).
    { rewrite R7, H6, <- app_assoc, Iq. reflexivity. }
    split; [|split; [|exact Ol]].
    + eapply (renewed_inv s c o s' (off q) [UClosed c Upper; UClosed c Lower] (upend s) H).
      * intros i. rewrite R1, Io, Iq, Ho. destruct (i =? c + 1)%N; [reflexivity|]. destruct (i =? c)%N; reflexivity.
      * unfold off. cbn [lo]. rewrite Lq. reflexivity.
      * unfold off. cbn [up]. subst q. reflexivity.
      * reflexivity.
      * subst q. reflexivity.
      * intros d. subst q. destruct d; reflexivity.
      * exact R2.
      * rewrite R3, Io, Iq, H2. reflexivity.
      * exact R4.
      * exact R6.
      * rewrite R5, H4. reflexivity.
      * apply (u_nodup _ _ _ H).
      * intros i x d. rewrite (u_pend _ _ _ H). destruct (N.eqb_spec i c) as [->|]; [|reflexivity]. rewrite (u_obj _ _ _ H).
        assert (active d (sock_of x (off q)) = active d (sock_of x o)) as A by (unfold off; subst q; cbn; rewrite (u_lo _ _ _ H); destruct x, d; reflexivity).
        split; intros (p & [= <-] & K); eexists; (split; [reflexivity|]); congruence.
      * rewrite Io. exact Ol.
      * reflexivity.
      * reflexivity.
      * intros x. destruct x; cbn; rewrite N.eqb_refl; reflexivity.
      * intros e [<-|[<-|[]]]; reflexivity.
    + rewrite R1, Iq. destruct (N.eqb_spec c (c + 1)); [lia|]. rewrite N.eqb_refl. destruct (idle o); split; intros; congruence.
Qed.

Lemma lower_fails s c o : uinv s c o -> ustack o = true -> uapp o = true ->
  if idle o then u_close_stack handler c s = UBad UseAfterFree
  else exists s', u_close_stack handler c s = UGood s' /\ uinv s' (c + 1)%N fresh /\
    ulog s' = ulog s ++ [UClosed c Upper; UClosed c Lower; UBound (c + 1) Lower; UBound (c + 1) Upper; UStarted (c + 1)].
Proof.
  intros H Hs Ha. unfold u_close_stack, member. rewrite (u_obj _ _ _ H), Hs. unfold u_close_upper, member. ustate. rewrite upd_same. cbn [set_ustack uapp]. rewrite Ha.
  unfold u_try_close, member. ustate. rewrite upd_same. cbn [set_uapp set_ustack set_sock sock_of up]. rewrite (u_up _ _ _ H). cbn [ubind].
  match goal with |- context[handler ?m] => destruct (error_renews 2 s c o m {| lo := lo o; up := closed_sock (up o); ustack := false; uapp := false |} false H eq_refl) as (s' & E & I & G & L) end;
    ustate; try reflexivity.
  { intros i. unfold upd. destruct (i =? c)%N; reflexivity. }
  change (handler ?m) with (u_session_error 3 m). rewrite E. cbn [ubind]. destruct (idle o).
  - rewrite (proj2 G eq_refl). reflexivity.
  - destruct (uobj s' c) eqn:F; [|discriminate (proj1 G eq_refl)]. exists s'. split; [reflexivity|]. split; [exact I|]. rewrite L, app_nil_r. reflexivity.
Qed.

Lemma closes_renews s c o : uinv s c o -> uapp o = true ->
  exists s', u_close_upper handler c s = UGood s' /\ uinv s' (c + 1)%N fresh /\
    ulog s' = ulog s ++ [UClosed c Upper; UClosed c Lower; UBound (c + 1) Lower; UBound (c + 1) Upper; UStarted (c + 1)] ++ if idle o then [UDestroyed c] else [].
Proof.
  intros H Ha. unfold u_close_upper, member. rewrite (u_obj _ _ _ H), Ha.
  unfold u_try_close, member. ustate. rewrite upd_same. cbn [set_uapp set_ustack set_sock sock_of up]. rewrite (u_up _ _ _ H). cbn [ubind].
  match goal with |- context[handler ?m] => destruct (error_renews 2 s c o m {| lo := lo o; up := closed_sock (up o); ustack := ustack o; uapp := false |} (ustack o) H eq_refl) as (s' & E & I & G & L) end;
    ustate; try reflexivity.
  { intros i. unfold upd. destruct (i =? c)%N; reflexivity. }
  exists s'. split; [exact E|]. split; [exact I|]. exact L.
Qed.

Lemma port_of s x c o : uobj s c = Some o -> (c < unext s)%N -> so_open (sock_of x o) = true -> port_taken x s = true.
Proof. intros E L H. unfold port_taken. apply existsb_exists. exists (N.to_nat c). split; [apply in_seq; lia|]. now rewrite N2Nat.id, E. Qed.

Lemma upper_fails s c o : uinv s c o -> ustack o = true -> uapp o = true -> handler s = UBad (if idle o then UseAfterFree else PortInUse).
Proof.
  intros H Hs Ha. change (handler s) with (u_session_error (S 2) s). cbn [u_session_error]. fold (u_session_error 2). rewrite (u_cur _ _ _ H).
  unfold u_shutdown, u_try_close, member. rewrite (u_obj _ _ _ H). cbn [sock_of]. rewrite (u_lo _ _ _ H). cbn [ubind]. unfold u_close_stack, member. ustate. rewrite upd_same. cbn [set_sock ustack]. rewrite Hs.
  unfold u_close_upper, member. ustate. rewrite upd_same. cbn [set_ustack uapp]. rewrite Ha. unfold u_try_close, member. ustate. rewrite upd_same. cbn [set_uapp set_ustack set_sock sock_of up]. rewrite (u_up _ _ _ H). cbn [ubind].
  match goal with |- context[u_session_error 2 ?m] => destruct (restart_spec 1 c {| lo := closed_sock (lo o); up := closed_sock (up o); ustack := false; uapp := false |} m) as (s' & E & R1 & R2 & R3 & R4 & R5 & R6 & R7) end; ustate.
  - apply (u_cur _ _ _ H).
  - apply upd_same.
  - reflexivity.
  - reflexivity.
  - apply (u_next _ _ _ H).
  - intros i p Ne. rewrite !upd_other by assumption. intros K. destruct (u_old _ _ _ H _ _ Ne K). auto.
  - intros K. apply (u_posted _ _ _ H) in K. lia.
  - apply (u_held _ _ _ H).
  - rewrite E. cbn [ubind]. rewrite R1. destruct (N.eqb_spec c (c + 1)); [lia|]. rewrite N.eqb_refl.
    change (idle {| lo := closed_sock (lo o); up := closed_sock (up o); ustack := false; uapp := false |}) with (idle o) in *. destruct (idle o) eqn:I; [reflexivity|]. cbn [ubind].
    unfold u_check, member. rewrite R1. destruct (N.eqb_spec c (c + 1)); [lia|]. rewrite N.eqb_refl, idle_off.
    change (idle {| lo := closed_sock (lo o); up := closed_sock (up o); ustack := false; uapp := false |}) with (idle o). rewrite I. cbn [ubind]. unfold start_session.
    erewrite (port_of _ Lower (c + 1)%N fresh); [reflexivity| | |reflexivity]; ustate; [rewrite R1, N.eqb_refl; reflexivity|lia].
Qed.

(** ** A posted check *)
Lemma mem_remove1 id l : mem id (remove1 id l) = true -> mem id l = true.
Proof. intros H. apply mem_In in H. apply mem_In. eapply In_remove1; eauto. Qed.

Lemma check_inv s c o id : uinv s c o -> In id (uposted s) ->
  exists s' p, ustep s (UChecks id) = UGood s' /\ uinv s' c o /\ upend s' = upend s /\ uobj s id = Some p /\
    (if idle p then uposted s' = remove1 id (uposted s) /\
       (if mem id (remove1 id (uposted s)) then ulog s' = ulog s else ulog s' = ulog s ++ [UDestroyed id])
     else uposted s' = remove1 id (uposted s) ++ [id] /\ ulog s' = ulog s).
Proof.
  intros H Hi. destruct (u_posted _ _ _ H _ Hi) as [Lt [p Hp]]. assert (Ne : id <> c) by lia.
  pose proof (u_old _ _ _ H _ _ Ne Hp) as [O1 O2 O3 O4 O5 O6 O7].
  cbn [ustep]. rewrite (proj2 (mem_In _ _) Hi). unfold u_check, member. ustate. rewrite Hp, (u_held _ _ _ H).
  destruct H as [A1 A2 A3 A4 A5 A6 A7 A8 A9 A10 A11 A12 A13 A14 A15 A16 A17 A18].
  destruct (idle p) eqn:I; cbn [ubind]; ustate; cbn [remove1]; rewrite N.eqb_refl; unfold drop; ustate; rewrite A1; destruct (N.eqb_spec c id) as [F|_]; [congruence| |congruence|]; cbn [orb mem existsb].
  - rewrite orb_false_r. fold (mem id (remove1 id (uposted s))). destruct (mem id (remove1 id (uposted s))) eqn:M.
    + eexists. exists p. split; [reflexivity|]. rewrite I. split; [|split; [reflexivity|split; [reflexivity|split; reflexivity]]].
      constructor; ustate; auto.
      * intros i K. apply In_remove1 in K. auto.
      * intros i q F K. destruct (A12 _ _ F K). constructor; auto. ustate. destruct (N.eq_dec i id) as [->|G]; [now apply mem_In|]. now apply remove1_other.
    + eexists. exists p. split; [reflexivity|]. rewrite I. split; [|split; [reflexivity|split; [reflexivity|split; reflexivity]]].
      assert (NA : forall x d, ~ In (id, x, d) (upend s)). { intros x d K. apply A13 in K. destruct K as (q & E & K). rewrite Hp in E. inversion E; subst q. rewrite idle_spec in I. rewrite I in K. discriminate. }
      apply mem_false in M.
      constructor; ustate; auto.
      * rewrite upd_other by congruence. exact A3.
      * intros x d. rewrite In_snoc, A6. split; [auto|]. intros [K|K]; [assumption|discriminate].
      * rewrite In_snoc, A7. split; [auto|]. intros [K|K]; [assumption|discriminate].
      * intros i K. assert (i <> id) by congruence. rewrite upd_other by assumption. apply In_remove1 in K. auto.
      * intros i q F. unfold upd. destruct (N.eqb_spec i id); [discriminate|]. intros K. destruct (A12 _ _ F K). constructor; auto. ustate. now apply remove1_other.
      * intros i x d. rewrite A13. unfold upd. destruct (N.eqb_spec i id) as [->|]; [|reflexivity]. split; [intros K; exfalso; eapply NA, A13; eauto|intros (q & F & _); discriminate].
      * rewrite started_app. cbn. rewrite app_nil_r. exact A15.
      * intros x. rewrite holding_app. cbn. apply A16.
      * intros i. rewrite gone_app, in_app_iff, A17. unfold upd. cbn. destruct (N.eqb_spec i id) as [->|]; [split; [intros _; split; [lia|reflexivity]|auto]|]. split; [intros [K|[K|[]]]; [assumption|congruence]|auto].
      * intros e. rewrite In_snoc. intros [K| ->]; [auto|]. cbn. lia.
  - assert (M : mem id (remove1 id (uposted s) ++ [id]) = true) by (apply mem_In, in_app_iff; right; now left). rewrite M. cbn [orb].
    eexists. exists p. split; [reflexivity|]. rewrite I. split; [|split; [reflexivity|split; [reflexivity|split; reflexivity]]].
    constructor; ustate; auto.
    + intros i K. apply in_app_iff in K. destruct K as [K|[<-|[]]]; [|eauto]. apply In_remove1 in K. auto.
    + intros i q F K. destruct (A12 _ _ F K). constructor; auto. ustate. apply in_app_iff. destruct (N.eq_dec i id) as [->|G]; [right; now left|left; now apply remove1_other].
Qed.

(** ** Any step *)
Definition replaced (c : N) : list uev := [UClosed c Upper; UClosed c Lower; UBound (c + 1) Lower; UBound (c + 1) Upper; UStarted (c + 1)].

(** What a step does, by case: nothing but bookkeeping of the current session ... *)
Inductive uchange (s : udp) (c : N) (o : usess) (e : uin) (s' : udp) : Prop :=
| ch_same o' l : uinv s' c o' -> ulog s' = ulog s ++ l -> started l = [] -> (ustack o = false -> ustack o' = false) -> uchange s c o e s'
| ch_error d : e = UCompleted c Lower d false -> In (c, Lower, d) (upend s) -> uapp o = true -> seen d (lo o) = true -> uothers c Lower d s ->
    uinv s' (c + 1)%N fresh -> ulog s' = ulog s ++ [UDone c Lower d false] ++ replaced c -> uchange s c o e s'
| ch_closes : e = UCloses c -> uapp o = true -> uinv s' (c + 1)%N fresh -> ulog s' = ulog s ++ replaced c ++ (if idle o then [UDestroyed c] else []) -> uchange s c o e s'.

Lemma uinv_fun s c o c' o' : uinv s c o -> uinv s c' o' -> c = c' /\ o = o'.
Proof. intros H H'. pose proof (u_cur _ _ _ H). pose proof (u_cur _ _ _ H'). assert (c = c') by congruence. subst. split; [reflexivity|]. pose proof (u_obj _ _ _ H). pose proof (u_obj _ _ _ H'). congruence. Qed.

Lemma hazard_upper s c o d : uinv s c o -> In (c, Upper, d) (upend s) -> seen d (up o) = true -> uhazard s (UCompleted c Upper d false).
Proof. intros H Hp Hs. cbn. split; [assumption|]. split; [eapply latest_inv; eauto|]. apply (u_seen _ _ _ H Upper d). exact Hs. Qed.

Lemma others_idle s c o x d : uinv s c o -> In (c, x, d) (upend s) ->
  (idle (set_sock x (set_act d false (sock_of x o)) o) = false <-> uothers c x d s).
Proof.
  intros H Hp. set (p := set_sock x (set_act d false (sock_of x o)) o). assert (S : act_set x d false o p) by (intros [] []; subst p; destruct x, d; reflexivity).
  split.
  - intros I. destruct (idle p) eqn:J; [discriminate|]. clear I.
    assert (exists y e, active e (sock_of y p) = true) as (y & e & K).
    { unfold idle in J. apply negb_false_iff in J. apply orb_prop in J as [J|J]; apply orb_prop in J as [J|J]; [exists Lower, Rx|exists Lower, Tx|exists Upper, Rx|exists Upper, Tx]; exact J. }
    rewrite S in K. destruct (same_side x y && same_way d e) eqn:E; [discriminate|]. exists y, e. split; [intros F; apply same_spec in F; congruence|]. apply (u_pend _ _ _ H). exists o. split; [apply (u_obj _ _ _ H)|exact K].
  - intros (y & e & Ne & K). destruct (idle p) eqn:J; [|reflexivity]. rewrite idle_spec in J. specialize (J y e). rewrite S in J.
    destruct (same_side x y && same_way d e) eqn:E; [apply same_spec in E; congruence|]. apply (u_pend _ _ _ H) in K. destruct K as (q & K1 & K2). rewrite (u_obj _ _ _ H) in K1. congruence.
Qed.

Lemma ustep_case s c o e : uinv s c o ->
  (~ uhazard s e /\ exists s', ustep s e = UGood s' /\ uchange s c o e s') \/
  (uhazard s e /\ exists w, ustep s e = UBad w /\
     match e with UCompleted _ x d _ => w = match x with Upper => if idle (set_sock x (set_act d false (sock_of x o)) o) then UseAfterFree else PortInUse | Lower => UseAfterFree end | _ => False end).
Proof.
  intros H. destruct e as [id x d ok|id x d|id|id|id].
  - (* completion *)
    destruct (existsb (op_eqb (id, x, d)) (upend s)) eqn:Ep.
    2:{ left. split.
        - intros K. assert (In (id, x, d) (upend s)) as F by (destruct x, ok; cbn in K; tauto). apply op_in in F. congruence.
        - exists s. cbn [ustep]. rewrite Ep. split; [reflexivity|]. apply (ch_same _ _ _ _ _ o []); [assumption|symmetry; apply app_nil_r|reflexivity|auto]. }
    assert (Ep2 := Ep). apply op_in in Ep. destruct (pend_obj _ _ _ _ _ _ H Ep) as (p & Hp & A).
    cbn [ustep]. rewrite Ep2. unfold u_completed, member. change (uobj (with_pend (remove_op (id, x, d) (upend s)) s)) with (uobj s). rewrite Hp.
    destruct (done_inv s c o id x d p ok H Hp A) as [o1 I]. cbv zeta in I.
    assert (Us : ustack o1 = ustack o).
    { pose proof (u_obj _ _ _ I) as K. ustate. unfold upd in K. destruct (N.eqb_spec c id) as [->|]; [|rewrite (u_obj _ _ _ H) in K; congruence].
      rewrite (u_obj _ _ _ H) in Hp. inversion Hp; subst p. inversion K. destruct x; reflexivity. }
    destruct ok.
    { left. split; [destruct x; cbn; tauto|]. eexists. split; [reflexivity|]. apply (ch_same _ _ _ _ _ o1 [UDone id x d true]); [exact I|reflexivity|reflexivity|congruence]. }
    cbv zeta. assert (Sk : seen d (set_act d false (sock_of x p)) = seen d (sock_of x p)) by (destruct d; reflexivity). rewrite Sk.
    destruct (seen d (sock_of x p)) eqn:Se.
    2:{ left. split.
        - intros K. destruct x; cbn in K; destruct K as (_ & L & W & _) || destruct K as (_ & L & W); rewrite (latest_inv _ _ _ H) in L; inversion L; subst id;
            rewrite (u_obj _ _ _ H) in Hp; inversion Hp; subst p; apply (u_seen _ _ _ H) in W; congruence.
        - eexists. split; [reflexivity|]. apply (ch_same _ _ _ _ _ o1 [UDone id x d false]); [exact I|reflexivity|reflexivity|congruence]. }
    set (s1 := say (UDone id x d false) (store id (set_sock x (set_act d false (sock_of x p)) p) (with_pend (remove_op (id, x, d) (upend s)) s))) in *.
    destruct (N.eq_dec id c) as [->|Ne].
    + rewrite (u_obj _ _ _ H) in Hp. inversion Hp; subst p. clear Hp.
      assert (Eo : o1 = set_sock x (set_act d false (sock_of x o)) o). { pose proof (u_obj _ _ _ I) as K. subst s1. ustate. rewrite upd_same in K. congruence. }
      assert (Ua : uapp o1 = uapp o) by (subst o1; destruct x; reflexivity).
      destruct x.
      * destruct (uapp o) eqn:Ao.
        -- assert (So : ustack o1 = true) by (rewrite Us; apply (u_stack _ _ _ H); exact Ao).
           pose proof (lower_fails s1 c o1 I So (eq_trans Ua eq_refl)) as F. pose proof (others_idle _ _ _ _ _ H Ep) as Oi. rewrite <- Eo in Oi. destruct (idle o1).
           ++ right. split.
              ** cbn. split; [assumption|]. split; [eapply latest_inv; eauto|]. split; [apply (u_seen _ _ _ H Lower d); exact Se|]. split; [apply (u_app _ _ _ H); assumption|].
                 intros K. apply Oi in K. discriminate.
              ** exists UseAfterFree. split; [exact F|reflexivity].
           ++ left. split; [cbn; intros (_ & _ & _ & _ & K); apply K, Oi; reflexivity|]. destruct F as (s' & F1 & F2 & F3). exists s'. split; [exact F1|].
              eapply (ch_error _ _ _ _ _ d); eauto. { apply Oi. reflexivity. } rewrite F3. subst s1. ustate. rewrite <- app_assoc. reflexivity.
        -- left. split; [cbn; intros (_ & _ & _ & K & _); apply (u_app _ _ _ H) in K; congruence|].
           unfold u_close_stack, member. rewrite (u_obj _ _ _ I). destruct (ustack o1) eqn:So.
           ++ unfold u_close_upper, member. assert (uobj (store c (set_ustack false o1) s1) c = Some (set_ustack false o1)) as Eg by (unfold store, with_obj; cbn; apply upd_same).
              rewrite Eg. cbn [uapp set_ustack]. rewrite Ua. cbn [ubind]. rewrite Eg. eexists. split; [reflexivity|].
              destruct (local_inv s1 c o1 (store c (set_ustack false o1) s1) c o1 (set_ustack false o1) [] I (u_obj _ _ _ I)) as [o2 I2]; ustate; try reflexivity.
              ** symmetry. apply app_nil_r.
              ** intros e [].
              ** intros _. split; [|split; [|split]].
                 --- intros y e. destruct y; cbn; tauto.
                 --- cbn. tauto.
                 --- cbn. congruence.
                 --- intros e K. apply (u_upper _ _ _ I) in K. exact K.
              ** intros K. now contradiction K.
              ** intros i y e. rewrite (u_pend _ _ _ I). unfold upd. destruct (N.eqb_spec i c) as [->|]; [|reflexivity]. rewrite (u_obj _ _ _ I).
                 split; intros (q & [= <-] & K); eexists; (split; [reflexivity|]); destruct y; exact K.
              ** apply (u_nodup _ _ _ I).
              ** apply (ch_same _ _ _ _ _ o2 [UDone c Lower d false]); [exact I2|reflexivity|reflexivity|]. intros _. pose proof (u_obj _ _ _ I2) as K. ustate. rewrite upd_same in K. now inversion K.
           ++ eexists. split; [reflexivity|]. apply (ch_same _ _ _ _ _ o1 [UDone c Lower d false]); [exact I|reflexivity|reflexivity|congruence].
      * right. split; [eapply hazard_upper; eauto|].
        assert (Ao : uapp o1 = true). { rewrite Ua. apply (u_upper _ _ _ H d). exact A. }
        eexists. split; [apply (upper_fails s1 c o1 I)|rewrite Eo; reflexivity]; [|exact Ao]. rewrite Us. apply (u_stack _ _ _ H). congruence.
    + pose proof (u_old _ _ _ H _ _ Ne Hp) as [O1 O2 O3 O4 O5 O6 O7]. destruct x.
      * left. split; [cbn; intros (_ & L & _); rewrite (latest_inv _ _ _ H) in L; congruence|].
        unfold u_close_stack, member. assert (uobj s1 id = Some (set_sock Lower (set_act d false (sock_of Lower p)) p)) as Eg by (subst s1; ustate; apply upd_same). rewrite Eg. cbn [ustack set_sock]. rewrite O4.
        eexists. split; [reflexivity|]. apply (ch_same _ _ _ _ _ o1 [UDone id Lower d false]); [exact I|reflexivity|reflexivity|congruence].
      * cbn in Se, A. rewrite O6 in A by assumption. discriminate.
  - left. split; [tauto|]. cbn [ustep]. destruct (uobj s id) as [p|] eqn:Hp.
    2:{ exists s. split; [reflexivity|]. apply (ch_same _ _ _ _ _ o []); [assumption|symmetry; apply app_nil_r|reflexivity|auto]. }
    assert (forall o', forall s', uinv s' c o' -> (forall i q, uobj s i = Some q -> exists q', uobj s' i = Some q' /\ ustack q' = ustack q) -> ustack o = false -> ustack o' = false) as Q.
    { intros o' s' I K Z. destruct (K _ _ (u_obj _ _ _ H)) as (q' & K1 & K2). rewrite (u_obj _ _ _ I) in K1. inversion K1; subst. congruence. }
    assert (x = Upper -> uapp p = true -> True) as _ by auto.
    assert ((x = Upper -> uapp p = true) -> exists s', u_start id x d s = UGood s' /\ uchange s c o (UStarts id x d) s') as G.
    { intros Hx. destruct (start_inv s c o id x d p H Hp Hx) as (s' & o' & E & I & L & _). exists s'. split; [exact E|].
      apply (ch_same _ _ _ _ _ o' []); [exact I|rewrite L; symmetry; apply app_nil_r|reflexivity|]. intros Z. eapply (Q o' s'); eauto.
      unfold u_start, member in E. rewrite Hp in E. intros i q Hq. destruct (active d (sock_of x p)); inversion E; subst s'; ustate; [eauto|]. unfold upd. destruct (N.eqb_spec i id) as [->|]; [|eauto].
      eexists. split; [reflexivity|]. rewrite Hp in Hq. inversion Hq; subst. destruct x; reflexivity. }
    destruct x; [apply G; discriminate|]. destruct (uapp p) eqn:Ap; [apply G; auto|]. exists s. split; [reflexivity|]. apply (ch_same _ _ _ _ _ o []); [assumption|symmetry; apply app_nil_r|reflexivity|auto].
  - left. split; [tauto|]. cbn [ustep]. destruct (uobj s id) as [p|] eqn:Hp.
    2:{ exists s. split; [reflexivity|]. apply (ch_same _ _ _ _ _ o []); [assumption|symmetry; apply app_nil_r|reflexivity|auto]. }
    destruct (ustack p && negb (uapp p)) eqn:Eb.
    2:{ exists s. split; [reflexivity|]. apply (ch_same _ _ _ _ _ o []); [assumption|symmetry; apply app_nil_r|reflexivity|auto]. }
    apply andb_prop in Eb as [E1 E2]. apply negb_true_iff in E2. destruct (N.eq_dec id c) as [->|Ne].
    + rewrite (u_obj _ _ _ H) in Hp. inversion Hp; subst p. destruct (opens_inv s c o H E1 E2) as (s' & o' & E & I & L & _). cbn [ustep] in E. rewrite (u_obj _ _ _ H), E1, E2 in E. cbn [andb negb] in E.
      exists s'. split; [exact E|]. apply (ch_same _ _ _ _ _ o' [UUp c]); [exact I|exact L|reflexivity|congruence].
    + pose proof (old_stack _ _ _ _ (u_old _ _ _ H _ _ Ne Hp)). congruence.
  - left. split; [tauto|]. cbn [ustep]. destruct (uobj s id) as [p|] eqn:Hp.
    2:{ exists s. split; [reflexivity|]. apply (ch_same _ _ _ _ _ o []); [assumption|symmetry; apply app_nil_r|reflexivity|auto]. }
    destruct (ustack p) eqn:Es.
    2:{ exists s. split; [reflexivity|]. apply (ch_same _ _ _ _ _ o []); [assumption|symmetry; apply app_nil_r|reflexivity|auto]. }
    destruct (N.eq_dec id c) as [->|Ne].
    + rewrite (u_obj _ _ _ H) in Hp. inversion Hp; subst p. destruct (uapp o) eqn:Ao.
      * destruct (closes_renews s c o H Ao) as (s' & E & I & L). exists s'. split; [exact E|]. apply ch_closes; auto.
      * exists s. unfold u_close_upper, member. rewrite (u_obj _ _ _ H), Ao. split; [reflexivity|]. apply (ch_same _ _ _ _ _ o []); [assumption|symmetry; apply app_nil_r|reflexivity|auto].
    + pose proof (old_stack _ _ _ _ (u_old _ _ _ H _ _ Ne Hp)). congruence.
  - left. split; [tauto|]. destruct (mem id (uposted s)) eqn:M.
    + apply mem_In in M. destruct (check_inv s c o id H M) as (s' & p & E & I & P & Hp & L). exists s'. split; [exact E|]. destruct (idle p).
      * destruct L as [_ L]. destruct (mem id (remove1 id (uposted s))).
        -- apply (ch_same _ _ _ _ _ o []); [assumption|rewrite L; symmetry; apply app_nil_r|reflexivity|auto].
        -- apply (ch_same _ _ _ _ _ o [UDestroyed id]); [assumption|exact L|reflexivity|auto].
      * destruct L as [_ L]. apply (ch_same _ _ _ _ _ o []); [assumption|rewrite L; symmetry; apply app_nil_r|reflexivity|auto].
    + exists s. cbn [ustep]. rewrite M. split; [reflexivity|]. apply (ch_same _ _ _ _ _ o []); [assumption|symmetry; apply app_nil_r|reflexivity|auto].
Qed.

Lemma change_inv s c o e s' : uchange s c o e s' -> exists c' o', uinv s' c' o'.
Proof. intros []; eauto. Qed.

Lemma start_uinv s : started_udp = UGood s -> uinv s 0 fresh.
Proof.
  intros E. vm_compute in E. inversion E; subst s. clear E. constructor; cbn; try reflexivity; try discriminate.
  - intros [] []; cbn; split; try discriminate; intros K; intuition discriminate.
  - intuition discriminate.
  - intros []; discriminate.
  - tauto.
  - intros i p Ne. unfold upd. destruct (N.eqb_spec i 0) as [->|]; [congruence|]. rewrite ?upd_other by assumption. intros K. exfalso. destruct i; [congruence|discriminate].
  - intros i x d. split.
    + intros [K|[]]. inversion K; subst. eexists. split; reflexivity.
    + intros (p & E & K). destruct i; [|discriminate]. inversion E; subst. left. destruct x, d; try discriminate. reflexivity.
  - repeat constructor. intros [].
  - intros []; reflexivity.
  - intros i. split; [tauto|]. intros [L E]. destruct i; [discriminate|lia].
  - intros e K. intuition (subst; cbn; lia).
Qed.

Lemma usteps_inv es s c o s' : uinv s c o -> usteps s es = UGood s' -> exists c' o', uinv s' c' o'.
Proof.
  revert s c o. induction es as [|e es IH]; cbn [usteps]; intros s c o H E; [inversion E; subst; eauto|].
  destruct (ustep_case s c o e H) as [[_ (s1 & E1 & C)]|[_ (w & E1 & _)]]; rewrite E1 in E; [|discriminate]. cbn [ubind] in E.
  destruct (change_inv _ _ _ _ _ C) as (c' & o' & I). eauto.
Qed.
Lemma ureachable_inv s : ureachable s -> exists c o, uinv s c o.
Proof. intros (s0 & es & E0 & E). eapply usteps_inv; eauto using start_uinv. Qed.
