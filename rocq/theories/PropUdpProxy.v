(** * C45: the sessions of the UDP proxy *)
From Verif Require Import Base BaseFacts Proxy ProxySpec ProxyFacts UdpProxy UdpProxySpec UdpProxyFacts.
Local Open Scope nat_scope.

(** Whatever happened, the two ports are bound by the session started last and by nothing else. *)
Theorem C45_ports : forall s, ureachable s -> exists c, latest (ulog s) = Some c /\ forall x, holding x (ulog s) = [c].
Proof. intros s R. destruct (ureachable_inv _ R) as (c & o & H). exists c. split; [eapply latest_inv; eauto|apply (u_holding _ _ _ H)]. Qed.
Print Assumptions C45_ports.

(** The proxy fails exactly in the situations of [uhazard]. *)
Theorem C45_undefined : forall s e, ureachable s -> (exists w, ustep s e = UBad w) <-> uhazard s e.
Proof.
  intros s e R. destruct (ureachable_inv _ R) as (c & o & H). destruct (ustep_case s c o e H) as [[N (s1 & E & _)]|[N (w & E & _)]]; split; try contradiction; eauto.
  intros [w F]. congruence.
Qed.
Print Assumptions C45_undefined.

Theorem C45_defined_partial : forall s0 es, started_udp = UGood s0 ->
  (forall pre e post s, es = pre ++ e :: post -> usteps s0 pre = UGood s -> ~ uhazard s e) -> exists s, usteps s0 es = UGood s.
Proof.
  intros s0 es E0 Hz. assert (exists c o, uinv s0 c o) as I by (exists 0%N, fresh; now apply start_uinv). clear E0. revert s0 I Hz. induction es as [|e es IH]; cbn [usteps]; intros s0 (c & o & I) Hz; [eauto|].
  destruct (ustep_case s0 c o e I) as [[N (s1 & E & C)]|[N _]].
  - rewrite E. cbn [ubind]. apply IH; [eapply change_inv; eauto|]. intros pre a post s Es Er. apply (Hz (e :: pre) a post s); [now rewrite Es|]. cbn [usteps]. now rewrite E.
  - exfalso. exact (Hz [] e es s0 eq_refl eq_refl N).
Qed.
Print Assumptions C45_defined_partial.

(** After an error on the protected side of an established session, or if its stack gives up, both its sockets are closed and a new
    session is started that listens on the protected side. *)
Theorem C45_restart_partial : forall s c e, ureachable s -> latest (ulog s) = Some c -> uestablished (ulog s) c ->
  (e = UCloses c \/ exists d, e = UCompleted c Lower d false /\ In (c, Lower, d) (upend s) /\ worked (ulog s) c Lower d /\ uothers c Lower d s) ->
  exists s' l, ustep s e = UGood s' /\ ulog s' = ulog s ++ l /\ In (UClosed c Lower) l /\ In (UClosed c Upper) l /\ started l = [(c + 1)%N] /\
    latest (ulog s') = Some (c + 1)%N /\ In ((c + 1)%N, Lower, Rx) (upend s').
Proof.
  intros s c e R Lc Es He. destruct (ureachable_inv _ R) as (c' & o & H). rewrite (latest_inv _ _ _ H) in Lc. inversion Lc; subst c'. apply (u_app _ _ _ H) in Es.
  destruct (ustep_case s c o e H) as [[N (s1 & E & C)]|[Z _]].
  2:{ exfalso. destruct He as [->|(d & -> & Hp & Hw & Ho)]; cbn in Z; [exact Z|]. destruct Z as (_ & _ & _ & _ & Z). contradiction. }
  assert (forall s', uinv s' (c + 1)%N fresh -> In ((c + 1)%N, Lower, Rx) (upend s')) as P.
  { intros s' I. apply (u_pend _ _ _ I). exists fresh. split; [apply (u_obj _ _ _ I)|reflexivity]. }
  exists s1. destruct C as [o' l I L St _|d -> Hp _ _ _ I L| -> _ I L].
  - exfalso. destruct He as [->|(d & -> & Hp & Hw & Ho)].
    + cbn [ustep] in E. rewrite (u_obj _ _ _ H) in E. rewrite (u_stack _ _ _ H Es) in E. destruct (closes_renews s c o H Es) as (s2 & E2 & I2 & _).
      rewrite E in E2. inversion E2; subst s2. destruct (uinv_fun _ _ _ _ _ I I2) as [F _]. lia.
    + pose proof (ustep_case s c o (UCompleted c Lower d false) H) as _. apply (u_seen _ _ _ H) in Hw.
      cbn [ustep] in E. rewrite (proj2 (op_in _ _) Hp) in E. unfold u_completed, member in E. change (uobj (with_pend (remove_op (c, Lower, d) (upend s)) s)) with (uobj s) in E. rewrite (u_obj _ _ _ H) in E.
      cbv zeta in E. assert (Sk : seen d (set_act d false (sock_of Lower o)) = true) by (destruct d; exact Hw). rewrite Sk in E.
      destruct (pend_obj _ _ _ _ _ _ H Hp) as (p & Hp1 & A). rewrite (u_obj _ _ _ H) in Hp1. inversion Hp1; subst p.
      destruct (done_inv s c o c Lower d o false H (u_obj _ _ _ H) A) as [o1 I1]. cbv zeta in I1.
      assert (Eo : o1 = set_sock Lower (set_act d false (sock_of Lower o)) o). { pose proof (u_obj _ _ _ I1) as K. ustate. rewrite upd_same in K. congruence. }
      assert (U1 : ustack o1 = true) by (subst o1; cbn; apply (u_stack _ _ _ H Es)). assert (U2 : uapp o1 = true) by (subst o1; exact Es).
      pose proof (lower_fails _ c o1 I1 U1 U2) as F. pose proof (proj2 (others_idle _ _ _ _ _ H Hp) Ho) as Oi. rewrite <- Eo in Oi. rewrite Oi in F. destruct F as (s2 & F1 & F2 & _).
      rewrite E in F1. inversion F1; subst s2. destruct (uinv_fun _ _ _ _ _ I F2) as [F _]. lia.
  - eexists. split; [exact E|]. split; [exact L|]. split; [cbn; tauto|]. split; [cbn; tauto|]. split; [reflexivity|]. split; [eapply latest_inv; eauto|auto].
  - eexists. split; [exact E|]. split; [exact L|]. split; [cbn; tauto|]. split; [cbn; tauto|]. split; [destruct (idle o); reflexivity|]. split; [eapply latest_inv; eauto|auto].
Qed.
Print Assumptions C45_restart_partial.

(** Nothing else starts a session or changes the ports. *)
Theorem C45_restart_only : forall s e s' c, ureachable s -> latest (ulog s) = Some c -> ustep s e = UGood s' ->
  latest (ulog s') <> Some c -> uestablished (ulog s) c /\ (e = UCloses c \/ exists d, e = UCompleted c Lower d false /\ In (c, Lower, d) (upend s) /\ worked (ulog s) c Lower d).
Proof.
  intros s e s' c R Lc E Hn. destruct (ureachable_inv _ R) as (c' & o & H). rewrite (latest_inv _ _ _ H) in Lc. inversion Lc; subst c'.
  destruct (ustep_case s c o e H) as [[_ (s1 & E1 & C)]|[_ (w & E1 & _)]]; [|congruence]. assert (s1 = s') by congruence. subst s1.
  destruct C as [o' l I L St _|d -> Hp Ha Hs Ho I L| -> Ha I L].
  - exfalso. apply Hn. eapply latest_inv; eauto.
  - split; [apply (u_app _ _ _ H); assumption|]. right. exists d. split; [reflexivity|]. split; [assumption|]. apply (u_seen _ _ _ H Lower d). exact Hs.
  - split; [apply (u_app _ _ _ H); assumption|]. left. reflexivity.
Qed.
Print Assumptions C45_restart_only.

(** ** Replaced sessions *)

(** Whatever still happens on the sockets of a replaced session does not touch the current one. *)
Definition uabout (e : uin) : N := match e with UCompleted i _ _ _ | UStarts i _ _ | UOpens i | UCloses i | UChecks i => i end.
Theorem C45_replaced_harmless : forall s e c, ureachable s -> latest (ulog s) = Some c -> uabout e <> c ->
  exists s', ustep s e = UGood s' /\ latest (ulog s') = Some c /\ uobj s' c = uobj s c /\ (forall x d, In (c, x, d) (upend s') <-> In (c, x, d) (upend s)) /\
    (uestablished (ulog s') c <-> uestablished (ulog s) c).
Proof.
  intros s e c R Lc Ne. destruct (ureachable_inv _ R) as (c' & o & H). rewrite (latest_inv _ _ _ H) in Lc. inversion Lc; subst c'.
  destruct (ustep_case s c o e H) as [[_ (s' & E & C)]|[Z _]].
  2:{ exfalso. destruct e as [id [] d []|id x d|id|id|id]; cbn in Z; try contradiction; destruct Z as (_ & L & _); rewrite (latest_inv _ _ _ H) in L; inversion L; subst; now apply Ne. }
  exists s'. split; [exact E|]. destruct C as [o' l I L St _|d -> _ _ _ _ _ _| -> _ _ _]; [|now contradiction Ne|now contradiction Ne].
  assert (O : uobj s' c = uobj s c).
  { clear I L St. destruct e as [id x d ok|id x d|id|id|id]; cbn [ustep uabout] in *.
    - destruct (existsb (op_eqb (id, x, d)) (upend s)) eqn:Ex; [|inversion E; reflexivity]. apply op_in in Ex. destruct (pend_obj _ _ _ _ _ _ H Ex) as (p & Hp & A).
      unfold u_completed, member in E. ustate. rewrite Hp in E. pose proof (u_old _ _ _ H _ _ Ne Hp) as [O1 O2 O3 O4 O5 O6 O7].
      destruct ok; [inversion E; ustate; now rewrite upd_other by congruence|]. destruct (seen d (set_act d false (sock_of x p))) eqn:Se; [|inversion E; ustate; now rewrite upd_other by congruence].
      destruct x.
      + unfold u_close_stack, member in E. ustate. rewrite upd_same in E. cbn [ustack set_sock] in E. rewrite O4 in E. inversion E. ustate. now rewrite upd_other by congruence.
      + cbn in A, Se. rewrite O6 in A; [discriminate|]. destruct d; exact Se.
    - destruct (uobj s id) as [p|] eqn:Hp; [|inversion E; reflexivity]. assert (u_start id x d s = UGood s' -> uobj s' c = uobj s c) as G.
      { unfold u_start, member. rewrite Hp. destruct (active d (sock_of x p)); intros K; inversion K; ustate; [reflexivity|]. now rewrite upd_other by congruence. }
      destruct x; [auto|]. destruct (uapp p); [auto|inversion E; reflexivity].
    - destruct (uobj s id) as [p|] eqn:Hp; [|inversion E; reflexivity]. rewrite (old_stack _ _ _ _ (u_old _ _ _ H _ _ Ne Hp)) in E. inversion E. reflexivity.
    - destruct (uobj s id) as [p|] eqn:Hp; [|inversion E; reflexivity]. rewrite (old_stack _ _ _ _ (u_old _ _ _ H _ _ Ne Hp)) in E. inversion E. reflexivity.
    - pose proof (u_obj _ _ _ H). pose proof (ustep_case s c o (UChecks id) H) as [[_ (s2 & E2 & K)]|[[] _]]. cbn [ustep] in E2. rewrite E in E2. inversion E2; subst s2.
      destruct (mem id (uposted s)) eqn:M; [|inversion E; reflexivity]. apply mem_In in M. destruct (check_inv s c o id H M) as (s2 & p & F & I & _). cbn [ustep] in F. rewrite (proj2 (mem_In _ _) M) in F.
      rewrite E in F. inversion F; subst s2. rewrite (u_obj _ _ _ I). congruence. }
  split; [eapply latest_inv; eauto|]. split; [exact O|]. rewrite (u_obj _ _ _ H), (u_obj _ _ _ I) in O. inversion O; subst o'. split.
  - intros x d. rewrite (u_pend _ _ _ I), (u_pend _ _ _ H), (u_obj _ _ _ H), (u_obj _ _ _ I). reflexivity.
  - unfold uestablished. rewrite <- (u_app _ _ _ I), <- (u_app _ _ _ H). reflexivity.
Qed.
Print Assumptions C45_replaced_harmless.

(** A replaced session is destroyed: while it exists a check is scheduled, and when its operations are completed the scheduled checks
    destroy it. *)
Theorem C45_replaced_destroyed : forall s id, ureachable s -> In id (started (ulog s)) -> latest (ulog s) <> Some id -> ~ In id (gone (ulog s)) ->
  In id (uposted s) /\ ((forall x d, ~ In (id, x, d) (upend s)) -> exists k s', usteps s (repeat (UChecks id) k) = UGood s' /\ In id (gone (ulog s'))).
Proof.
  intros s id R Hs Hl Hg. destruct (ureachable_inv _ R) as (c & o & H). clear R. rewrite (latest_inv _ _ _ H) in Hl. assert (Ne : id <> c) by congruence. clear Hl.
  rewrite (u_started _ _ _ H), In_ids in Hs.
  assert (G : forall s, uinv s c o -> ~ In id (gone (ulog s)) -> In id (uposted s) /\ exists p, uobj s id = Some p).
  { intros s1 I K. destruct (uobj s1 id) as [p|] eqn:E; [split; [apply (old_posted _ _ _ _ (u_old _ _ _ I _ _ Ne E))|eauto]|]. exfalso. apply K. apply (u_gone _ _ _ I). split; [lia|assumption]. }
  split; [now apply G|]. remember (length (uposted s)) as n eqn:En. revert s H Hg En. induction n as [n IH] using (well_founded_induction lt_wf).
  intros s H Hg -> Hp. destruct (G s H Hg) as [Po [p Ho]]. destruct (check_inv s c o id H Po) as (s1 & p' & E & I & P & Ho' & L). rewrite Ho in Ho'. inversion Ho'; subst p'.
  assert (idle p = true) as J. { apply idle_spec. intros x d. destruct (active d (sock_of x p)) eqn:A; [|reflexivity]. exfalso. apply (Hp x d). apply (u_pend _ _ _ H). eauto. }
  rewrite J in L. destruct L as [L1 L2]. destruct (mem id (remove1 id (uposted s))).
  - destruct (IH (length (uposted s1))) with (s := s1) as (k & s2 & E2 & D2); auto.
    + rewrite L1. pose proof (length_remove1 _ _ Po). lia.
    + now rewrite L2.
    + intros x d. rewrite P. apply Hp.
    + exists (S k), s2. split; [cbn [repeat usteps]; now rewrite E|assumption].
  - exists 1, s1. split; [cbn [repeat usteps]; rewrite E; reflexivity|]. rewrite L2, gone_app. apply in_app_iff. right. now left.
Qed.
Print Assumptions C45_replaced_destroyed.

(** ** What does not hold *)

(** The history of a proxy that exchanges data: handshake, one datagram in each direction. *)
Definition working : list uin :=
  [UStarts 0 Lower Tx; UCompleted 0 Lower Tx true; UCompleted 0 Lower Rx true; UStarts 0 Lower Tx; UStarts 0 Lower Rx; UCompleted 0 Lower Tx true;
   UCompleted 0 Lower Rx true; UOpens 0; UStarts 0 Lower Rx; UCompleted 0 Upper Rx true; UStarts 0 Lower Tx; UCompleted 0 Lower Tx true; UStarts 0 Upper Rx;
   UCompleted 0 Lower Rx true; UStarts 0 Upper Tx; UCompleted 0 Upper Tx true; UStarts 0 Lower Rx].

(** An error on the unprotected side of a working session does not restart it: the error handler runs twice, and the second run
    binds ports that the session started by the first run holds (or uses the session that the first run destroyed). *)
Theorem C45_raw_error_refuted :
  (forall s c d, ureachable s -> latest (ulog s) = Some c -> In (c, Upper, d) (upend s) -> worked (ulog s) c Upper d ->
    (uothers c Upper d s -> ustep s (UCompleted c Upper d false) = UBad PortInUse) /\
    (~ uothers c Upper d s -> ustep s (UCompleted c Upper d false) = UBad UseAfterFree)) /\
  (exists s0 s, started_udp = UGood s0 /\ usteps s0 working = UGood s /\ latest (ulog s) = Some 0%N /\ In (0%N, Upper, Rx) (upend s) /\ worked (ulog s) 0 Upper Rx /\ uothers 0 Upper Rx s).
Proof.
  split.
  - intros s c d R Lc Hp Hw. destruct (ureachable_inv _ R) as (c' & o & H). rewrite (latest_inv _ _ _ H) in Lc. inversion Lc; subst c'.
    assert (uhazard s (UCompleted c Upper d false)) as Z by (cbn; rewrite (latest_inv _ _ _ H); auto).
    destruct (ustep_case s c o (UCompleted c Upper d false) H) as [[N _]|[_ (w & E & W)]]; [contradiction|]. pose proof (others_idle _ _ _ _ _ H Hp) as Oi. cbn [sock_of] in Oi. rewrite E, W.
    destruct (idle _); split; intros K; try reflexivity; exfalso; [apply Oi in K; discriminate|apply K, Oi; reflexivity].
  - eexists. eexists. split; [vm_compute; reflexivity|]. split; [vm_compute; reflexivity|]. split; [reflexivity|]. split; [cbn; tauto|]. split; [cbn; tauto|]. exists Lower, Rx. split; [congruence|cbn; tauto].
Qed.
Print Assumptions C45_raw_error_refuted.

(** An error on the protected side before the handshake has succeeded ends the proxy's work without ending the process: whatever
    happens later, no session is started and nothing is established. *)
Theorem C45_dead_refuted :
  (forall s c d, ureachable s -> latest (ulog s) = Some c -> ~ uestablished (ulog s) c -> In (c, Lower, d) (upend s) -> worked (ulog s) c Lower d ->
    exists s1, ustep s (UCompleted c Lower d false) = UGood s1 /\
    forall es, exists s', usteps s1 es = UGood s' /\ latest (ulog s') = Some c /\ ~ uestablished (ulog s') c) /\
  (exists s0 s, started_udp = UGood s0 /\ usteps s0 [UStarts 0 Lower Tx; UCompleted 0 Lower Tx true; UStarts 0 Lower Tx] = UGood s /\
    latest (ulog s) = Some 0%N /\ ~ uestablished (ulog s) 0 /\ In (0%N, Lower, Tx) (upend s) /\ worked (ulog s) 0 Lower Tx).
Proof.
  split.
  - intros s c d R Lc Hn Hp Hw. destruct (ureachable_inv _ R) as (c' & o & H). rewrite (latest_inv _ _ _ H) in Lc. inversion Lc; subst c'. clear Lc R.
    assert (A : uapp o = false) by (destruct (uapp o) eqn:A; [exfalso; apply Hn, (u_app _ _ _ H); exact A|reflexivity]).
    destruct (ustep_case s c o (UCompleted c Lower d false) H) as [[_ (s1 & E & C)]|[Z _]]; [|exfalso; cbn in Z; tauto].
    exists s1. split; [exact E|].
    assert (exists o1, uinv s1 c o1 /\ ustack o1 = false) as (o1 & I & S).
    { destruct C as [o1 l I L St _|d' _ _ Ha _ _ _ _|F _ _ _]; [|congruence|discriminate]. exists o1. split; [exact I|].
      cbn [ustep] in E. rewrite (proj2 (op_in _ _) Hp) in E. unfold u_completed, member in E. ustate. rewrite (u_obj _ _ _ H) in E. apply (u_seen _ _ _ H) in Hw.
      assert (Sk : seen d (set_act d false (sock_of Lower o)) = true) by (destruct d; exact Hw). cbv zeta in E. rewrite Sk in E. unfold u_close_stack, member in E. ustate. rewrite upd_same in E.
      cbn [ustack set_sock] in E. destruct (ustack o) eqn:So.
      - unfold u_close_upper, member in E. ustate. rewrite upd_same in E. cbn [set_ustack uapp set_sock] in E. rewrite A in E. cbn [ubind uobj] in E. rewrite upd_same in E. inversion E; subst s1.
        pose proof (u_obj _ _ _ I) as K. cbn in K. rewrite upd_same in K. inversion K. reflexivity.
      - inversion E; subst s1. pose proof (u_obj _ _ _ I) as K. cbn in K. rewrite upd_same in K. inversion K. first [reflexivity | exact So]. }
    clear - I S. intros es. revert s1 o1 I S. induction es as [|e es IH]; intros s o I S.
    + exists s. split; [reflexivity|]. split; [eapply latest_inv; eauto|]. intros K. apply (u_app _ _ _ I) in K. apply (u_stack _ _ _ I) in K. congruence.
    + assert (NA : uapp o = false) by (destruct (uapp o) eqn:A; [apply (u_stack _ _ _ I) in A; congruence|reflexivity]).
      cbn [usteps]. destruct (ustep_case s c o e I) as [[_ (s1 & E & C)]|[Z _]].
      * rewrite E. cbn [ubind]. destruct C as [o1 l I1 L St Q|d' _ _ Ha _ _ _ _|_ Ha _ _]; [|congruence|congruence]. apply (IH s1 o1 I1). apply Q. exact S.
      * exfalso. destruct e as [id [] d []|id x d|id|id|id]; cbn in Z; try contradiction.
        -- destruct Z as (_ & L & _ & Z & _). rewrite (latest_inv _ _ _ I) in L. inversion L; subst. apply (u_app _ _ _ I) in Z. congruence.
        -- destruct Z as (Hp & L & _). rewrite (latest_inv _ _ _ I) in L. inversion L; subst. destruct (pend_obj _ _ _ _ _ _ I Hp) as (q & Hq & A). rewrite (u_obj _ _ _ I) in Hq. inversion Hq; subst q.
           apply (u_upper _ _ _ I) in A. congruence.
  - eexists. eexists. split; [vm_compute; reflexivity|]. split; [vm_compute; reflexivity|]. split; [reflexivity|]. split; [cbn; intuition discriminate|]. split; cbn; tauto.
Qed.
Print Assumptions C45_dead_refuted.

(** An error of an operation before any of its kind succeeded is ignored: nothing is closed, nothing is started, and the failed operation
    is not started again by the proxy. *)
Theorem C45_first_error_ignored : forall s c x d, ureachable s -> latest (ulog s) = Some c -> In (c, x, d) (upend s) -> ~ worked (ulog s) c x d ->
  exists s', ustep s (UCompleted c x d false) = UGood s' /\ ulog s' = ulog s ++ [UDone c x d false] /\ upend s' = remove_op (c, x, d) (upend s) /\ ~ In (c, x, d) (upend s').
Proof.
  intros s c x d R Lc Hp Hw. destruct (ureachable_inv _ R) as (c' & o & H). rewrite (latest_inv _ _ _ H) in Lc. inversion Lc; subst c'.
  cbn [ustep]. rewrite (proj2 (op_in _ _) Hp). unfold u_completed, member. ustate. rewrite (u_obj _ _ _ H). cbv zeta.
  assert (seen d (set_act d false (sock_of x o)) = false) as ->.
  { destruct (seen d (set_act d false (sock_of x o))) eqn:K; [|reflexivity]. exfalso. apply Hw, (u_seen _ _ _ H). destruct d; exact K. }
  eexists. split; [reflexivity|]. split; [reflexivity|]. split; [reflexivity|]. cbn. rewrite (In_remove_op _ _ _ (u_nodup _ _ _ H)). tauto.
Qed.
Print Assumptions C45_first_error_ignored.

(** ** Concrete cases *)
(** A working session, an error on the protected side: replaced; the cancelled operations complete, the old session is destroyed. *)
Example C45_instance : exists s0 s, started_udp = UGood s0 /\ usteps s0 (working ++ [UCompleted 0 Lower Rx false; UCompleted 0 Upper Rx false; UChecks 0]) = UGood s /\
  latest (ulog s) = Some 1%N /\ started (ulog s) = [0; 1]%N /\ gone (ulog s) = [0%N] /\ holding Lower (ulog s) = [1%N] /\ holding Upper (ulog s) = [1%N] /\ upend s = [(1%N, Lower, Rx)].
Proof. eexists. eexists. split; [vm_compute; reflexivity|]. split; [vm_compute; reflexivity|]. repeat split. Qed.
(** The same session, an error on the unprotected side. *)
Example C45_instance_raw : exists s0, started_udp = UGood s0 /\ usteps s0 (working ++ [UCompleted 0 Upper Rx false]) = UBad PortInUse.
Proof. eexists. split; vm_compute; reflexivity. Qed.
(** The first transmission fails (no route yet): ignored; the receiver goes on. *)
Example C45_instance_first : exists s0 s, started_udp = UGood s0 /\ usteps s0 [UStarts 0 Lower Tx; UCompleted 0 Lower Tx false] = UGood s /\ upend s = [(0%N, Lower, Rx)] /\ latest (ulog s) = Some 0%N.
Proof. eexists. eexists. split; [vm_compute; reflexivity|]. split; [vm_compute; reflexivity|]. split; reflexivity. Qed.
