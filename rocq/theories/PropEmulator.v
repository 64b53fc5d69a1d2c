(** * C51: the QIX emulator *)
From Coq Require Import ZArith Znumtheory Lia.
From Verif Require Import Base BaseFacts Crc Codec Link Qix QixSpec QixFacts QixStore PropQix Emulator EmulatorSpec EmulatorFacts.
Local Open Scope nat_scope.
#[local] Opaque wire_of.

Lemma requested_count o : get_frame_count o = requested o.
Proof. unfold get_frame_count, requested. destruct (o_count o); reflexivity. Qed.
Lemma asked_key_rate o : get_key_rate o = asked_rate o.
Proof. unfold get_key_rate, asked_rate. destruct (o_rate o); reflexivity. Qed.
Lemma frame_count_bound o : (get_frame_count o < 2 ^ 64)%N.
Proof. unfold get_frame_count. destruct (o_count o); [apply N.mod_upper_bound; discriminate|reflexivity]. Qed.

Lemma Forall_first {A} (Q : A -> Prop) n l : Forall Q l -> Forall Q (firstn n l).
Proof. intros H. revert n. induction H; intros [|n]; cbn; constructor; auto. Qed.

Lemma Forall2_len {A B} (R : A -> B -> Prop) l r : Forall2 R l r -> length l = length r.
Proof. induction 1; cbn; auto. Qed.

Lemma intends_well_formed hash o x fs : intends hash o x fs -> Forall well_formed fs.
Proof.
  intros [lines keys rest A B C D E|A B C|m fs' A B C D E F].
  - rewrite <- numbered_from_0. apply numbered_from_well_formed; [|lia]. clear - C. induction C as [|l k ls ks S C IH]; constructor; [eapply spells_key; eauto|exact IH].
  - rewrite <- numbered_from_0. apply numbered_from_well_formed.
    + rewrite <- firstn_map. apply Forall_first, C.
    + rewrite map_length, firstn_length. pose proof (frame_count_bound o) as FB. rewrite requested_count in FB. lia.
  - clear - D E F. set (clock := firstn _ _) in *. assert (Forall (clock_ok (u32 m)) clock) as G by (apply Forall_first; exact E).
    clearbody clock. induction F as [|t f ts fs T F IH]; [constructor|]. inversion G; subst. constructor; [eapply time_frame_well_formed; eauto|auto].
Qed.
Lemma well_formed_32 fs : Forall well_formed fs -> Forall (fun f => length (q_key f) = 32) fs.
Proof. intros H. eapply Forall_impl; [|exact H]. intros f [_ [W _]]. exact W. Qed.

Lemma open_all_iff devs : open_all devs = true <-> Forall (fun d => d_opens d = true) devs.
Proof. unfold open_all. rewrite forallb_forall, Forall_forall. reflexivity. Qed.

Lemma main_emits hash s o devs x log st fs : writing_mode o -> intends hash o x fs -> acceptable o devs -> Forall (fun d => d_opens d = true) devs ->
  emulator_main hash s o devs x = Ok (log, st) ->
  exists l m ok, emit devs 0 fs = (l, m, ok) /\ (forall p, port_bytes p log = port_bytes p l) /\ (o_stdin o = false -> printed log = firstn m fs) /\
    (ok = true -> st = ends o x fs) /\ (ok = false -> st = Exit (-1)).
Proof.
  intros [W1 W2] I A O E. unfold emulator_main in E. rewrite W1, W2 in E. apply open_all_iff in O. unfold ends. pose proof (frame_count_bound o) as FB. rewrite requested_count in *.
  destruct I as [lines keys rest B1 B2 B3 B4 B5|B1 B2 B3|mo fs B1 B2 B3 B4 B5 B6].
  - rewrite B1 in *. injection E as E. unfold write_frames_from_std_in in E. rewrite O, B2 in E. cbn [negb] in E.
    destruct (stdin_loop_spec devs keys lines rest 0 0 log st ltac:(lia) B3 B4 E) as [m [ok [C1 [C2 [C3 C4]]]]]. rewrite numbered_from_0 in C1.
    exists log, m, ok. split; [exact C1|]. split; [auto|]. split; [discriminate|]. split; [|exact C4]. intros T. rewrite (C3 T), B2, app_length.
    rewrite <- numbered_from_0, numbered_from_length, (Forall2_len _ _ _ B3). destruct rest; [rewrite Nat.add_0_r, Nat.eqb_refl; reflexivity|].
    destruct (Nat.eqb_spec (length keys) (length keys + length (l :: rest))) as [G|G]; [cbn [length] in G; lia|reflexivity].
  - rewrite B1, B2 in *. injection E as E. rewrite asked_key_rate in E. unfold write_random_frames in E. destruct A as [A|[A1 [[_ A2]|[A2 _]]]]; try congruence.
    destruct devs as [|d devs]; [congruence|]. rewrite (proj2 (N.eqb_neq _ _) A2), O in E. cbn [negb] in E.
    destruct (random_loop_spec (d :: devs) _ _ FB _ _ 0%N _ _ ltac:(lia) E) as [l [m [ok [C1 [C2 [C3 [C4 [C5 _]]]]]]]].
    rewrite N.sub_0_r in *. rewrite numbered_from_0 in *. exists l, m, ok. repeat split; auto. intros T. rewrite (C4 T).
    rewrite <- numbered_from_0, numbered_from_length, map_length, firstn_length.
    replace (N.of_nat (Nat.min (N.to_nat (requested o)) (length (in_draws x))) <? requested o)%N with (N.of_nat (length (in_draws x)) <? requested o)%N by lia. reflexivity.
  - rewrite B1, B2, B3 in *. injection E as E. unfold write_time_based_frames in E. destruct A as [A|[A1 [[A2 _]|[_ [mo' [A2 A3]]]]]]; try congruence.
    rewrite B3 in A2. injection A2 as <-. destruct devs as [|d devs]; [congruence|]. replace (u32 mo <? 100)%N with false in E by lia. rewrite O in E. cbn [negb] in E.
    destruct (time_loop_spec hash (d :: devs) _ (u32 mo) FB ltac:(lia) _ _ 0%N _ _ ltac:(lia) B5 E) as [fs' [l [m [ok [C0 [C1 [C2 [C3 [C4 [C5 _]]]]]]]]]].
    rewrite N.sub_0_r in *. assert (fs' = fs) as ->.
    { clear - C0 B6. revert fs C0 B6. set (clock := firstn _ _). clearbody clock. revert fs'. induction clock as [|t clock IH]; intros fs' fs F G; inversion F; inversion G; subst; [reflexivity|].
      f_equal; [eapply time_frame_unique; eauto|auto]. }
    exists l, m, ok. repeat split; auto. intros T. rewrite (C4 T). rewrite <- (Forall2_len _ _ _ B6), firstn_length.
    replace (N.of_nat (Nat.min (N.to_nat (requested o)) (length (in_clock x))) <? requested o)%N with (N.of_nat (length (in_clock x)) <? requested o)%N by lia. reflexivity.
Qed.

(** ** What is written *)

(** In every mode: each port gets the bytes of the intended frames, in order, and nothing else; what is printed is what was
    written to all ports.  If a device fails, the program ends with -1 and the ports differ by at most one frame. *)
Theorem C51_written : forall hash s o devs x log st fs, writing_mode o -> intends hash o x fs -> acceptable o devs ->
  Forall (fun d => d_opens d = true) devs -> emulator_main hash s o devs x = Ok (log, st) ->
  (ports_got devs fs log /\ (o_stdin o = false -> printed log = fs) /\ st = ends o x fs) \/
  (exists m j, ports_failed devs fs m j log /\ (o_stdin o = false -> printed log = firstn m fs) /\ st = Exit (-1)).
Proof.
  intros hash s o devs x log st fs W I A O E. destruct (main_emits hash s o devs x log st fs W I A O E) as [l [m [ok [C1 [C2 [C3 [C4 C5]]]]]]].
  destruct (emit_spec devs fs 0 l m ok (well_formed_32 _ (intends_well_formed _ _ _ _ I)) C1) as [[-> G]|[-> [G1 [j [d [k [f [G2 [G3 [G4 G5]]]]]]]]]].
  - left. split; [intros p Hp; rewrite C2; auto|]. split; [|auto]. intros T. rewrite (C3 T). apply emit_true in C1. subst m. apply firstn_all.
  - right. exists m, j. split; [|auto]. split; [exact G1|]. exists d, k, f. repeat split; auto. intros p Hp. rewrite C2. auto.
Qed.
Print Assumptions C51_written.

(** If all devices work, everything is written. *)
Theorem C51_all_written : forall hash s o devs x fs, writing_mode o -> intends hash o x fs -> acceptable o devs -> Forall reliable devs ->
  exists log, emulator_main hash s o devs x = Ok (log, ends o x fs) /\ ports_got devs fs log /\ (o_stdin o = false -> printed log = fs).
Proof.
  intros hash s o devs x fs W I A R. assert (Forall (fun d => d_opens d = true) devs) as O by (eapply Forall_impl; [|exact R]; intros d [D _]; exact D).
  assert (exists r, emulator_main hash s o devs x = Ok r) as [[log st] E].
  { destruct W as [W1 W2]. unfold emulator_main. rewrite W1, W2. destruct (o_stdin o); [eauto|]. destruct (o_write o); [eauto|]. destruct (o_twrite o); eauto. }
  destruct (main_emits hash s o devs x log st fs W I A O E) as [l [m [ok [C1 [C2 [C3 [C4 C5]]]]]]].
  pose proof (well_formed_32 _ (intends_well_formed _ _ _ _ I)) as H32. pose proof (emit_reliable devs R fs 0 H32) as T. rewrite C1 in T. cbn [snd] in T. subst ok.
  exists log. rewrite (C4 eq_refl) in E. split; [exact E|]. destruct (emit_spec devs fs 0 l m true H32 C1) as [[_ G]|[G _]]; [|discriminate].
  split; [intros p Hp; rewrite C2; auto|]. intros T. rewrite (C3 T). apply emit_true in C1. subst m. apply firstn_all.
Qed.
Print Assumptions C51_all_written.

(** Wrong arguments, or a device that cannot be opened: nothing is written and the result is -1. *)
Theorem C51_arguments : forall hash s o devs x, writing_mode o -> ~ acceptable o devs \/ Exists (fun d => d_opens d = false) devs ->
  emulator_main hash s o devs x = Ok ([], Exit (-1)).
Proof.
  intros hash s o devs x [W1 W2] H. unfold emulator_main. rewrite W1, W2. destruct H as [H|H].
  - rewrite asked_key_rate. destruct (o_stdin o) eqn:E1; [exfalso; apply H; left; exact E1|]. destruct (o_write o) eqn:E2.
    + unfold write_random_frames. destruct devs as [|d devs]; [reflexivity|]. destruct (N.eqb_spec (asked_rate o) 0) as [E3|E3]; [reflexivity|].
      exfalso. apply H. right. split; [discriminate|]. left. auto.
    + destruct (o_twrite o) as [m|] eqn:E3; [|reflexivity]. unfold write_time_based_frames. destruct devs as [|d devs]; [reflexivity|].
      destruct (N.ltb_spec (u32 m) 100) as [E4|E4]; [reflexivity|]. exfalso. apply H. right. split; [discriminate|]. right. split; [exact E2|]. exists m. split; [exact E3|exact E4].
  - assert (open_all devs = false) as O.
    { destruct (open_all devs) eqn:O; [|reflexivity]. apply open_all_iff in O. exfalso. clear - O H. induction H; inversion O; [congruence|auto]. }
    unfold write_frames_from_std_in, write_random_frames, write_time_based_frames. rewrite O. cbn [negb].
    destruct (o_stdin o); [reflexivity|]. destruct (o_write o); [destruct devs; [reflexivity|]; destruct (get_key_rate o =? 0)%N; reflexivity|].
    destruct (o_twrite o) as [m|]; [|reflexivity]. destruct devs; [reflexivity|]. destruct (u32 m <? 100)%N; reflexivity.
Qed.
Print Assumptions C51_arguments.

(** ** What is read at the other end of a line *)
Theorem C51_read_back : forall hash s o devs x log st fs p d, writing_mode o -> intends hash o x fs -> acceptable o devs ->
  Forall (fun d => d_opens d = true) devs -> emulator_main hash s o devs x = Ok (log, st) ->
  nth_error devs p = Some d -> (forall n, d_takes d n = None) ->
  forall hash' o' d' x', reading_mode o' -> length (in_buffer x') = 47 -> within (new_reader (in_buffer x')) (in_port x') -> no_error (in_port x') ->
    stream (in_port x') = port_bytes p log ->
  exists n, emulator_main hash' true o' [d'] x' = Ok (map Printed (firstn n fs), Exit 0) /\
    (o_stdin o = false -> length (printed log) <= n <= S (length (printed log)) /\ (Forall reliable devs -> firstn n fs = printed log)).
Proof.
  intros hash s o devs x log st fs p d W I A O E Hp Hd hash' o' d' x' [R1 R2] L V NE S. pose proof (intends_well_formed _ _ _ _ I) as WF.
  assert (p < length devs) as Lp by (apply nth_error_Some; congruence).
  assert (exists n, port_bytes p log = wires (firstn n fs) /\ (o_stdin o = false -> length (printed log) <= n <= Datatypes.S (length (printed log)) /\ (Forall reliable devs -> firstn n fs = printed log))) as [n [Hn Hn']].
  { destruct (C51_written hash s o devs x log st fs W I A O E) as [[G1 [G2 _]]|[m [j [[G1 [d0 [k [f [G2 [G3 [G4 G5]]]]]]] [G6 _]]]]].
    - exists (length fs). rewrite firstn_all. split; [auto|]. intros T. rewrite (G2 T). auto.
    - rewrite (G5 p Lp). assert (o_stdin o = false -> length (printed log) = m) as Lm by (intros T; rewrite (G6 T), firstn_length; lia).
      assert (~ Forall reliable devs) as NR by (intros T; rewrite Forall_forall in T; apply nth_error_In in G2; destruct (T _ G2) as [_ T']; rewrite T' in G3; discriminate).
      destruct (Nat.ltb_spec p j) as [Q|Q]; [exists (Datatypes.S m); split; [reflexivity|]; intros T; rewrite (Lm T); split; [lia|tauto]|].
      destruct (Nat.eqb_spec p j) as [->|Q']; [congruence|]. exists m. split; [reflexivity|]. intros T. rewrite (Lm T). split; [lia|tauto]. }
  exists n. split; [|exact Hn']. unfold emulator_main. rewrite R1, R2. cbn [read_frames].
  destruct (C31_round_trip (firstn n fs) (map wire_of (firstn n fs)) (in_buffer x') (in_port x')) as [r Hr]; auto using Forall_first.
  - clear - WF. assert (Forall well_formed (firstn n fs)) as G by (apply Forall_first; exact WF). induction G as [|f l [_ [F _]] G IH]; cbn [map]; constructor; auto using qix_write_wire.
  - rewrite S, Hn. unfold wires. now rewrite flat_map_concat_map.
  - now rewrite Hr.
Qed.
Print Assumptions C51_read_back.

(** ** Lines and keys *)

(** Every key has exactly one line, and a line spells at most one key. *)
Theorem C51_lines : (forall k, is_key k -> exists line, spells line k /\ forall line', spells line' k -> line' = line) /\
  forall line k k', spells line k -> spells line k' -> k = k'.
Proof.
  split.
  - intros k H. exists (line_of k). split; [apply line_of_spells; exact H|]. intros line [L [_ G]]. destruct (line_of_spells k H) as [L' [_ G']].
    apply nth_ext with (d := 0%N) (d' := 0%N); [congruence|]. intros i Hi. rewrite G, G' by lia. reflexivity.
  - intros line k k' H H'. apply line_key_iff in H. apply line_key_iff in H'. congruence.
Qed.
Print Assumptions C51_lines.

(** ** Identifiers *)
Lemma numbered_from_increasing : forall keys i, increasing (map q_id (numbered_from i keys)).
Proof.
  induction keys as [|k keys IH]; intros i; [exact I|]. rewrite numbered_from_cons. destruct keys as [|k' keys]; [exact I|]. specialize (IH (i + 1)%N).
  rewrite numbered_from_cons in *. cbn [map frame q_id] in *. split; [lia|exact IH].
Qed.

(** The identifiers increase; in the time-based mode as long as the clock is not set back. *)
Theorem C51_ids_increase : forall hash o x fs, intends hash o x fs ->
  (o_stdin o = false -> o_write o = false -> forall m, o_twrite o = Some m -> clock_forward (u32 m) (in_clock x)) -> increasing (map q_id fs).
Proof.
  intros hash o x fs [lines keys rest A B C D E|A B C|m fs' A B C D E F] H.
  - rewrite <- numbered_from_0. apply numbered_from_increasing.
  - rewrite <- numbered_from_0. apply numbered_from_increasing.
  - eapply clock_forward_increasing; [|exact F]. apply clock_forward_firstn. apply H; assumption.
Qed.
Print Assumptions C51_ids_increase.

(** Each time-based frame is written after waiting until the millisecond that is its identifier. *)
Lemma write_ports_timely n z f : length (q_key f) = 32 -> q_id f = ms z -> forall devs idx l, timely (Some z) l -> timely (Some z) (fst (write_ports n idx devs f) ++ l).
Proof.
  intros L H. induction devs as [|d devs IH]; intros idx l T; cbn [write_ports]; [exact T|]. rewrite (qix_write_wire f L).
  assert (wire_of f = [0x5A; 0xA5]%N ++ be_bytes 8 (ms z) ++ skipn 10 (wire_of f)) as Wf by (rewrite <- H; reflexivity).
  destruct (d_takes d n) as [k|].
  - cbn [fst app timely]. split; [|exact T]. exists z, (skipn 10 (wire_of f)), (skipn k (wire_of f)). split; [reflexivity|]. rewrite firstn_skipn. exact Wf.
  - specialize (IH (S idx) l T). destruct (write_ports n (S idx) devs f) as [w ok]. cbn [fst app timely] in *. split; [|exact IH].
    exists z, (skipn 10 (wire_of f)), []. split; [reflexivity|]. rewrite app_nil_r. exact Wf.
Qed.
Theorem C51_on_time : forall hash devs count m clock log st, hash_ok hash -> Forall (clock_ok m) clock ->
  write_time_based_frames hash devs count m clock = (log, st) -> timely None log.
Proof.
  intros hash devs count m clock log st HH F E. unfold write_time_based_frames in E. destruct devs as [|d devs]; [inversion E; exact I|].
  destruct (N.ltb_spec m 100) as [|Hm]; [inversion E; exact I|]. destruct (open_all (d :: devs)); [|inversion E; exact I].
  cbn [negb] in E. revert E. generalize (d :: devs) as ds, 0 as n, 0%N as i, (@None Z) as z. intros ds n i z E.
  revert n i z log st E. induction F as [|t clock T F IH]; intros n i z log st E; cbn [time_loop] in E; [destruct (i <? count)%N; inversion E; exact I|].
  destruct (i <? count)%N; [|inversion E; exact I]. destruct (next_event_next m t ltac:(lia) T) as [N1 [N2 N3]]. rewrite N1 in E. cbn [negb] in E.
  set (f := {| q_id := _; q_key := _; q_status := _ |}) in E. assert (length (q_key f) = 32) as L by apply HH.
  pose proof (write_ports_timely n (next_event m t) f L (eq_sym N3) ds 0) as W. destruct (write_ports n 0 ds f) as [w ok]. cbn [fst] in W. destruct ok.
  - destruct (time_loop hash ds count m (S n) (u64 (i + 1)) clock) as [log' st'] eqn:E1. inversion E; subst. cbn [timely]. apply W. split; [|eapply IH; exact E1].
    exists (next_event m t). split; [reflexivity|]. exact (eq_sym N3).
  - inversion E; subst. cbn [timely]. specialize (W [] I). rewrite app_nil_r in W. exact W.
Qed.
Print Assumptions C51_on_time.

(** Two readings of the clock, and between them it was set back: the same identifier and the same key are sent again. *)
Theorem C51_clock_back_refuted : forall hash, hash_ok hash -> exists o x f,
  intends hash o x [f; f] /\
  match do_sops (new_source 1) [Bind 0 8; Frame f; Take 0 Consume; Frame f; Take 0 Consume] with
  | Ok (_, h) => map shanded h = [None; None; Some (0%N, q_id f, q_key f); None; Some (0%N, q_id f, q_key f)]
  | _ => False
  end.
Proof.
  intros hash H. set (f := frame 1000 (hash (be_bytes 8 1000))).
  exists {| o_help := false; o_read := false; o_stdin := false; o_write := false; o_twrite := Some 1000%N; o_rate := None; o_count := None |}.
  exists {| in_draws := []; in_lines := []; in_clock := [500000000; 400000000]%Z; in_port := []; in_buffer := [] |}. exists f. split.
  - apply (intends_time _ _ _ 1000%N); try reflexivity; [exact H| |].
    + assert (forall t, (0 <= t < 1000000000)%Z -> clock_ok (u32 1000) t) as G by (intros t Ht; split; [lia|]; replace (Z.of_N (u32 1000)) with 1000%Z by reflexivity; lia).
      cbn [in_clock]. repeat constructor; lia.
    + cbn [in_clock requested o_count]. rewrite firstn_all2 by (cbn [length]; lia).
      assert (forall t, (0 <= t < 1000000000)%Z -> time_frame hash (u32 1000) t f) as G.
      { intros t Ht. exists 1000%N. split; [|reflexivity]. unfold is_next. replace (u32 1000) with 1000%N by reflexivity. split; [exists 1%N; reflexivity|].
        unfold ms. assert (0 <= t / 1000000 < 1000)%Z by (split; [apply Z.div_pos; lia|apply Z.div_lt_upper_bound; lia]). lia. }
      constructor; [apply G; lia|]. constructor; [apply G; lia|constructor].
  - destruct (H (be_bytes 8 1000)) as [L _]. unfold f. set (k := hash (be_bytes 8 1000)) in *. clearbody k.
    cbn [do_sops do_sop]. unfold handle, add_key, make_key. cbn [frame q_status q_key q_id]. rewrite L. reflexivity.
Qed.
Print Assumptions C51_clock_back_refuted.

(** ** Two proxies, each with its own time-based emulator (of any modulo) *)
Lemma last_carried_key (Q : list N -> Prop) id : forall os d k, (forall k, d = Some k -> Q k) ->
  Forall (fun o => match o with Frame f => q_id f = id -> Q (q_key f) | _ => True end) os -> last_carried os id d = Some k -> Q k.
Proof.
  induction os as [|o os IH]; intros d k Hd F E; cbn [last_carried] in E; [auto|]. inversion F as [|? ? F1 F2]; subst. eapply IH; [|exact F2|exact E].
  intros k' Hk. destruct o as [| f |]; auto. destruct (carries id (Frame f)) eqn:C; [|auto]. injection Hk as <-. apply F1. unfold carries in C. lia.
Qed.
Lemma fst_sops : forall os s s' h, do_sops s os = Ok (s', h) -> map fst h = os.
Proof.
  induction os as [|o os IH]; intros s s' h E; cbn [do_sops] in E; [inversion E; reflexivity|]. unfold obind in E. destruct (do_sop s o) as [[s1 a]| |]; try discriminate.
  destruct (do_sops s1 os) as [[s2 h2]| |] eqn:E1; try discriminate. inversion E; subst. cbn. f_equal. eapply IH; eauto.
Qed.

(** The key handed out for an identifier is the hash of the identifier, so two proxies fed by different emulators agree. *)
Theorem C51_emulators_agree : forall hash n m os s h x sub id k, (n < 2 ^ 16)%N -> takes_only os -> fed_by hash m os ->
  do_sops (new_source n) os = Ok (s, h) -> In x h -> shanded x = Some (sub, id, k) -> k = hash (be_bytes 8 id).
Proof.
  intros hash n m os s h x sub id k Hn Ht Hf E I Hx. apply in_split in I. destruct I as [h1 [h2 I]].
  destruct (C42_one_subscriber n os s h h1 x h2 sub id k Hn Ht E I Hx) as [_ [A _]].
  assert (fed_by hash m (map fst h1)) as F1.
  { unfold fed_by in *. rewrite <- (fst_sops _ _ _ _ E), I, map_app in Hf. apply Forall_app in Hf. apply Hf. }
  refine (last_carried_key (fun k => k = hash (be_bytes 8 id)) id _ None k ltac:(discriminate) _ A).
  eapply Forall_impl; [|exact F1]. intros o Ho. destruct o as [| f |]; auto. destruct Ho as [t [_ [id' [_ ->]]]]. cbn. now intros ->.
Qed.
Print Assumptions C51_emulators_agree.

(** ** Which subscribers get keys *)

(** All identifiers are multiples of the modulo: a subscriber whose number is not a multiple of its common divisors with
    the number of subscribers never gets a key.  With the modulo 1000 and two subscribers, the second one starves. *)
Theorem C51_starved_refuted : forall hash n m os s h x sub id k, (n < 2 ^ 16)%N -> n <> 0%N -> takes_only os -> fed_by hash m os ->
  do_sops (new_source n) os = Ok (s, h) -> In x h -> shanded x = Some (sub, id, k) -> (sub mod N.gcd n m = 0)%N.
Proof.
  intros hash n m os s h x sub id k Hn Hz Ht Hf E I Hx. apply in_split in I. destruct I as [h1 [h2 I]].
  destruct (C42_one_subscriber n os s h h1 x h2 sub id k Hn Ht E I Hx) as [S [A _]].
  assert (fed_by hash m (map fst h1)) as F1.
  { unfold fed_by in *. rewrite <- (fst_sops _ _ _ _ E), I, map_app in Hf. apply Forall_app in Hf. apply Hf. }
  assert (exists q, id = q * m)%N as [q Q].
  { refine (last_carried_key (fun _ => exists q, id = q * m)%N id _ None k ltac:(discriminate) _ A).
    eapply Forall_impl; [|exact F1]. intros o Ho. destruct o as [| f |]; auto. destruct Ho as [t [_ [id' [[B _] ->]]]]. cbn. now intros <-. }
  assert (N.gcd n m <> 0)%N as G by (intros G; apply N.gcd_eq_0_l in G; contradiction).
  apply N.mod_divide; [exact G|]. rewrite S, Q. rewrite N.mod_eq by exact Hz. apply N.divide_sub_r.
  - apply N.divide_mul_r, N.gcd_divide_r.
  - apply N.divide_mul_l, N.gcd_divide_l.
Qed.
Print Assumptions C51_starved_refuted.
Corollary C51_second_subscriber_refuted : forall hash os s h x id k, takes_only os -> fed_by hash 1000 os ->
  do_sops (new_source 2) os = Ok (s, h) -> In x h -> shanded x <> Some (1%N, id, k).
Proof. intros hash os s h x id k Ht Hf E I Hx. pose proof (C51_starved_refuted hash 2 1000 os s h x 1 id k ltac:(lia) ltac:(lia) Ht Hf E I Hx) as G. discriminate. Qed.
Print Assumptions C51_second_subscriber_refuted.

(** If the modulo and the number of subscribers have no common divisor, [n] frames in a row reach every subscriber. *)
Theorem C51_served_partial : forall n m id sub, (N.gcd n m = 1)%N -> (sub < n)%N -> exists j, (j < n /\ (id + j * m) mod n = sub)%N.
Proof.
  intros n m id sub G L. assert (rel_prime (Z.of_N m) (Z.of_N n)) as R.
  { apply Zgcd_1_rel_prime. replace (Z.gcd (Z.of_N m) (Z.of_N n)) with (Z.of_N (N.gcd m n)) by (destruct m, n; reflexivity). rewrite N.gcd_comm, G. reflexivity. }
  destruct (rel_prime_bezout _ _ R) as [u v B]. set (j := ((Z.of_N sub - Z.of_N id) * u mod Z.of_N n)%Z).
  assert (0 <= j < Z.of_N n)%Z as J by (apply Z.mod_pos_bound; lia). exists (Z.to_N j). split; [lia|].
  apply N2Z.inj. rewrite N2Z.inj_mod by lia. rewrite N2Z.inj_add, N2Z.inj_mul, Z2N.id by lia. unfold j.
  rewrite <- Zplus_mod_idemp_r, Zmult_mod_idemp_l, Zplus_mod_idemp_r.
  replace (Z.of_N id + (Z.of_N sub - Z.of_N id) * u * Z.of_N m)%Z with (Z.of_N sub + (- (Z.of_N sub - Z.of_N id) * v) * Z.of_N n)%Z by nia.
  rewrite Z.mod_add by lia. apply Z.mod_small. lia.
Qed.
Print Assumptions C51_served_partial.

(** ** How fast *)

(** The program pauses after each frame for the configured period plus the time the writing took. *)
Theorem C51_pause : forall devs count rate ds log st, (count < 2 ^ 64)%N -> (1 <= rate <= 1000)%N -> Forall (fun d => (dr_start d <= dr_end d)%Z) ds ->
  Forall is_key (map dr_key ds) -> write_random_frames devs count rate ds = (log, st) ->
  pauses log = map (fun d => (1000000 * (1000 / Z.of_N rate) + (dr_end d - dr_start d))%Z) (firstn (length (printed log)) ds).
Proof.
  intros devs count rate ds log st Hc Hr Hd Hk E. unfold write_random_frames in E. destruct devs as [|d devs]; [inversion E; reflexivity|].
  replace (rate =? 0)%N with false in E by lia. destruct (open_all (d :: devs)); [|inversion E; reflexivity]. cbn [negb] in E.
  destruct (random_loop_spec (d :: devs) _ _ Hc _ _ 0%N _ _ ltac:(lia) E) as [l [m [ok [C1 [_ [C3 [_ [_ C6]]]]]]]].
  assert (frame_delay rate = 1000000 * (1000 / Z.of_N rate))%Z as D by (unfold frame_delay; rewrite N2Z.inj_div; lia).
  assert (1 <= 1000 / Z.of_N rate)%Z by (apply Z.div_le_lower_bound; lia). rewrite C6.
  - rewrite D. f_equal. f_equal. rewrite C3, firstn_length, numbered_from_length, map_length, firstn_length.
    assert (m <= length (numbered_from 0 (map dr_key (firstn (N.to_nat (count - 0)) ds)))) as Lm.
    { set (fs := numbered_from _ _) in *. assert (Forall (fun f => length (q_key f) = 32) fs) as H32.
      { apply well_formed_32, numbered_from_well_formed; [rewrite <- firstn_map; apply Forall_first, Hk|]. rewrite map_length, firstn_length. lia. }
      destruct (emit_spec (d :: devs) fs 0 l m ok H32 C1) as [[-> _]|[-> [Q _]]]; [apply emit_true in C1|]; lia. }
    rewrite numbered_from_length, map_length, firstn_length in Lm. lia.
  - eapply Forall_impl; [|exact Hd]. cbn beta. intros x Hx. lia.
Qed.
Print Assumptions C51_pause.

(** So the configured rate is missed: from the start of one frame to the start of the next it takes the period and twice
    the time the writing takes; *)
Theorem C51_rate_refuted : forall devs count rate ds log st i d d' z, (count < 2 ^ 64)%N -> (1 <= rate <= 1000)%N -> Forall (fun d => (dr_start d <= dr_end d)%Z) ds ->
  Forall is_key (map dr_key ds) -> write_random_frames devs count rate ds = (log, st) ->
  nth_error ds i = Some d -> nth_error ds (S i) = Some d' -> nth_error (pauses log) i = Some z -> (dr_end d + z <= dr_start d')%Z ->
  (1000000 * (1000 / Z.of_N rate) + 2 * (dr_end d - dr_start d) <= dr_start d' - dr_start d)%Z.
Proof.
  intros devs count rate ds log st i d d' z Hc Hr Hd Hk E D D' Z L. rewrite (C51_pause devs count rate ds log st Hc Hr Hd Hk E) in Z.
  rewrite nth_error_map in Z. assert (nth_error (firstn (length (printed log)) ds) i = Some d) as G.
  { destruct (Nat.ltb_spec i (length (printed log))) as [Q|Q].
    - assert (i < length ds) as Li by (apply nth_error_Some; congruence). assert (i < length (firstn (length (printed log)) ds)) as Lf by (rewrite firstn_length; lia).
      pose proof (nth_error_app1 _ (skipn (length (printed log)) ds) Lf) as P. rewrite firstn_skipn in P. congruence.
    - rewrite (proj2 (nth_error_None (firstn (length (printed log)) ds) i)) in Z by (rewrite firstn_length; lia). discriminate. }
  rewrite G in Z. assert (z = 1000000 * (1000 / Z.of_N rate) + (dr_end d - dr_start d))%Z as Hz by (symmetry; injection Z; exact (fun H => H)). lia.
Qed.
Print Assumptions C51_rate_refuted.

Definition good_device : device := {| d_opens := true; d_takes := fun _ => None |}.
Definition flaky_device : device := {| d_opens := true; d_takes := fun n => if n =? 1 then Some 20 else None |}.
Definition draw_at (k : N) (t w : Z) : draw := {| dr_key := repeat k 32; dr_start := t; dr_end := (t + w)%Z |}.
(** and since the period is cut to whole milliseconds, 600 frames per second become 1000 when the writing takes no time. *)
Theorem C51_too_fast_refuted : let ds := map (fun i => draw_at 7 (Z.of_nat i * 1000000) 0) (seq 0 4) in
  pauses (fst (write_random_frames [good_device] 4 600 ds)) = [1000000; 1000000; 1000000; 1000000]%Z.
Proof. reflexivity. Qed.
Print Assumptions C51_too_fast_refuted.

(** Without a port, the emulator reads the keys from the standard input, writes nothing, and reports success. *)
Theorem C51_no_port_refuted : forall hash s x lines keys, in_lines x = lines -> Forall2 spells lines keys -> (N.of_nat (length keys) < 2 ^ 64)%N ->
  emulator_main hash s {| o_help := false; o_read := false; o_stdin := true; o_write := false; o_twrite := None; o_rate := None; o_count := None |} [] x = Ok ([], Exit 0).
Proof.
  intros hash s x lines keys E F L. cbn [emulator_main o_help o_read o_stdin]. unfold write_frames_from_std_in. cbn [open_all forallb negb].
  destruct (stdin_loop [] 0 0 (in_lines x)) as [log st] eqn:R. rewrite E, <- (app_nil_r lines) in R.
  destruct (stdin_loop_spec [] keys lines [] 0 0 log st ltac:(lia) F I R) as [m [ok [A [_ [B C]]]]].
  assert (forall fs n, exists k, emit [] n fs = ([], k, true)) as G by (induction fs as [|f fs IH]; intros n; cbn; [eauto|]; destruct (IH (S n)) as [k ->]; eauto).
  destruct (G (numbered_from 0 keys) 0) as [k G']. rewrite G' in A. inversion A; subst. now rewrite (B eq_refl).
Qed.
Print Assumptions C51_no_port_refuted.

(** ** Instances *)
Definition opts (stdin write : bool) (tw : option N) : options := {| o_help := false; o_read := false; o_stdin := stdin; o_write := write; o_twrite := tw; o_rate := None; o_count := Some 2%N |}.
Definition reading : options := {| o_help := false; o_read := true; o_stdin := false; o_write := false; o_twrite := None; o_rate := None; o_count := None |}.
Definition inputs_of (ds : list draw) (ls : list (list N)) (c : list Z) : inputs := {| in_draws := ds; in_lines := ls; in_clock := c; in_port := []; in_buffer := repeat 0%N 47 |}.
Definition no_hash (x : list N) : list N := repeat 0%N 32.
Lemma no_hash_ok : hash_ok no_hash. Proof. intros x. split; [reflexivity|]. apply Forall_forall. intros y Hy. apply repeat_spec in Hy. subst. reflexivity. Qed.
Lemma repeat_key k : (k < 256)%N -> is_key (repeat k 32).
Proof. intros H. split; [reflexivity|]. apply Forall_forall. intros y Hy. apply repeat_spec in Hy. now subst. Qed.

(** Random keys on two good ports, and the reader on the second *)
Example C51_instance_random : let o := opts false true None in let x := inputs_of [draw_at 5 0 10; draw_at 6 2000000000 10; draw_at 7 4000000000 10] [] [] in
  let fs := [frame 0 (repeat 5%N 32); frame 1 (repeat 6%N 32)] in
  writing_mode o /\ intends no_hash o x fs /\ acceptable o [good_device; good_device] /\ Forall reliable [good_device; good_device] /\
  match emulator_main no_hash true o [good_device; good_device] x with
  | Ok (log, st) => port_bytes 1 log = wires fs /\ printed log = fs /\ st = Exit 0 /\ pauses log = [1000000010; 1000000010]%Z /\
      emulator_main no_hash true reading [good_device] {| in_draws := []; in_lines := []; in_clock := []; in_port := [Data (firstn 30 (port_bytes 1 log)); Data (firstn 17 (skipn 30 (port_bytes 1 log))); Data (skipn 47 (port_bytes 1 log))]; in_buffer := repeat 0%N 47 |} = Ok (map Printed fs, Exit 0)
  | _ => False
  end.
Proof.
  cbv zeta. split; [split; reflexivity|]. split.
  { change (intends no_hash (opts false true None) (inputs_of [draw_at 5 0 10; draw_at 6 2000000000 10; draw_at 7 4000000000 10] [] []) (numbered (map dr_key (firstn (N.to_nat (requested (opts false true None))) (in_draws (inputs_of [draw_at 5 0 10; draw_at 6 2000000000 10; draw_at 7 4000000000 10] [] [])))))).
    apply intends_random; try reflexivity. repeat constructor; cbn; lia. }
  split; [right; split; [discriminate|]; left; split; [reflexivity|discriminate]|].
  split; [repeat constructor|]. vm_compute. repeat split; reflexivity.
Qed.

(** The second device fails in the second frame after 20 bytes: the first port has two frames, the second one and 20 bytes, the third one. *)
Example C51_instance_failure : let o := opts true false None in let x := inputs_of [] (map line_of [repeat 5%N 32; repeat 6%N 32; repeat 7%N 32]) [] in
  let fs := numbered [repeat 5%N 32; repeat 6%N 32; repeat 7%N 32] in
  match emulator_main no_hash true o [good_device; flaky_device; good_device] x with
  | Ok (log, st) => port_bytes 0 log = wires (firstn 2 fs) /\ port_bytes 1 log = wires (firstn 1 fs) ++ firstn 20 (wire_of (frame 1 (repeat 6%N 32))) /\
      port_bytes 2 log = wires (firstn 1 fs) /\ st = Exit (-1)
  | _ => False
  end.
Proof. vm_compute. repeat split; reflexivity. Qed.

(** A line that spells no key ends the program. *)
Example C51_instance_stdin : match emulator_main no_hash true (opts true false None) [good_device] (inputs_of [] [line_of (repeat 5%N 32); repeat 50%N 256; line_of (repeat 6%N 32)] []) with
  | Ok (log, st) => port_bytes 0 log = wires [frame 0 (repeat 5%N 32)] /\ st = Exit (-1)
  | _ => False
  end.
Proof. vm_compute. split; reflexivity. Qed.

(** Time-based keys: 0.25 s before the full second, and shortly after it; modulo 1000 ms *)
Example C51_instance_time : let o := opts false false (Some 1000%N) in let x := inputs_of [] [] [1999750000000; 2000000000007]%Z in
  clock_forward 1000 (in_clock x) /\ Forall (clock_ok 1000) (in_clock x) /\
  match emulator_main no_hash true o [good_device] x with
  | Ok (log, st) => map q_id (printed log) = [2000000; 2001000]%N /\ alarms log = [2000000000000; 2000000000007 + 1000000000]%Z /\ st = Exit 0
  | _ => False
  end.
Proof.
  cbv zeta. split.
  - cbn [in_clock inputs_of clock_forward]. split; [|exact I]. intros id [[q Q] [A B]]. change (ms 1999750000000) with 1999750%N in *. change (ms 2000000000007) with 2000000%N in *. lia.
  - split; [repeat constructor; cbn; lia|]. vm_compute. repeat split; reflexivity.
Qed.

(** Two subscribers, fed with the modulo 1001: both get keys *)
Example C51_instance_served : (N.gcd 2 1001 = 1)%N /\ map (fun j => (1001 * (1 + j)) mod 2)%N [0; 1]%N = [1; 0]%N.
Proof. split; reflexivity. Qed.
