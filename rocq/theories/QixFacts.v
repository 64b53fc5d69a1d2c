(** * QixFacts: proofs about the QIX reader *)
From Verif Require Import Base BaseFacts Crc CrcMain Link Qix QixSpec.
Local Open Scope nat_scope.

Lemma skipn_skipn (l : list N) : forall m n, skipn m (skipn n l) = skipn (n + m) l.
Proof. intros m n. revert l; induction n as [|n IH]; intros [|x l]; cbn; auto. now destruct m. Qed.

(** ** Searching the start bytes *)
Lemma starts_dec l : {starts l} + {~ starts l}.
Proof.
  destruct l as [|a [|b l]]; cbn; [right; auto|apply N.eq_dec|].
  destruct (N.eq_dec a 0x5A); [|right; tauto]. destruct (N.eq_dec b 0xA5); [left; auto|right; tauto].
Defined.

Lemma find_sync_spec l : find_sync l <= length l /\ (forall i, i < find_sync l -> ~ starts (skipn i l)) /\
  (find_sync l = length l \/ starts (skipn (find_sync l) l)).
Proof.
  induction l as [|a l IH]; [cbn; repeat split; auto; intros; lia|].
  destruct l as [|b l].
  - cbn. unfold q_sync1. destruct (N.eqb_spec a 0x5A).
    + split; [lia|]. split; [intros; lia|]. right. cbn. assumption.
    + split; [lia|]. split; [|left; reflexivity]. intros i Hi. replace i with 0 by lia. cbn. assumption.
  - change (find_sync (a :: b :: l)) with (if ((a =? q_sync1) && (b =? q_sync2))%N then 0 else S (find_sync (b :: l))).
    unfold q_sync1, q_sync2. destruct (N.eqb_spec a 0x5A) as [Ha|Ha]; cbn [andb];
      [destruct (N.eqb_spec b 0xA5) as [Hb|Hb]|].
    + split; [lia|]. split; [intros; lia|]. right. cbn. auto.
    + destruct IH as [I1 [I2 I3]]. split; [cbn [length] in *; lia|]. split.
      * intros [|i] Hi; [cbn; tauto|]. apply (I2 i). lia.
      * destruct I3 as [I3|I3]; [left; cbn [length] in *; lia|right; exact I3].
    + destruct IH as [I1 [I2 I3]]. split; [cbn [length] in *; lia|]. split.
      * intros [|i] Hi; [cbn; tauto|]. apply (I2 i). lia.
      * destruct I3 as [I3|I3]; [left; cbn [length] in *; lia|right; exact I3].
Qed.

Lemma find_sync_unique l d : d <= length l -> (forall i, i < d -> ~ starts (skipn i l)) ->
  (d = length l \/ starts (skipn d l)) -> find_sync l = d.
Proof.
  intros Hd Hn Hs. destruct (find_sync_spec l) as [F1 [F2 F3]].
  destruct (Nat.lt_trichotomy (find_sync l) d) as [L|[L|L]]; [|exact L|].
  - destruct F3 as [F3|F3]; [lia|]. destruct (Hn _ L F3).
  - destruct Hs as [Hs|Hs]; [lia|]. destruct (F2 _ L Hs).
Qed.

(** ** The stream algorithm is deterministic and total *)
Lemma app47 (w w' s s' : list N) : length w = 47 -> length w' = 47 -> w ++ s = w' ++ s' -> w = w' /\ s = s'.
Proof. intros A B E. apply app_inv_len; congruence. Qed.

Lemma reads_det s fs rest : reads s fs rest -> forall fs' rest', reads s fs' rest' -> fs = fs' /\ rest = rest'.
Proof.
  induction 1 as [s Hs|d w s fs rest Hw Hd Hn Ho R IH|w s fs rest Hw Hst Hf R IH|w s fs rest Hw Hst Hf R IH]; intros fs' rest' R'.
  - inversion R'; subst; auto; rewrite app_length in Hs; lia.
  - inversion R' as [s0 L|d' w' s' fs0 rest0 Hw' Hd' Hn' Ho' R1|w' s' fs0 rest0 Hw' Hst' Hf' R1|w' s' fs0 rest0 Hw' Hst' Hf' R1]; subst.
    + rewrite app_length in L. lia.
    + match goal with E : _ ++ _ = _ ++ _ |- _ => destruct (app47 _ _ _ _ Hw' Hw E); subst end.
      assert (d = d') as ->. { rewrite <- (find_sync_unique w d), <- (find_sync_unique w d'); auto; rewrite ?Hw; try tauto; lia. }
      apply IH, R1.
    + match goal with E : _ ++ _ = _ ++ _ |- _ => destruct (app47 _ _ _ _ Hw' Hw E); subst end.
      destruct (Hn 0 ltac:(lia) Hst').
    + match goal with E : _ ++ _ = _ ++ _ |- _ => destruct (app47 _ _ _ _ Hw' Hw E); subst end.
      destruct (Hn 0 ltac:(lia) Hst').
  - inversion R' as [s0 L|d' w' s' fs0 rest0 Hw' Hd' Hn' Ho' R1|w' s' fs0 rest0 Hw' Hst' Hf' R1|w' s' fs0 rest0 Hw' Hst' Hf' R1]; subst.
    + rewrite app_length in L. lia.
    + match goal with E : _ ++ _ = _ ++ _ |- _ => destruct (app47 _ _ _ _ Hw' Hw E); subst end.
      destruct (Hn' 0 ltac:(lia) Hst).
    + match goal with E : _ ++ _ = _ ++ _ |- _ => destruct (app47 _ _ _ _ Hw' Hw E); subst end. apply IH, R1.
    + match goal with E : _ ++ _ = _ ++ _ |- _ => destruct (app47 _ _ _ _ Hw' Hw E); subst end. contradiction.
  - inversion R' as [s0 L|d' w' s' fs0 rest0 Hw' Hd' Hn' Ho' R1|w' s' fs0 rest0 Hw' Hst' Hf' R1|w' s' fs0 rest0 Hw' Hst' Hf' R1]; subst.
    + rewrite app_length in L. lia.
    + match goal with E : _ ++ _ = _ ++ _ |- _ => destruct (app47 _ _ _ _ Hw' Hw E); subst end.
      destruct (Hn' 0 ltac:(lia) Hst).
    + match goal with E : _ ++ _ = _ ++ _ |- _ => destruct (app47 _ _ _ _ Hw' Hw E); subst end. contradiction.
    + match goal with E : _ ++ _ = _ ++ _ |- _ => destruct (app47 _ _ _ _ Hw' Hw E); subst end.
      destruct (IH _ _ R1); subst; auto.
Qed.

Lemma reads_total n : forall s, length s <= n -> exists fs rest, reads s fs rest.
Proof.
  induction n as [|n IH]; intros s Hs; [exists [], s; constructor; lia|].
  destruct (le_lt_dec 47 (length s)) as [L|L]; [|exists [], s; constructor; exact L].
  set (w := firstn 47 s). set (t := skipn 47 s).
  assert (Hw : length w = 47) by (unfold w; rewrite firstn_length; lia).
  assert (E : s = w ++ t) by (symmetry; apply firstn_skipn).
  assert (Lt : length t = length s - 47) by (unfold t; apply skipn_length).
  rewrite E. destruct (find_sync_spec w) as [F1 [F2 F3]]. destruct (find_sync w) as [|d] eqn:Fd.
  - destruct F3 as [F3|F3]; [lia|]. destruct (IH t ltac:(lia)) as [fs [rest R]].
    destruct (N.eq_dec (be_value (skipn 43 w)) (crc32 (firstn 41 (skipn 2 w)))) as [Q|Q].
    + exists (frame_of w :: fs), rest. apply reads_good; auto.
    + exists fs, rest. apply reads_bad; auto.
  - destruct (IH (skipn (S d) w ++ t)) as [fs [rest R]]; [rewrite app_length, skipn_length; lia|].
    exists fs, rest. apply (reads_skip (S d)); auto; [lia|]. destruct F3; [left; lia|right; assumption].
Qed.

(** ** One parse *)
Lemma skipn_nth_hd (l : list N) n : hd 0%N (skipn n l) = nth n l 0%N.
Proof. revert l; induction n; destruct l; cbn; auto. Qed.

Lemma qix_parse_spec p : length (qp_buffer p) = 47 ->
  let w := qp_buffer p in
  exists f p', qix_parse false p = Ok (f, p') /\ length (qp_buffer p') = 47 /\ qp_buffered p' < 47 /\
  ((0 < find_sync w /\ f = None /\ firstn (qp_buffered p') (qp_buffer p') = skipn (find_sync w) w) \/
   (starts w /\ qp_buffered p' = 0 /\ ((frame_ok w /\ f = Some (frame_of w)) \/ (~ frame_ok w /\ f = None)))).
Proof.
  intros H w. unfold qix_parse. fold w in H |- *. rewrite H.
  destruct (find_sync_spec w) as [F1 [F2 F3]]. unfold q_frame_size.
  destruct (Nat.ltb_spec (47 - find_sync w) 47) as [L|L].
  - unfold copy_down. cbn [andb]. rewrite H. cbn [obind].
    do 2 eexists. split; [reflexivity|]. cbn [qp_buffer qp_buffered].
    refine (conj _ (conj _ (or_introl (conj _ (conj eq_refl _))))); [|lia|lia|].
    + rewrite app_length, !skipn_length. lia.
    + apply firstn_app_len. rewrite skipn_length. lia.
  - assert (find_sync w = 0) as Z by lia. rewrite Z in *. destruct F3 as [F3|F3]; [lia|].
    change (2 + q_crc_size) with 43. change q_crc_size with 41.
    assert (firstn 4 (skipn 43 w) = skipn 43 w) as ->. { apply firstn_all2. rewrite skipn_length. lia. }
    destruct (N.eqb_spec (crc32 (firstn 41 (skipn 2 w))) (be_value (skipn 43 w))) as [Q|Q].
    + do 2 eexists. split; [reflexivity|]. cbn. split; [exact H|]. split; [lia|]. right.
      split; [exact F3|]. split; [reflexivity|]. left. split; [unfold frame_ok; congruence|].
      unfold read_fields, frame_of. f_equal. f_equal; [f_equal|].
      * rewrite skipn_skipn. reflexivity.
      * f_equal. rewrite !skipn_skipn. symmetry. rewrite <- skipn_nth_hd. reflexivity.
    + do 2 eexists. split; [reflexivity|]. cbn. split; [exact H|]. split; [lia|]. right.
      split; [exact F3|]. split; [reflexivity|]. right. split; [|reflexivity]. unfold frame_ok. congruence.
Qed.

(** ** The reader runs the stream algorithm *)
Definition pending (r : qreader) : list N := firstn (qr_dest r) (qp_buffer (qr_parser r)).
Definition rinv (r : qreader) : Prop := length (qp_buffer (qr_parser r)) = 47 /\ qr_dest r < 47.

Definition deliver (f : option qframe) : list qframe := match f with Some x => [x] | None => [] end.

Lemma read_some_spec r e f r1 : rinv r -> qr_running r = true -> read_some false r e = Ok (f, r1) ->
  rinv r1 /\
  match e with
  | Failed => f = None /\ pending r1 = pending r /\ qr_running r1 = false
  | Data b => qr_running r1 = true /\
      ((f = None /\ pending r1 = pending r ++ b /\ length (pending r ++ b) < 47) \/
       (exists w, w = pending r ++ b /\ length w = 47 /\
        ((0 < find_sync w /\ f = None /\ pending r1 = skipn (find_sync w) w) \/
         (starts w /\ pending r1 = [] /\
            ((frame_ok w /\ f = if usable (frame_of w) then Some (frame_of w) else None) \/ (~ frame_ok w /\ f = None))))))
  end.
Proof.
  intros [H1 H2] Hr E. unfold read_some in E. rewrite Hr in E. cbn [negb] in E. destruct e as [b|].
  2:{ inversion E; subst. unfold rinv, pending. cbn. auto. }
  unfold buf_write in E. destruct (Nat.leb_spec (qr_dest r + length b) (length (qp_buffer (qr_parser r)))) as [L|L]; [|discriminate].
  rewrite H1 in L.
  set (buf := firstn (qr_dest r) (qp_buffer (qr_parser r)) ++ b ++ skipn (qr_dest r + length b) (qp_buffer (qr_parser r))) in *.
  assert (Lp : length (pending r) = qr_dest r) by (unfold pending; rewrite firstn_length; lia).
  assert (Lb : length buf = 47). { unfold buf. rewrite !app_length, firstn_length, skipn_length. lia. }
  rewrite Lb in E. destruct (Nat.ltb_spec (qr_dest r + length b) 47) as [L2|L2].
  - inversion E; subst; clear E. split; [split; [exact Lb|cbn; lia]|]. split; [reflexivity|]. left.
    split; [reflexivity|]. split; [|rewrite app_length; lia]. unfold pending at 1. cbn [qr_parser qr_dest qp_buffer]. unfold buf.
    fold (pending r). rewrite app_assoc. apply firstn_app_len. rewrite app_length. lia.
  - assert (buf = pending r ++ b) as Eb. { unfold buf. rewrite (skipn_all2 (n := qr_dest r + length b)) by lia. now rewrite app_nil_r. }
    destruct (qix_parse_spec {| qp_buffered := qp_buffered (qr_parser r); qp_buffer := buf |} Lb) as [f0 [p' [P1 [P2 [P3 P4]]]]].
    rewrite P1 in E. cbn [obind] in E. inversion E; subst; clear E. cbn [qp_buffer] in *.
    split; [split; assumption|]. split; [reflexivity|]. right. exists buf. split; [exact Eb|]. split; [exact Lb|].
    unfold pending. cbn [qr_parser qr_dest]. destruct P4 as [[A [-> B]]|[A [B C]]].
    + left. auto.
    + right. split; [exact A|]. split; [now rewrite B|]. destruct C as [[C ->]|[C ->]]; [left|right; auto].
      split; [exact C|]. unfold usable. destruct (q_status (frame_of buf)); reflexivity.
Qed.

Lemma read_all_stopped strict es : forall r, qr_running r = false -> read_all strict r es = Ok ([], r).
Proof.
  induction es as [|e es IH]; intros r H; cbn [read_all]; [reflexivity|].
  unfold read_some. rewrite H. cbn [negb obind]. rewrite IH by exact H. reflexivity.
Qed.

Lemma read_all_reads es : forall r fs r', rinv r -> qr_running r = true -> read_all false r es = Ok (fs, r') ->
  exists all, reads (pending r ++ stream es) all (pending r') /\ fs = filter usable all.
Proof.
  induction es as [|e es IH]; intros r fs r' Hi Hr E; cbn [read_all] in E.
  - inversion E; subst. exists []. cbn [stream]. rewrite app_nil_r. split; [|reflexivity].
    constructor. destruct Hi. unfold pending. rewrite firstn_length. lia.
  - destruct (read_some false r e) as [[f r1]| |] eqn:E1; try discriminate. cbn [obind] in E.
    destruct (read_all false r1 es) as [[fs2 r2]| |] eqn:E2; try discriminate. cbn [obind] in E. inversion E; subst; clear E.
    destruct (read_some_spec _ _ _ _ Hi Hr E1) as [Hi1 S]. destruct e as [b|].
    + destruct S as [Hr1 [[-> [P L]]|[w [Ew [Lw S]]]]].
      * destruct (IH _ _ _ Hi1 Hr1 E2) as [all [R F]]. exists all. cbn [stream]. rewrite app_assoc, <- P. auto.
      * cbn [stream]. rewrite app_assoc, <- Ew. destruct (IH _ _ _ Hi1 Hr1 E2) as [all [R F]].
        destruct S as [[Hd [-> P]]|[Hs [P [[Hf ->]|[Hf ->]]]]]; rewrite P in R; cbn [app] in R.
        -- exists all. split; [|exact F]. destruct (find_sync_spec w) as [F1 [F2 F3]]. rewrite Lw in *.
           apply (reads_skip (find_sync w)); auto; lia.
        -- exists (frame_of w :: all). split; [apply reads_good; auto|]. cbn [filter]. rewrite F. destruct (usable (frame_of w)); reflexivity.
        -- exists all. split; [apply reads_bad; auto|exact F].
    + destruct S as [-> [P Hr1]]. rewrite read_all_stopped in E2 by exact Hr1. inversion E2; subst.
      exists []. cbn [stream]. rewrite app_nil_r, P. split; [|reflexivity]. constructor. destruct Hi. unfold pending. rewrite firstn_length. lia.
Qed.

Lemma rinv_new buf : length buf = 47 -> rinv (new_reader buf).
Proof. intros H. split; cbn; [exact H|lia]. Qed.

Lemma reader_reads buf es fs r : length buf = 47 -> read_all false (new_reader buf) es = Ok (fs, r) ->
  exists all rest, reads (stream es) all rest /\ fs = filter usable all.
Proof.
  intros H E. destruct (read_all_reads _ _ _ _ (rinv_new _ H) eq_refl E) as [all [R F]]. exists all, (pending r). auto.
Qed.

Lemma read_some_defined r e : rinv r -> match e with Data b => length b <= length (qp_buffer (qr_parser r)) - qr_dest r | Failed => True end ->
  exists x, read_some false r e = Ok x.
Proof.
  intros [H1 H2] L. unfold read_some. destruct (qr_running r); cbn [negb]; [|eauto]. destruct e as [b|]; [|eauto].
  unfold buf_write. destruct (Nat.leb_spec (qr_dest r + length b) (length (qp_buffer (qr_parser r)))) as [L1|L1]; [|lia].
  match goal with |- context [?a <? length ?buf] => set (bb := buf); destruct (a <? length bb); [eauto|] end.
  assert (Lb : length bb = 47). { unfold bb. rewrite !app_length, firstn_length, skipn_length. lia. }
  destruct (qix_parse_spec {| qp_buffered := qp_buffered (qr_parser r); qp_buffer := bb |} Lb) as [f0 [p' [P1 _]]].
  rewrite P1. cbn [obind]. eauto.
Qed.

Lemma read_all_defined es : forall r, rinv r -> within r es -> exists x, read_all false r es = Ok x.
Proof.
  induction es as [|e es IH]; intros r Hi Hw; cbn [read_all]; [eauto|]. destruct Hw as [W1 W2].
  destruct (qr_running r) eqn:Hr.
  - destruct (read_some_defined r e Hi W1) as [[f r1] E]. rewrite E. cbn [obind].
    destruct (read_some_spec _ _ _ _ Hi Hr E) as [Hi1 _].
    destruct (IH r1 Hi1 (W2 _ _ E)) as [[fs r2] E2]. rewrite E2. cbn [obind]. eauto.
  - unfold read_some. rewrite Hr. cbn [negb obind]. rewrite read_all_stopped by exact Hr. cbn [obind]. eauto.
Qed.

(** A run that makes no overlapping copy is the run that moves *)
Lemma read_some_strict r e x : read_some true r e = Ok x -> read_some false r e = Ok x.
Proof.
  unfold read_some. destruct (negb (qr_running r)); [auto|]. destruct e as [b|]; [|auto].
  destruct (buf_write _ _ _) as [buf|]; [|auto]. destruct (_ <? _); [auto|].
  unfold qix_parse. cbn [qp_buffer qp_buffered]. destruct (_ <? _); [|auto].
  unfold copy_down. cbn [andb]. destruct ((0 <? _) && _); [cbn; discriminate|auto].
Qed.
Lemma read_all_strict es : forall r x, read_all true r es = Ok x -> read_all false r es = Ok x.
Proof.
  induction es as [|e es IH]; intros r x E; cbn [read_all] in *; [exact E|].
  destruct (read_some true r e) as [[f r1]| |] eqn:E1; try discriminate. rewrite (read_some_strict _ _ _ E1). cbn [obind] in *.
  destruct (read_all true r1 es) as [y| |] eqn:E2; try discriminate. rewrite (IH _ _ E2). exact E.
Qed.

(** ** Frames *)
Lemma wire_length id key st : length key = 32 -> length (wire id key st) = 47.
Proof. intros H. unfold wire. rewrite !app_length, !be_bytes_length, H. reflexivity. Qed.
Lemma wire_of_length f : well_formed f -> length (wire_of f) = 47.
Proof. intros [_ [H _]]. apply wire_length, H. Qed.

Lemma wire_parts id key st : length key = 32 -> let w := wire id key st in
  starts w /\ firstn 8 (skipn 2 w) = be_bytes 8 id /\ firstn 32 (skipn 10 w) = key /\ nth 42 w 0%N = st /\
  firstn 41 (skipn 2 w) = be_bytes 8 id ++ key ++ [st] /\ skipn 43 w = be_bytes 4 (crc32 (be_bytes 8 id ++ key ++ [st])).
Proof.
  intros H w. unfold w, wire. generalize (crc32 (be_bytes 8 id ++ key ++ [st])) as c. intros c.
  pose proof (be_bytes_length 8 id) as Hi. generalize dependent (be_bytes 8 id). intros bi Hi.
  pose proof (be_bytes_length 4 c) as Hc. generalize dependent (be_bytes 4 c). intros bc Hc.
  split; [cbn; auto|]. change (skipn 2 ([0x5A%N; 0xA5%N] ++ bi ++ key ++ [st] ++ bc)) with (bi ++ key ++ [st] ++ bc).
  assert (skipn 10 ([0x5A%N; 0xA5%N] ++ bi ++ key ++ [st] ++ bc) = key ++ [st] ++ bc) as E10.
  { change 10 with (2 + 8). rewrite <- skipn_skipn. change (skipn 2 ([0x5A%N; 0xA5%N] ++ bi ++ key ++ [st] ++ bc)) with (bi ++ key ++ [st] ++ bc). now apply skipn_app_len. }
  assert (skipn 42 ([0x5A%N; 0xA5%N] ++ bi ++ key ++ [st] ++ bc) = [st] ++ bc) as E42.
  { change 42 with (10 + 32). rewrite <- skipn_skipn, E10. now apply skipn_app_len. }
  refine (conj _ (conj _ (conj _ (conj _ _)))).
  - now apply firstn_app_len.
  - rewrite E10. now apply firstn_app_len.
  - rewrite <- skipn_nth_hd, E42. reflexivity.
  - replace (bi ++ key ++ [st] ++ bc) with ((bi ++ key ++ [st]) ++ bc) by (now rewrite <- !app_assoc).
    apply firstn_app_len. rewrite !app_length. cbn. lia.
  - change 43 with (42 + 1). rewrite <- skipn_skipn, E42. reflexivity.
Qed.

Lemma wire_bytes id key st : bytes_ok key -> (st < 256)%N -> bytes_ok (wire id key st).
Proof.
  intros H Hs. unfold wire. repeat (apply bytes_ok_app; split); auto using be_bytes_ok.
  - repeat constructor.
  - repeat constructor. exact Hs.
Qed.

Lemma wire_of_good f : well_formed f -> let w := wire_of f in length w = 47 /\ starts w /\ frame_ok w /\ frame_of w = f.
Proof.
  intros [H1 [H2 [H3 H4]]] w. destruct (wire_parts (q_id f) (q_key f) 1 H2) as [A [B [C [D [E F]]]]].
  unfold w, wire_of. split; [apply wire_length, H2|]. split; [exact A|]. split.
  - unfold frame_ok. rewrite E, F. apply be_value_be_bytes_small.
    change (256 ^ N.of_nat 4)%N with (2 ^ 32)%N. apply crc32_bound. repeat (apply bytes_ok_app; split); auto using be_bytes_ok. repeat constructor.
  - unfold frame_of. rewrite B, C, D. rewrite be_value_be_bytes_small by (change (256 ^ N.of_nat 8)%N with (2 ^ 64)%N; exact H1).
    destruct f; cbn in *. subst. reflexivity.
Qed.

Lemma good_wire w : length w = 47 -> bytes_ok w -> starts w -> frame_ok w -> usable (frame_of w) = true ->
  well_formed (frame_of w) /\ wire_of (frame_of w) = w.
Proof.
  intros L B S F U. 
  assert (nth 42 w 0%N = 1%N) as St.
  { unfold usable, frame_of, get_status in U. cbn [q_status] in U. destruct (N.eqb_spec (nth 42 w 0%N) 1); [assumption|].
    destruct (nth 42 w 0 =? 0xFF)%N; discriminate. }
  split.
  - unfold well_formed, frame_of; cbn [q_id q_key q_status]. rewrite St.
    refine (conj _ (conj _ (conj _ eq_refl))).
    + pose proof (be_value_bound (firstn 8 (skipn 2 w)) (bytes_ok_firstn _ _ (bytes_ok_skipn _ _ B))) as Q.
      rewrite firstn_length, skipn_length, L in Q. exact Q.
    + rewrite firstn_length, skipn_length. lia.
    + auto using bytes_ok_firstn, bytes_ok_skipn.
  - unfold wire_of, wire. cbn [frame_of q_id q_key].
    assert (be_bytes 8 (be_value (firstn 8 (skipn 2 w))) = firstn 8 (skipn 2 w)) as E8.
    { replace 8 with (length (firstn 8 (skipn 2 w))) at 1 by (rewrite firstn_length, skipn_length; lia).
      apply be_bytes_be_value. auto using bytes_ok_firstn, bytes_ok_skipn. }
    assert (firstn 8 (skipn 2 w) ++ firstn 32 (skipn 10 w) ++ [1%N] = firstn 41 (skipn 2 w)) as E41.
    { assert (skipn 2 w = (firstn 8 (skipn 2 w) ++ firstn 32 (skipn 10 w) ++ [1%N]) ++ skipn 43 w) as Q2; [rewrite <- !app_assoc|].
      2:{ rewrite Q2 at 2. symmetry. apply firstn_app_len. rewrite !app_length, !firstn_length, !skipn_length, L. reflexivity. }
      - rewrite <- (firstn_skipn 8 (skipn 2 w)) at 1. f_equal. rewrite skipn_skipn. cbn [Nat.add].
        rewrite <- (firstn_skipn 32 (skipn 10 w)) at 1. f_equal. rewrite skipn_skipn. cbn [Nat.add].
        rewrite <- St, <- skipn_nth_hd. change 43 with (42 + 1). rewrite <- skipn_skipn.
        destruct (skipn 42 w) as [|y t] eqn:Q; [|reflexivity]. apply (f_equal (@length N)) in Q. rewrite skipn_length in Q. cbn in Q. lia. }
    rewrite E8, E41. unfold frame_ok in F. rewrite <- F.
    assert (be_bytes 4 (be_value (skipn 43 w)) = skipn 43 w) as ->.
    { replace 4 with (length (skipn 43 w)) at 1 by (rewrite skipn_length; lia). apply be_bytes_be_value. auto using bytes_ok_skipn. }
    rewrite (app_assoc [1%N]) || idtac.
    transitivity ([0x5A%N; 0xA5%N] ++ firstn 41 (skipn 2 w) ++ skipn 43 w).
    { f_equal. rewrite <- E41, <- !app_assoc. reflexivity. }
    change 43 with (2 + 41). rewrite <- skipn_skipn, firstn_skipn.
    destruct w as [|a [|b w]]; try (cbn in S; contradiction || (cbn in L; lia)). destruct S as [-> ->]. reflexivity.
Qed.

Lemma contains_pre a s fs : contains s fs -> contains (a ++ s) fs.
Proof. destruct 1 as [s|g f s fs Hf H]; [constructor|]. rewrite app_assoc. constructor; auto. Qed.

Lemma reads_contains s all rest : reads s all rest -> bytes_ok s -> contains s (filter usable all).
Proof.
  induction 1 as [s Hs|d w s fs rest Hw Hd Hn Ho R IH|w s fs rest Hw Hst Hf R IH|w s fs rest Hw Hst Hf R IH]; intros B.
  - constructor.
  - rewrite <- (firstn_skipn d w), <- app_assoc. apply contains_pre, IH.
    apply bytes_ok_app in B. apply bytes_ok_app. split; [apply bytes_ok_skipn|]; tauto.
  - apply contains_pre, IH. apply bytes_ok_app in B. tauto.
  - apply bytes_ok_app in B. destruct B as [B1 B2]. cbn [filter]. destruct (usable (frame_of w)) eqn:U.
    + destruct (good_wire w Hw B1 Hst Hf U) as [G1 G2]. rewrite <- G2 at 1. apply (contains_cons []); auto.
    + apply contains_pre, IH, B2.
Qed.

(** ** Completeness *)
Lemma no_start_in g s i : ~ In 0x5A%N g -> i < length g -> ~ starts (skipn i (g ++ s)).
Proof.
  intros Hg Hi S. rewrite skipn_app in S. destruct (skipn i g) as [|a t] eqn:E.
  - apply (f_equal (@length N)) in E. rewrite skipn_length in E. cbn in E. lia.
  - assert (a = 0x5A%N) as ->. { destruct ((a :: t) ++ skipn (i - length g) s) as [|x [|y l]] eqn:Q; cbn in Q, S; inversion Q; subst; tauto. }
    apply Hg. rewrite <- (firstn_skipn i g), E. apply in_or_app. right. left. reflexivity.
Qed.

Lemma not_in_skipn (x : N) n g : ~ In x g -> ~ In x (skipn n g).
Proof. intros H I. apply H. rewrite <- (firstn_skipn n g). apply in_or_app. auto. Qed.
Lemma not_in_firstn (x : N) n g : ~ In x g -> ~ In x (firstn n g).
Proof. intros H I. apply H. rewrite <- (firstn_skipn n g). apply in_or_app. auto. Qed.

(** A step of the stream algorithm over a gap *)
Lemma gap_reads n : forall g t fs rest, length g <= n -> ~ In 0x5A%N g ->
  (forall k, 0 < k -> starts (firstn k t)) -> 47 <= length t -> reads t fs rest -> reads (g ++ t) fs rest.
Proof.
  induction n as [|n IH]; intros g t fs rest Hn Hg Ht Lt R.
  - destruct g; [exact R|cbn in Hn; lia].
  - destruct g as [|x g0]; [exact R|]. set (g := x :: g0) in *.
    destruct (le_lt_dec 47 (length g)) as [L|L].
    + rewrite <- (firstn_skipn 47 g), <- app_assoc.
      apply (reads_skip 47); auto; [rewrite firstn_length; lia|lia| |].
      * intros i Hi. rewrite <- (app_nil_r (firstn 47 g)). apply no_start_in; [apply not_in_firstn, Hg|rewrite firstn_length; lia].
      * rewrite skipn_all2 by (rewrite firstn_length; lia). cbn [app]. apply IH; auto; [rewrite skipn_length; lia|apply not_in_skipn, Hg].
    + set (k := 47 - length g). rewrite <- (firstn_skipn k t). rewrite app_assoc.
      assert (length g > 0) by (unfold g; cbn; lia).
      apply (reads_skip (length g)).
      * rewrite app_length, firstn_length. lia.
      * lia.
      * intros i Hi. apply no_start_in; auto.
      * right. rewrite skipn_app_exact. apply Ht. lia.
      * rewrite skipn_app_exact, firstn_skipn. exact R.
Qed.

Lemma gap_only n : forall g, length g <= n -> ~ In 0x5A%N g -> exists rest, reads g [] rest.
Proof.
  induction n as [|n IH]; intros g Hn Hg.
  - exists g. constructor. lia.
  - destruct (le_lt_dec 47 (length g)) as [L|L]; [|exists g; constructor; exact L].
    destruct (IH (skipn 47 g)) as [rest R]; [rewrite skipn_length; lia|apply not_in_skipn, Hg|]. exists rest.
    rewrite <- (firstn_skipn 47 g). apply (reads_skip 47); auto; [rewrite firstn_length; lia|lia| |].
    * intros i Hi. rewrite <- (app_nil_r (firstn 47 g)). apply no_start_in; [apply not_in_firstn, Hg|rewrite firstn_length; lia].
    * rewrite skipn_all2 by (rewrite firstn_length; lia). exact R.
Qed.

Lemma wire_starts f s k : 0 < k -> starts (firstn k (wire_of f ++ s)).
Proof. intros H. destruct k as [|[|k]]; [lia| |]; cbn; auto. Qed.

Lemma spaced_reads s fs : spaced s fs -> exists rest, reads s fs rest.
Proof.
  induction 1 as [g Hg|g f s fs Hg Hf Hs [rest IH]].
  - apply (gap_only (length g)); auto.
  - exists rest. destruct (wire_of_good f Hf) as [L [S [F O]]].
    apply (gap_reads (length g)); auto.
    + intros k Hk. now apply wire_starts.
    + rewrite app_length. lia.
    + rewrite <- O at 2. apply reads_good; auto.
Qed.

Lemma spaced_usable s fs : spaced s fs -> filter usable fs = fs.
Proof.
  induction 1 as [|g f s fs Hg Hf Hs IH]; [reflexivity|]. cbn. rewrite IH. destruct Hf as [_ [_ [_ Q]]]. unfold usable. rewrite Q. reflexivity.
Qed.

(** ** Finding the frames again after arbitrary bytes *)
Definition wires (fs : list qframe) : list N := flat_map wire_of fs.
Definition no_pair (t : list N) : Prop := forall i, nth i t 0%N = 0x5A%N -> nth (S i) t 0%N <> 0xA5%N.

Lemma no_pair_skipn n t : no_pair t -> no_pair (skipn n t).
Proof.
  intros H i. assert (forall j, nth j (skipn n t) 0%N = nth (n + j) t 0%N) as E.
  { clear. revert t; induction n as [|n IH]; intros [|x t] j; cbn; auto. now destruct j. }
  rewrite !E. replace (n + S i) with (S (n + i)) by lia. apply H.
Qed.

Lemma start_window g t : (forall k, 0 < k -> starts (firstn k t)) -> length g < 47 -> starts (skipn (length g) (firstn 47 (g ++ t))).
Proof.
  intros Ht L. rewrite firstn_app, (firstn_all2 (n := 47)) by lia. rewrite skipn_app_exact. apply Ht. lia.
Qed.

Lemma find_sync_gap g t : (forall k, 0 < k -> starts (firstn k t)) -> 47 <= length (g ++ t) ->
  find_sync (firstn 47 (g ++ t)) <= Nat.min 47 (length g).
Proof.
  intros Ht L. destruct (find_sync_spec (firstn 47 (g ++ t))) as [F1 [F2 F3]].
  assert (length (firstn 47 (g ++ t)) = 47) as Lw by (rewrite firstn_length; lia).
  destruct (le_lt_dec 47 (length g)); [lia|].
  destruct (le_lt_dec (find_sync (firstn 47 (g ++ t))) (length g)) as [Q|Q]; [lia|].
  destruct (F2 _ Q). apply start_window; auto.
Qed.

Lemma skip_step s fs rest : 47 <= length s -> 0 < find_sync (firstn 47 s) ->
  reads (skipn (find_sync (firstn 47 s)) s) fs rest -> reads s fs rest.
Proof.
  intros L D R. destruct (find_sync_spec (firstn 47 s)) as [F1 [F2 F3]].
  assert (length (firstn 47 s) = 47) as Lw by (rewrite firstn_length; lia).
  rewrite <- (firstn_skipn 47 s). apply (reads_skip (find_sync (firstn 47 s))); auto; [lia|destruct F3; [left; lia|right; assumption]|].
  set (d := find_sync (firstn 47 s)) in *.
  replace (skipn d (firstn 47 s) ++ skipn 47 s) with (skipn d s); [exact R|].
  rewrite <- (firstn_skipn 47 s) at 1. rewrite skipn_app. replace (d - length (firstn 47 s)) with 0 by lia. reflexivity.
Qed.

Lemma tail_reads n : forall t f s fs rest, length t <= n -> no_pair t -> well_formed f ->
  reads (wire_of f ++ s) fs rest -> reads (t ++ wire_of f ++ s) fs rest.
Proof.
  induction n as [|n IH]; intros t f s fs rest Hn Ht Hf R.
  - destruct t; [exact R|cbn in Hn; lia].
  - destruct t as [|x t0] eqn:Et; [exact R|]. rewrite <- Et in *. assert (0 < length t) as Lt by (rewrite Et; cbn; lia).
    pose proof (wire_of_length f Hf) as Lf.
    assert (47 <= length (t ++ wire_of f ++ s)) as L by (rewrite !app_length; lia).
    pose proof (find_sync_gap t (wire_of f ++ s) (wire_starts f s) L) as D.
    set (d := find_sync (firstn 47 (t ++ wire_of f ++ s))) in *.
    assert (0 < d) as Dp.
    { destruct (find_sync_spec (firstn 47 (t ++ wire_of f ++ s))) as [_ [_ F3]]. fold d in F3.
      destruct d; [|lia]. exfalso. destruct F3 as [F3|F3]; [rewrite firstn_length in F3; lia|].
      subst t. destruct t0 as [|y t0].
      - cbn in F3. destruct F3 as [_ F3]. discriminate.
      - cbn in F3. destruct F3 as [-> ->]. exact (Ht 0 eq_refl eq_refl). }
    apply skip_step; [exact L|exact Dp|]. fold d. rewrite skipn_app. replace (d - length t) with 0 by lia. cbn [skipn].
    apply IH; auto; [rewrite skipn_length; lia|apply no_pair_skipn, Ht].
Qed.

Lemma wires_reads fs : Forall well_formed fs -> forall e all rest, reads e all rest -> reads (wires fs ++ e) (fs ++ all) rest.
Proof.
  induction 1 as [|f fs Hf Hfs IH]; intros e all rest R; [exact R|].
  cbn [wires flat_map app]. rewrite <- app_assoc. destruct (wire_of_good f Hf) as [L [S [F O]]].
  rewrite <- O at 2. apply reads_good; auto.
Qed.

Lemma quiet_tail f n : quiet f -> 0 < n -> no_pair (skipn n (wire_of f)).
Proof.
  intros Q Hn i. assert (forall (t : list N) j, nth j (skipn n t) 0%N = nth (n + j) t 0%N) as E.
  { clear. induction n as [|n IH]; intros [|x t] j; cbn; auto. now destruct j. }
  rewrite !E. replace (n + S i) with (S (n + i)) by lia. apply Q. lia.
Qed.

Lemma resync_reads n : forall g fs e, length g <= n -> Forall well_formed fs -> Forall quiet fs ->
  exists pre post rest, reads (g ++ wires fs ++ e) (pre ++ tl fs ++ post) rest.
Proof.
  induction n as [n IH] using lt_wf_ind; intros g fs e Hn Hf Hq.
  destruct fs as [|f fs].
  { destruct (reads_total _ (g ++ wires [] ++ e) (le_n _)) as [all [rest R]]. exists all, [], rest. cbn [tl app]. rewrite app_nil_r. exact R. }
  inversion Hf as [|? ? Wf Wfs]; subst. inversion Hq as [|? ? Qf Qfs]; subst. cbn [tl].
  destruct (reads_total _ e (le_n _)) as [alle [reste Re]].
  pose proof (wires_reads fs Wfs _ _ _ Re) as Rfs.
  assert (reads (wire_of f ++ wires fs ++ e) (f :: fs ++ alle) reste) as Rf.
  { destruct (wire_of_good f Wf) as [L [S [F O]]]. rewrite <- O at 2. apply reads_good; auto. }
  cbn [wires flat_map]. fold (wires fs). rewrite <- app_assoc.
  pose proof (wire_of_length f Wf) as Lf.
  destruct g as [|x g0] eqn:Eg.
  { exists [f], alle, reste. exact Rf. }
  rewrite <- Eg in *. assert (0 < length g) as Lg by (rewrite Eg; cbn; lia). clear Eg x g0.
  set (t := wire_of f ++ wires fs ++ e) in *.
  assert (47 <= length (g ++ t)) as L by (unfold t; rewrite !app_length; lia).
  pose proof (find_sync_gap g t (wire_starts f _) L) as D.
  destruct (find_sync (firstn 47 (g ++ t))) as [|d] eqn:Ed.
  - (* 47 bytes are consumed *)
    assert (exists pre post rest, reads (skipn 47 (g ++ t)) (pre ++ fs ++ post) rest) as [pre [post [rest R]]].
    { rewrite skipn_app. destruct (le_lt_dec 47 (length g)) as [L1|L1].
      - replace (47 - length g) with 0 by lia. cbn [skipn].
        destruct (IH (n - 47) ltac:(lia) (skipn 47 g) (f :: fs) e) as [pre [post [rest R]]]; auto; [rewrite skipn_length; lia|].
        cbn [tl wires flat_map] in R. rewrite <- app_assoc in R. exists pre, post, rest. exact R.
      - rewrite (skipn_all2 g (n := 47)) by lia. cbn [app]. unfold t. rewrite skipn_app.
        replace (47 - length g - length (wire_of f)) with 0 by lia. cbn [skipn].
        assert (no_pair (skipn (47 - length g) (wire_of f))) as NP by (apply quiet_tail; auto; lia).
        destruct fs as [|f2 fs2].
        + destruct (reads_total _ (skipn (47 - length g) (wire_of f) ++ wires [] ++ e) (le_n _)) as [all [rest R]].
          exists all, [], rest. cbn [app]. rewrite app_nil_r. exact R.
        + inversion Wfs as [|? ? Wf2 Wfs2]; subst. exists [], alle, reste. cbn [app wires flat_map]. rewrite <- app_assoc.
          cbn [app wires flat_map] in Rfs. rewrite <- app_assoc in Rfs.
          apply (tail_reads _ _ _ _ _ _ (le_n _)); auto. }
    destruct (find_sync_spec (firstn 47 (g ++ t))) as [_ [_ F3]]. rewrite Ed in F3.
    assert (length (firstn 47 (g ++ t)) = 47) as Lw by (rewrite firstn_length; lia).
    destruct F3 as [F3|F3]; [lia|]. cbn [skipn] in F3.
    rewrite <- (firstn_skipn 47 (g ++ t)). set (w := firstn 47 (g ++ t)) in *.
    destruct (N.eq_dec (be_value (skipn 43 w)) (crc32 (firstn 41 (skipn 2 w)))) as [Q|Q].
    + exists (frame_of w :: pre), post, rest. apply reads_good; auto.
    + exists pre, post, rest. apply reads_bad; auto.
  - destruct (IH (n - 1) ltac:(lia) (skipn (S d) g) (f :: fs) e) as [pre [post [rest R]]]; auto; [rewrite skipn_length; lia|].
    exists pre, post, rest. apply skip_step; [exact L|rewrite Ed; lia|]. rewrite Ed, skipn_app.
    replace (S d - length g) with 0 by lia. cbn [skipn]. cbn [tl wires flat_map] in R. rewrite <- app_assoc in R. exact R.
Qed.

(** ** No overlapping copy on a clean stream *)
Lemma read_some_start r b : rinv r -> qr_running r = true -> (length (pending r ++ b) < 47 \/ starts (pending r ++ b)) ->
  read_some true r (Data b) = read_some false r (Data b).
Proof.
  intros [H1 H2] Hr Hs. unfold read_some. rewrite Hr. cbn [negb]. unfold buf_write.
  assert (Lp : length (pending r) = qr_dest r) by (unfold pending; rewrite firstn_length; lia). rewrite app_length in Hs.
  destruct (Nat.leb_spec (qr_dest r + length b) (length (qp_buffer (qr_parser r)))) as [L|L]; [|reflexivity].
  match goal with |- context [?a <? length ?buf] => set (bb := buf); assert (Lb : length bb = 47) by (unfold bb; rewrite !app_length, firstn_length, skipn_length; lia) end.
  rewrite Lb. destruct (Nat.ltb_spec (qr_dest r + length b) 47) as [L2|L2]; [reflexivity|].
  destruct Hs as [Hs|Hs]; [lia|].
  assert (bb = pending r ++ b) as Eb. { unfold bb. rewrite (skipn_all2 (n := qr_dest r + length b)) by lia. now rewrite app_nil_r. }
  unfold qix_parse. cbn [qp_buffer qp_buffered]. rewrite Eb.
  rewrite (find_sync_unique (pending r ++ b) 0); [|lia|intros; lia|right; exact Hs].
  rewrite <- Eb, Lb. reflexivity.
Qed.

Lemma strict_clean es : forall r fs n, rinv r -> qr_running r = true -> Forall well_formed fs ->
  pending r ++ stream es = firstn n (wires fs) -> read_all true r es = read_all false r es.
Proof.
  induction es as [|e es IH]; intros r fs n Hi Hr Hf E; [reflexivity|]. cbn [read_all].
  assert (read_some true r e = read_some false r e) as E1.
  { destruct e as [b|]; [|unfold read_some; now rewrite Hr]. apply read_some_start; auto.
    destruct (le_lt_dec 47 (length (pending r ++ b))) as [L|L]; [right|left; exact L].
    cbn [stream] in E. rewrite app_assoc in E. destruct fs as [|f fs].
    - apply (f_equal (@length N)) in E. cbn [wires flat_map] in E. rewrite firstn_nil, (app_length _ (stream es)) in E. cbn in E. lia.
    - assert (n > 1). { apply (f_equal (@length N)) in E. rewrite firstn_length, (app_length _ (stream es)) in E. lia. }
      cbn [wires flat_map] in E. destruct n as [|[|n]]; [lia|lia|]. cbn in E.
      destruct (pending r ++ b) as [|x [|y u]]; try (cbn in L; lia). cbn in E. inversion E; subst. cbn. auto. }
  rewrite E1. destruct (read_some false r e) as [[f r1]| |] eqn:E2; try reflexivity. cbn [obind].
  destruct (read_some_spec _ _ _ _ Hi Hr E2) as [Hi1 S]. destruct e as [b|].
  - destruct S as [Hr1 [[-> [P _]]|[w [Ew [Lw S]]]]].
    + rewrite (IH r1 fs n); auto. cbn [stream] in E. rewrite P, <- app_assoc. exact E.
    + cbn [stream] in E. rewrite app_assoc, <- Ew in E.
      destruct fs as [|f1 fs].
      { apply (f_equal (@length N)) in E. cbn [wires flat_map] in E. rewrite firstn_nil, app_length in E. cbn in E. lia. }
      inversion Hf as [|? ? Wf Wfs]; subst. pose proof (wire_of_length _ Wf) as L1. set (w := pending r ++ b) in *.
      cbn [wires flat_map] in E. fold (wires fs) in E. rewrite firstn_app in E.
      assert (47 <= n). { apply (f_equal (@length N)) in E. rewrite app_length, Lw in E. rewrite <- firstn_app, firstn_length in E. lia. }
      rewrite (firstn_all2 (wire_of f1) (n := n)) in E by lia.
      apply app_inv_len in E; [|lia]. destruct E as [E3 E4].
      rewrite (IH r1 fs (n - 47)); auto.
      destruct S as [[Hd _]|[Hs [P _]]].
      * rewrite (find_sync_unique w 0) in Hd; [lia|lia|intros; lia|]. right. rewrite E3. cbn. auto.
      * rewrite P. cbn [app]. rewrite E4, L1. reflexivity.
  - destruct S as [_ [_ Hr1]]. rewrite !read_all_stopped by exact Hr1. reflexivity.
Qed.
