(** * LineRuns: concrete runs of two endpoints over a line, for the examples.  Frames without link layer. *)
From Verif Require Import Base Codec Link LinkLayer Primitives Session SessionSpec Handshake Endpoint EndpointSpec PairSpec Line.

(** What happens next on a side: a call of the lower layer or of the application, or the next
    instruction, with the calls of the application inside the notification *)
Inductive act := AOpen | ASent | AArrived | ACall (c : call) | ARun (calls : list call).
Definition typed_call (c : call) : bool := match c with StartTx d => forallb (fun b => b <? 256)%N d | _ => true end.
Definition idle (d : side) : bool := match snd (d_conf d) with [] => true | _ => false end.

Definition act_input (L : net) (off : Z) (out : list (Z * list N)) (now : Z) (d : side) (calls : list call) : input :=
  {| in_now := (now + off)%Z; in_now2 := (now + off)%Z; in_ready := negb (ep_busy (fst (d_conf d)));
     in_message := if ep_open (fst (d_conf d)) then match waiting out d with (_, m) :: _ => m | [] => [] end else [];
     in_started := true; in_calls := calls; in_answers := n_ans L; in_ianswers := n_ia L; in_scratch := [] |}.
Definition side_act (L : net) (C : econf) (off : Z) (out : list (Z * list N)) (now : Z) (d : side) (a : act) : option side :=
  match a with
  | AOpen => if idle d && negb (ep_open (fst (d_conf d))) then Some (call_in d LowerOpen (d_owed d)) else None
  | ASent => if idle d && ep_busy (fst (d_conf d)) then Some (call_in d LowerTxReady (d_owed d)) else None
  | AArrived => if idle d && ep_open (fst (d_conf d)) && d_owed d then Some (call_in d LowerRxReady false) else None
  | ACall c => if idle d && app_call c && typed_call c then Some (call_in d c (d_owed d)) else None
  | ARun calls =>
      match d_conf d with
      | (s, i :: rest) =>
          if forallb app_call calls && forallb typed_call calls && (now <=? n_end L)%Z &&
             match i with IProcess _ => (now <=? taken_sent out d + n_delay L)%Z | _ => true end
          then match exec C s i (act_input L off out now d calls) with
               | Ok (s', pushed, ev) =>
                   if length (d_out d) + length (frames ev) <=? n_limit L
                   then Some {| d_conf := (s', pushed ++ rest); d_trace := d_trace d ++ ev; d_out := d_out d ++ map (pair now) (frames ev); d_taken := d_taken d + takes ev; d_owed := d_owed d |}
                   else None
               | _ => None
               end
          else None
      | _ => None
      end
  end.
Lemma typed_call_ok c : typed_call c = true -> call_typed c.
Proof. destruct c; cbn; auto. intros H. apply Forall_forall. intros x Hx. rewrite forallb_forall in H. apply N.ltb_lt, H, Hx. Qed.
Lemma idle_ok d : idle d = true -> snd (d_conf d) = [].
Proof. unfold idle. destruct (snd (d_conf d)); [reflexivity|discriminate]. Qed.
Lemma side_act_ok L C off out now d a d' : e_kind (c_env C) = FRaw -> side_act L C off out now d a = Some d' -> side_step L C off out now d d' now.
Proof.
  intros K H. destruct a; cbn [side_act] in H.
  - destruct (idle d) eqn:E1; [|discriminate]. destruct (ep_open (fst (d_conf d))) eqn:E2; [discriminate|]. injection H as <-. apply ss_open; auto using idle_ok.
  - destruct (idle d) eqn:E1; [|discriminate]. destruct (ep_busy (fst (d_conf d))) eqn:E2; [|discriminate]. injection H as <-. apply ss_sent; auto using idle_ok.
  - destruct (idle d) eqn:E1; [|discriminate]. destruct (ep_open (fst (d_conf d))) eqn:E2; [|discriminate]. destruct (d_owed d) eqn:E3; [|discriminate]. injection H as <-. apply ss_arrived; auto using idle_ok.
  - destruct (idle d) eqn:E1; [|discriminate]. destruct (app_call c) eqn:E2; [|discriminate]. destruct (typed_call c) eqn:E3; [|discriminate]. injection H as <-. apply ss_call; auto using idle_ok, typed_call_ok.
  - destruct (d_conf d) as [s [|i rest]] eqn:Ed; [discriminate|].
    destruct (forallb app_call calls) eqn:E1; [|discriminate]. destruct (forallb typed_call calls) eqn:E2; [|discriminate]. destruct (now <=? n_end L)%Z eqn:E3; [|discriminate].
    cbn [andb] in H. destruct (match i with IProcess _ => _ | _ => true end) eqn:E4; [|discriminate].
    destruct (exec C s i _) as [[[s' pushed] ev]| |] eqn:Ee; try discriminate.
    destruct (_ <=? n_limit L) eqn:E5; [|discriminate]. injection H as <-.
    eapply ss_run with (t1 := now); [exact Ed|lia| | |exact Ee| |apply Nat.leb_le, E5].
    + apply Z.leb_le, E3.
    + constructor; cbn; try rewrite Ed; auto.
      * split; [exact E1|]. apply Forall_forall. intros x Hx. rewrite forallb_forall in E2. apply typed_call_ok, E2, Hx.
      * intros m ->. apply Z.leb_le, E4.
    + rewrite K. clear. induction (frames ev); constructor; auto.
Qed.

(** Steps of the initiator ([true]) and the responder ([false]) *)
Definition line_act (L : net) (x : line) (who : bool) (a : act) : option line :=
  if who then match side_act L (n_ca L) (n_oa L) (d_out (l_b x)) (l_now x) (l_a x) a with
              | Some a' => Some {| l_now := l_now x; l_a := a'; l_b := informed (d_out (l_a x)) (d_out a') (l_b x) |} | None => None end
  else match side_act L (n_cb L) (n_ob L) (d_out (l_a x)) (l_now x) (l_b x) a with
       | Some b' => Some {| l_now := l_now x; l_a := informed (d_out (l_b x)) (d_out b') (l_a x); l_b := b' |} | None => None end.
Lemma line_act_ok L x who a y : e_kind (c_env (n_ca L)) = FRaw -> e_kind (c_env (n_cb L)) = FRaw -> line_act L x who a = Some y -> line_step L x y.
Proof.
  intros Ka Kb H. unfold line_act in H. destruct who; destruct (side_act _ _ _ _ _ _ _) eqn:E; try discriminate; injection H as <-; [apply ls_a|apply ls_b]; eapply side_act_ok; eauto.
Qed.

(** Everything the two sides and their lower layers have to do, the applications reading what they are told about *)
Definition todo (d : side) : option act :=
  match snd (d_conf d) with
  | IUpRxReady :: _ => Some (ARun [StartRx])
  | _ :: _ => Some (ARun [])
  | [] => if ep_busy (fst (d_conf d)) then Some ASent else if negb (ep_open (fst (d_conf d))) then Some AOpen else if d_owed d then Some AArrived
          else match ep_payload (fst (d_conf d)) with Some _ => Some (ACall StartRx) | None => None end
  end.
Fixpoint settle (L : net) (fuel : nat) (x : line) : line :=
  match fuel with
  | 0 => x
  | S f =>
      match todo (l_a x) with
      | Some a => match line_act L x true a with Some y => settle L f y | None => x end
      | None => match todo (l_b x) with
                | Some a => match line_act L x false a with Some y => settle L f y | None => x end
                | None => x end
      end
  end.
Lemma settle_ok L x0 fuel x : e_kind (c_env (n_ca L)) = FRaw -> e_kind (c_env (n_cb L)) = FRaw -> reachable_from L x0 x -> reachable_from L x0 (settle L fuel x).
Proof.
  intros Ka Kb. revert x. induction fuel as [|f IH]; intros x Hx; cbn [settle]; [exact Hx|].
  destruct (todo (l_a x)) as [a|]; [|destruct (todo (l_b x)) as [a|]; [|exact Hx]]; (destruct (line_act L x _ a) as [y|] eqn:E; [|exact Hx]); apply IH; eapply rc_step; eauto using line_act_ok.
Qed.
Definition then_act (L : net) (x : line) (who : bool) (a : act) : line := match line_act L x who a with Some y => y | None => x end.
Lemma then_ok L x0 x who a : e_kind (c_env (n_ca L)) = FRaw -> e_kind (c_env (n_cb L)) = FRaw -> reachable_from L x0 x -> reachable_from L x0 (then_act L x who a).
Proof. intros Ka Kb H. unfold then_act. destruct (line_act L x who a) eqn:E; [eapply rc_step; eauto using line_act_ok|exact H]. Qed.
