(** * EndpointReady: when the application is told that it may transmit *)
From Verif Require Import Base BaseFacts Codec Link LinkLayer Primitives Session SessionSpec Handshake Endpoint EndpointSpec
  EndpointFacts EndpointMain EndpointTx.
Local Open Scope nat_scope.

Definition rinv (owed : bool) (k : config) : Prop :=
  (ready_shape (snd k) /\ ep_transmitting (fst k) = false /\ ep_remainder (fst k) = [] /\ owed = true) \/
  (none_of is_txready (snd k) /\ (ep_transmitting (fst k) = true \/ ep_remainder (fst k) <> [] -> owed = true)).

Lemma rinv_exec C owed s i inp rest s' pushed e : rinv owed (s, i :: rest) -> exec C s i inp = Ok (s', pushed, e) ->
  exists owed', play readying owed e = Some owed' /\ rinv owed' (s', pushed ++ rest).
Proof.
  intros HI H. destruct HI as [(S & T & R & ->)|[Nn W]].
  - cbn [fst snd] in *. destruct (shape_head _ _ S) as [[-> Nr]|[A S']].
    + cbn [exec notify] in H. destruct (ep_up s); injection H as <- <- <-.
      * exists false. split; [reflexivity|]. right. cbn [fst snd]. split; [|rewrite T, R; intros [|]; congruence]. apply none_app; split; [apply none_calls; reflexivity|exact Nr].
      * exists true. split; [reflexivity|]. right. cbn [fst snd app]. split; [exact Nr|auto].
    + destruct (above_ready_exec _ _ _ _ _ _ _ H A) as (P & _ & R'). exists true.
      assert (play readying true e = Some true /\ ep_transmitting s' = false) as [E1 E2].
      { destruct i as [[]| | | | | | | | | | | | |]; try discriminate A; exec_cases H; splits; auto. }
      split; [exact E1|]. left. cbn [fst snd]. split; [apply shape_push; assumption|]. rewrite R'. auto.
  - cbn [fst snd] in *. assert (Nr : none_of is_txready rest) by (apply (none_tl _ _ Nn)).
    assert (i <> IUpTxReady) as Ni by (intros ->; discriminate Nn).
    assert (exists owed', play readying owed e = Some owed' /\ (ep_transmitting s' = true \/ ep_remainder s' <> [] -> owed' = true) /\ (i = ICall LowerTxReady -> owed' = owed)) as (o' & P & W' & Wl).
    { destruct i as [[d| | | | |]| | | | | | | | | | | | |]; try congruence; exec_cases H; splits; cbn [play readying];
        try (exists owed; split; [reflexivity|]; split; [|reflexivity]; first [exact W | intros [X|X]; first [congruence | apply W; auto; fail | apply W; right; intros Y; rewrite Y in *; discriminate | tauto]]).
      all: try (eexists; split; [reflexivity|]; split; [|discriminate]; intros [X|X]; first [discriminate X|destruct d; congruence]). }
    destruct (txready_pushed _ _ _ _ _ _ _ H) as [Np|(-> & -> & R1 & R2 & O & ->)].
    + exists o'. split; [exact P|]. right. split; [apply none_app; split; assumption|exact W'].
    + exists o'. split; [exact P|]. left. cbn [fst snd].
      assert (ep_transmitting s = true /\ ep_transmitting s' = false) as [T1 T2].
      { cbn [exec enter] in H. eps. rewrite O in H. injection H as <- X. destruct (ep_transmitting s); [auto|discriminate X]. }
      split; [exists [IPreTxReady], ([ITryRead; ICheckTransmit] ++ rest); split; [reflexivity|]; split; [reflexivity|exact Nr]|]. split; [exact T2|]. split; [exact R1|]. rewrite (Wl eq_refl). apply W. auto.
Qed.

Lemma rinv_inject owed s x : rinv owed (s, []) -> rinv owed (inject s x).
Proof.
  intros [((a & b & E & _) & _)|[_ W]]; [destruct a; discriminate E|]. right. destruct (inject_tx s x) as (E1 & E2 & _). rewrite E1, E2. split; [|exact W].
  destruct (inject_stack s x) as [->|[->|[c ->]]]; reflexivity.
Qed.
Lemma readying_run C ls k t : run C (new_endpoint C, []) ls = Ok (k, t) -> exists owed, play readying false t = Some owed /\ rinv owed k.
Proof.
  intros H. apply (simulate readying rinv (fun _ _ => True) C) with (ls := ls) (k := (new_endpoint C, [])); [|right; split; [reflexivity|cbn; intros [|]; congruence]|apply along_true|exact H].
  intros a [s stk] l k' e HI _ Hs. destruct l as [x|inp]; destruct stk as [|i rest]; cbn in Hs.
  - injection Hs as <- <-. exists a. split; [reflexivity|]. now apply rinv_inject.
  - injection Hs as <- <-. exists a. auto.
  - injection Hs as <- <-. exists a. auto.
  - destruct (exec C s i inp) as [[[s' pushed] ev]| |] eqn:X; try discriminate. cbn in Hs. injection Hs as <- <-. eapply rinv_exec; eauto.
Qed.
