(** * C33: the notification "ready to transmit" *)
From Verif Require Import Base BaseFacts Codec CodecSpec Link LinkLayer Primitives Session SessionSpec Handshake HandshakeSpec Endpoint EndpointSpec
  EndpointFacts EndpointMain EndpointRuns EndpointTx EndpointReady PropEndpoint PropEndpoint2.
Local Open Scope nat_scope.

(** In every environment "ready to transmit" is told at most once for each accepted buffer, and only for one that is not empty. *)
Theorem C33_ready_once : forall C ls k t, run C (new_endpoint C, []) ls = Ok (k, t) -> exists owed, play readying false t = Some owed.
Proof. intros C ls k t H. destruct (readying_run C ls k t H) as (o & P & _). eauto. Qed.
Print Assumptions C33_ready_once.

Definition accepts_some (e : event) : bool := match e with EvAccept (_ :: _) => true | _ => false end.

(** So an empty buffer is accepted, and the application that waits until it may transmit again is never told, whatever happens later
    (the proxy reads from its socket again only when told: AsioUpperLayer.h:45-49). *)
Theorem C33_empty_refuted :
  (forall C ls k t t0 t1, run C (new_endpoint C, []) ls = Ok (k, t) -> t = t0 ++ EvAccept [] :: t1 -> existsb accepts_some t1 = false -> ~ In EvUpTxReady t1) /\
  (exists C ls k t, along good C (new_endpoint C, []) ls /\ run C (new_endpoint C, []) ls = Ok (k, t) /\ In (EvAccept []) t /\
     quiescent k /\ last_is_open t = true /\ ep_busy (fst k) = false).
Proof.
  split.
  - intros C ls k t t0 t1 H -> Hn. destruct (C33_ready_once _ _ _ _ H) as (o & P). rewrite play_app in P. destruct (play readying false t0) as [o0|]; [|discriminate].
    cbn [play readying] in P. clear H. revert P Hn. induction t1 as [|e t1 IH]; cbn [play existsb]; [intros _ _ []|]. intros P Hn. apply Bool.orb_false_iff in Hn. destruct Hn as [H1 H2].
    destruct e as [| | | | | | |d| | | | | | | | | |]; cbn [readying] in P; try discriminate P; try (intros [F|F]; [discriminate F|exact (IH P H2 F)]).
    destruct d; [|discriminate H1]. intros [F|F]; [discriminate F|exact (IH P H2 F)].
  - destruct (good_check (dr_r false) [happen (Enter LowerOpen) 1; arrive (dr_request hmac_sha256_16) 2; happen (Enter LowerTxReady) 2;
      arrive (dr_message (dr_session_i hmac_sha256_16) 0 []) 4; happen (Enter LowerTxReady) 4; happen (Enter (StartTx [])) 5]
      (fun k t => existsb (accepts []) t && quiescentb k && last_is_open t && negb (ep_busy (fst k)))) as (ls & k & t & A & R & Hs); [vm_compute; reflexivity|].
    repeat match goal with H : _ && _ = true |- _ => apply Bool.andb_true_iff in H; destruct H end.
    exists (dr_r false), ls, k, t. split; [exact A|]. split; [exact R|]. split.
    + match goal with H : existsb _ _ = true |- _ => apply existsb_exists in H; destruct H as (e & I & E) end. destruct e; try discriminate E. cbn [accepts] in E. apply bytes_eqb_spec in E. now subst.
    + split; [apply quiescentb_ok; assumption|]. split; [assumption|]. apply Bool.negb_true_iff. assumption.
Qed.
Print Assumptions C33_empty_refuted.

(** The notification does come: in this run the application is told once for one buffer. *)
Example C33_instance_ready : exists C ls k t, along good C (new_endpoint C, []) ls /\ run C (new_endpoint C, []) ls = Ok (k, t) /\ In EvUpTxReady t.
Proof.
  destruct (good_check (dr_r false) [happen (Enter LowerOpen) 1; arrive (dr_request hmac_sha256_16) 2; happen (Enter LowerTxReady) 2;
      arrive (dr_message (dr_session_i hmac_sha256_16) 0 []) 4; happen (Enter LowerTxReady) 4; happen (Enter (StartTx [7]%N)) 5; happen (Enter LowerTxReady) 6]
      (fun k t => existsb is_up_ready t)) as (ls & k & t & A & R & Hs); [vm_compute; reflexivity|].
  exists (dr_r false), ls, k, t. split; [exact A|]. split; [exact R|]. apply existsb_exists in Hs. destruct Hs as (e & I & E). destruct e; try discriminate E. exact I.
Qed.
