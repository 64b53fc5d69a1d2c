(** * DeployFacts: proofs for C56 *)
From Coq Require String Ascii.
From Verif Require Import Base BaseFacts Codec CodecSpec CodecFacts Link LinkSpec LinkLayer Primitives Session SessionSpec SessionFacts SessionMain
  Handshake HandshakeSpec HandshakeFacts HandshakeMain HandshakePair PropHandshake Endpoint EndpointSpec PairSpec Stack StackSpec Icf IcfSpec IcfFacts
  Config ConfigSpec ConfigFacts ConfigUse PropConfig Line LineSpec DeploySpec.

Lemma runs_plan P S L M f root p C : runs P S L M f root p C -> library_ok L /\ files_ok f /\ (exists r ps, read L M f root = ret (r, ps) /\ In p ps) /\ create_stack P S (pl_factory p) = ret C.
Proof.
  intros (OL & F & r & st & c & H & I & K). split; [exact OL|]. split; [exact F|]. apply C47_launch in H as (R & _ & A). split.
  - exists r, (map fst st). split; [exact R|]. apply in_map_iff. exists (p, c). auto.
  - rewrite Forall_forall in A. specialize (A _ I). cbn [fst snd] in A. destruct c as [C'|]; [|exact K]. subst C'. unfold starts in A. destruct (pl_transport p); [destruct A|tauto].
Qed.

Lemma deployed_compatible P S N : works_everywhere P S -> deployed P S N -> exists c h, compatible N c h.
Proof.
  intros (HP & HS & HD) (L1 & M1 & f1 & root1 & p1 & g & suite & ci & L2 & M2 & f2 & root2 & p2 & g2 & cr & R1 & Q1 & R2 & Q2 & _ & _ & [HSu [Sh1 Sh2] [B1 B2] [Hia Hans] D E Li]).
  apply runs_plan in R1 as (OL1 & F1 & (r1 & ps1 & R1 & I1) & K1). apply runs_plan in R2 as (OL2 & F2 & (r2 & ps2 & R2 & I2) & K2).
  destruct (read_session _ _ _ _ _ _ _ OL1 F1 R1 I1) as (n1 & S1). destruct (read_session _ _ _ _ _ _ _ OL2 F2 R2 I2) as (n2 & S2). clear R1 R2 I1 I2.
  pose proof (usable_stack _ _ _ _ _ _ _ F1 S1 K1) as (_ & _ & _ & U1 & _). pose proof (usable_stack _ _ _ _ _ _ _ F2 S2 K2) as (_ & _ & _ & U2 & _).
  assert (Cr1 : (exists h, says_credentials L1 f1 h ci) /\ (ig_max_payload g < 65536)%N).
  { destruct S1 as (_ & _ & _ & (_ & sec & _ & hh & ss & _ & _ & X) & _). rewrite Q1 in X. destruct X as (_ & (G & _) & X & _). split; [eauto|]. apply number_or_range in G; lia. }
  assert (Cr2 : (exists h, says_credentials L2 f2 h cr) /\ (rg_max_payload g2 < 65536)%N).
  { destruct S2 as (_ & _ & _ & (_ & sec & _ & hh & ss & _ & _ & X) & _). rewrite Q2 in X. destruct X as (_ & (G & _) & X). split; [eauto|]. apply number_or_range in G; lia. }
  destruct Cr1 as ((h1 & Cr1) & G1), Cr2 as ((h2 & Cr2) & G2).
  destruct (pl_factory p1) as [a1 ro1], (pl_factory p2) as [a2 ro2]. cbn [fa_role] in *. subst ro1 ro2.
  apply create_initiator in K1 as (gi & hi & H1 & H2 & HC & Q1 & E1). apply create_responder in K2 as (gr & hr & H3 & H4 & Q2 & E2).
  pose proof (suits_configured P S S (n_ia N) (n_ans N) _ _ _ _ _ _ _ HSu H1 H2 H3 H4) as CF.
  pose proof (short_data _ _ _ _ _ _ _ F1 Cr1 H1 Sh1) as D1. pose proof (short_data _ _ _ _ _ _ _ F2 Cr2 H3 Sh2) as D2.
  rewrite Q1 in U1. rewrite Q2 in U2. cbn [ic_handshake ic_limits] in U1. destruct U1 as (LO & IO & IC).
  destruct E1 as (E1 & Su1 & Ps1 & _), E2 as (E2 & Su2 & Ps2 & _).
  exists {| ic_handshake := hi; ic_limits := ig_limits g; ic_nonce_trigger := ig_nonce_trigger g |}, hr. constructor; cbn [ic_handshake ic_limits ic_nonce_trigger].
  - auto.
  - rewrite E1, E2. auto.
  - rewrite E1, E2. cbn [e_max_payload]. lia.
  - rewrite Ps1, Ps2. clear - B1 B2 G1 G2. lia.
  - auto 10.
  - rewrite E1. cbn [e_prims]. split; [exact CF|apply dh_all, HD].
  - rewrite Su1, Su2. auto.
  - split.
    + intros e d i. rewrite E1. cbn [e_prims]. intros X. destruct (initialized P hi (n_ia N) (n_ans N) hr new_ihs HP Hia CF) as (e' & d' & i' & Y & Le & Ld). rewrite Y in X. injection X as -> -> ->.
      assert (Ld' : length d <= 4039).
      { pose proof (handler_some _ _ _ _ _ H1 _ H2) as Z. destruct hi as [s k|s|s st c]; try lia. subst d. destruct ci; try discriminate; destruct Z as (gg & -> & [= -> -> ->]); exact D1. }
      unfold fits. cbn [e_max_payload]. pose proof (request_length hi (ig_limits g) e d Le ltac:(lia)). lia.
    + assert (Lr : length (rp_mode_data (the_reply (c_env (n_cb N)) hr (n_ans N))) <= 4039).
      { pose proof (handler_some_r _ _ _ _ H3 _ H4) as Y. cbn. destruct hr as [k| |st c]; cbn; try lia. destruct cr; try discriminate; destruct Y as (gg & -> & [= -> ->]); exact D2. }
      unfold fits. pose proof (reply_length (c_env (n_cb N)) hr (n_ans N)) as RL. rewrite E2 in *. specialize (RL HP (proj1 Hans) ltac:(lia)). cbn [e_max_payload]. lia.
  - rewrite E1, E2. exact D.
  - rewrite E1, E2. exact E.
  - exact Li.
Qed.
