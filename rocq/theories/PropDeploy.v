(** * C56: from the configuration files to the clients *)
From Coq Require String Ascii.
From Verif Require Import Base BaseFacts Codec CodecSpec CodecFacts Link LinkSpec LinkLayer Primitives Session SessionSpec SessionFacts SessionMain
  Handshake HandshakeSpec HandshakeFacts HandshakeMain HandshakePair PropHandshake Endpoint EndpointSpec PairSpec Stack StackSpec StackFacts Icf IcfSpec IcfFacts
  Config ConfigSpec ConfigFacts ConfigUse PropConfig PropIcf Line LineSpec PropLine Tunnel TunnelSpec PropTunnel EndpointPair EndpointRuns PropEndpoint2 StackRuns PropStack PropStack2 Shipped DeploySpec DeployFacts.
Import String.StringSyntax.
#[local] Open Scope string_scope.
#[local] Open Scope nat_scope.

(** Two proxies started with files that are meant for each other: at any time, whatever the clients
    send, what came out at one proxy is the beginning of what the client of the other one sent; when
    nothing is left to do for either proxy, all of it came out; nothing is overwritten or refused. *)
Theorem C56_pipe : forall P S N x, works_everywhere P S -> deployed P S N -> tunnel_reachable N x ->
  ((exists r, t_out (u_b x) ++ r = t_sent (u_a x)) /\ (exists r, t_out (u_a x) ++ r = t_sent (u_b x))) /\
  (proxy_at_rest (u_a x) -> proxy_at_rest (u_b x) -> all_through x /\ t_in (u_a x) = [] /\ t_in (u_b x) = []) /\
  (buffers_kept (u_a x) /\ never_refused (u_a x)) /\ (buffers_kept (u_b x) /\ never_refused (u_b x)).
Proof.
  intros P S N x W D R. destruct (deployed_compatible P S N W D) as (c & h & OK). split; [exact (C49_prefix N c h x OK R)|]. split; [intros A B; exact (C49_all_delivered N c h x OK R A B)|exact (C49_buffers N c h x OK R)].
Qed.
Print Assumptions C56_pipe.

(** ... and all of it comes out in the end, whatever the interleaving, unless it takes longer than
    the longest delay for which the files were written. *)
Theorem C56_comes_out : forall P S N x deadline, works_everywhere P S -> deployed P S N -> tunnel_reachable N x ->
  has_room N (u_a x) -> has_room N (u_b x) -> tunnel_in_time N deadline x ->
  tunnel_inevitable N (fun y => (deadline < u_now y)%Z \/ all_through y) x.
Proof. intros P S N x deadline W D. destruct (deployed_compatible P S N W D) as (c & h & OK). exact (C49_inevitable N c h x deadline OK). Qed.
Print Assumptions C56_comes_out.

(** The same for the stacks with other applications (that call and read whenever they want). *)
Theorem C56_stacks : forall P S N x, works_everywhere P S -> deployed P S N -> reachable N x ->
  ((exists r, got (l_b x) ++ r = given (l_a x)) /\ (exists r, got (l_a x) ++ r = given (l_b x))) /\
  (at_rest (l_a x) -> at_rest (l_b x) -> all_delivered x) /\
  (forall deadline, room N (l_a x) -> room N (l_b x) -> in_time N deadline x -> inevitable N (fun y => (deadline < l_now y)%Z \/ all_delivered y) x).
Proof.
  intros P S N x W D R. destruct (deployed_compatible P S N W D) as (c & h & OK). split; [exact (C48_prefix N c h x OK R)|]. split.
  - intros A B. destruct (C48_all_delivered N c h x OK R A B) as ((E1 & E2) & T1 & T2). repeat split; try exact E1; try exact E2; try apply A; try apply B; try apply T1; apply T2.
  - intros deadline Ra Rb T. exact (C48_inevitable N c h x deadline OK R Ra Rb T).
Qed.
Print Assumptions C56_stacks.

(** Over TCP, what one stack sends arrives at the other: its messages are the payloads of the frames
    of the first one, in order, however the bytes are cut into pieces... *)
Theorem C56_frames_arrive : forall P S LA MA fA rootA pA CA a lsA kA tA LB MB fB rootB pB CB b lsB kB tB future,
  runs P S LA MA fA rootA pA CA -> runs P S LB MB fB rootB pB CB ->
  fa_addresses (pl_factory pA) = Some a -> fa_addresses (pl_factory pB) = Some b -> a_destination a = a_source b ->
  stack_run CA (new_stack CA a, []) lsA = Ok (kA, tA) -> bytes_ok (wire_out tA) ->
  Forall arrival_ok lsB -> Forall (fun l => l <> SArrive []) lsB -> salong from_outside CB (new_stack CB b, []) lsB ->
  stack_run CB (new_stack CB b, []) lsB = Ok (kB, tB) -> ~ In EvClosed tB -> (wire_in lsB ++ future)%list = wire_out tA ->
  exists fs n, frames_out tA = map frame_bytes fs /\ messages tB = map f_payload (firstn n fs).
Proof.
  intros P S LA MA fA rootA pA CA a lsA kA tA LB MB fB rootB pB CB b lsB kB tB future RA RB EA EB Fa.
  apply runs_plan in RA as (OLA & FA & (rA & psA & RA & IA) & KA). pose proof (C47_stack _ _ _ _ _ _ _ _ _ _ OLA FA RA IA KA) as (_ & _ & _ & _ & X). rewrite EA in X. destruct X as (X1 & X2 & X3).
  eapply C46_in_order; eauto.
Qed.
Print Assumptions C56_frames_arrive.

(** ... but if the addresses in the two files do not face each other, nothing ever arrives. *)
Theorem C56_misaddressed : forall P S LA MA fA rootA pA CA a lsA kA tA CB b lsB kB tB future,
  runs P S LA MA fA rootA pA CA -> fa_addresses (pl_factory pA) = Some a -> a_destination a <> a_source b ->
  stack_run CA (new_stack CA a, []) lsA = Ok (kA, tA) -> bytes_ok (wire_out tA) ->
  Forall arrival_ok lsB -> Forall (fun l => l <> SArrive []) lsB -> salong from_outside CB (new_stack CB b, []) lsB ->
  stack_run CB (new_stack CB b, []) lsB = Ok (kB, tB) -> ~ In EvClosed tB -> (wire_in lsB ++ future)%list = wire_out tA ->
  messages tB = [].
Proof.
  intros P S LA MA fA rootA pA CA a lsA kA tA CB b lsB kB tB future RA EA Fa HA OB AB NB QB HB NC W.
  apply runs_plan in RA as (OLA & FA & (rA & psA & RA & IA) & KA). pose proof (C47_stack _ _ _ _ _ _ _ _ _ _ OLA FA RA IA KA) as (_ & _ & _ & _ & X). rewrite EA in X. destruct X as (SA & AS & AD).
  destruct (C46_frames CA a lsA kA tA SA HA) as (fs & F1 & F2 & F3).
  assert (FO : Forall (frame_ok 4092) fs).
  { rewrite F2 in OB. clear - F3 OB AD AS. induction fs as [|f fs IH]; constructor; inversion F3 as [|x y (X1 & X2 & X3 & X4) X5]; subst; cbn [flat_map] in OB; apply bytes_ok_app in OB; destruct OB as [O1 O2]; auto.
    unfold frame_bytes in O1. apply bytes_ok_app in O1. destruct O1 as [_ O1]. apply bytes_ok_app in O1. destruct O1 as [O1 _].
    unfold frame_ok. repeat split; [rewrite X1; exact AD|rewrite X2; exact AS|exact O1|lia]. }
  rewrite F2 in W. destruct (C46_bus CB b lsB kB tB fs future AB NB QB HB NC FO W) as (n & E & Q). rewrite E.
  destruct (firstn n fs) as [|f l] eqn:El; [reflexivity|]. exfalso. inversion Q as [|? ? [Q1 _] _]; subst.
  assert (Hf : In f fs) by (rewrite <- (firstn_skipn n fs), El; left; reflexivity).
  rewrite Forall_forall in F3. destruct (F3 f Hf) as (D & _). congruence.
Qed.
Print Assumptions C56_misaddressed.

(** ** The shipped files *)

(** yaml-cpp's conversions as far as the files need them: decimal numbers; files wherever they are *)
Definition yaml (place : String.string -> N) : library := {|
  as_int64 := decimal; as_bool s := if String.eqb s "true" then Some true else if String.eqb s "false" then Some false else None;
  is_address _ := true; file_at := place |}.
Lemma yaml_ok place : library_ok (yaml place).
Proof. intros s z. exact (ex_library s z). Qed.
Lemma key_ok a f path t k : files_ok f -> holds f (a path) t k -> get_crypto_key (yaml a) f path t = ret k.
Proof. intros F [L R]. apply get_crypto_key_iff; auto. Qed.
Ltac go := lazymatch goal with
 | |- rbind _ _ = ret _ => eapply bind_ret; [go|cbv beta iota; go]
 | |- get_crypto_key _ _ _ _ = ret _ => apply key_ok; eassumption
 | |- ret _ = ret _ => reflexivity
 | |- read _ _ _ _ = ret _ => unfold read; go
 | |- foreach (get_session_factory _ _) _ _ = ret _ => cbn [foreach each]; go
 | |- each (get_session_factory _ _) _ _ = ret _ => cbn [each]; go
 | |- get_session_factory _ _ _ _ = ret _ => cbv beta delta [get_session_factory]; go
 | |- get_stack_factory _ _ _ _ = ret _ => cbv beta delta [get_stack_factory]; go
 | |- get_initiator_factory _ _ _ _ = ret _ => cbv beta delta [get_initiator_factory]; go
 | |- get_responder_factory _ _ _ _ = ret _ => cbv beta delta [get_responder_factory]; go
 | |- get_initiator_credentials _ _ _ _ _ = ret _ => cbv beta iota delta [get_initiator_credentials]; go
 | |- get_responder_credentials _ _ _ _ _ = ret _ => cbv beta iota delta [get_responder_credentials]; go
 | |- get_shared_secret _ _ _ = ret _ => cbv beta delta [get_shared_secret]; go
 | |- get_local_static_keys _ _ _ = ret _ => cbv beta delta [get_local_static_keys]; go
 | |- get_remote_public_key _ _ _ = ret _ => cbv beta delta [get_remote_public_key]; go
 | |- (if ?b then _ else _) = ret _ => let v := eval vm_compute in b in change b with v; cbv iota; go
 | |- _ => vm_compute; reflexivity
 end.

(** What is in the files *)
Definition sh_initiator (link : option addresses) (t : transport) (c : credentials) : session_plan :=
  {| pl_id := "session1"; pl_levels := "iwemf"; pl_factory := {| fa_addresses := link; fa_role := FInitiator ex_stack_i (suite_of hmac_sha256_16) c |}; pl_transport := t |}.
Definition sh_responder (link : option addresses) (t : transport) (c : credentials) : session_plan :=
  {| pl_id := "session1"; pl_levels := "iwemf"; pl_factory := {| fa_addresses := link; fa_role := FResponder {| rg_max_payload := 4096; rg_ttl_pad_ms := 10000 |} c |}; pl_transport := t |}.
Definition sh_addr (port : N) : endpoint_addr := {| ip_address := "127.0.0.1"; ip_port := port |}.
Definition sh_udp (a b c d : N) : transport := Udp (sh_addr a) (sh_addr b) (sh_addr c) (sh_addr d).

Lemma sh_secret a M f k : files_ok f -> holds f (a "./shared_secret.icf") ce_shared_secret k ->
  read (yaml a) M f shared_secret_tcp_initiator = ret ([], [sh_initiator (Some {| a_destination := 1; a_source := 10 |}) (Tcp 1 (sh_addr 20000) (sh_addr 20001)) (CSecret k)]) /\
  read (yaml a) M f shared_secret_tcp_responder = ret ([], [sh_responder (Some {| a_destination := 10; a_source := 1 |}) (Tcp 1 (sh_addr 20001) (sh_addr 20002)) (CSecret k)]) /\
  read (yaml a) M f shared_secret_udp_initiator = ret ([], [sh_initiator None (sh_udp 20000 20001 20002 20003) (CSecret k)]) /\
  read (yaml a) M f shared_secret_udp_responder = ret ([], [sh_responder None (sh_udp 20004 20005 20003 20002) (CSecret k)]).
Proof. intros F H. repeat split; go. Qed.
Lemma sh_preshared_i a M f public private remote : files_ok f -> holds f (a "./initiator_public_key.icf") ce_x25519_public_key public ->
  holds f (a "./initiator_private_key.icf") ce_x25519_private_key private -> holds f (a "./responder_public_key.icf") ce_x25519_public_key remote ->
  read (yaml a) M f preshared_tcp_initiator = ret ([], [sh_initiator (Some {| a_destination := 1; a_source := 10 |}) (Tcp 1 (sh_addr 20000) (sh_addr 20001)) (CPreshared public private remote)]) /\
  read (yaml a) M f preshared_udp_initiator = ret ([], [sh_initiator None (sh_udp 20000 20001 20002 20003) (CPreshared public private remote)]).
Proof. intros F H1 H2 H3. split; go. Qed.
Lemma sh_preshared_r a M f public private remote : files_ok f -> holds f (a "./responder_public_key.icf") ce_x25519_public_key public ->
  holds f (a "./responder_private_key.icf") ce_x25519_private_key private -> holds f (a "./initiator_public_key.icf") ce_x25519_public_key remote ->
  read (yaml a) M f preshared_tcp_responder = ret ([], [sh_responder (Some {| a_destination := 1; a_source := 10 |}) (Tcp 1 (sh_addr 20000) (sh_addr 20001)) (CPreshared public private remote)]) /\
  read (yaml a) M f preshared_udp_responder = ret ([], [sh_responder None (sh_udp 20004 20005 20003 20002) (CPreshared public private remote)]).
Proof. intros F H1 H2 H3. split; go. Qed.

Lemma runs_of P S a M f root r p C : files_ok f -> all_bind M -> read (yaml a) M f root = ret (r, [p]) -> create_stack P S (pl_factory p) = ret C -> runs P S (yaml a) M f root p C.
Proof.
  intros F B R K. split; [apply yaml_ok|]. split; [exact F|]. exists r, [(p, match pl_transport p with Tcp _ _ _ => None | _ => Some C end)], (match pl_transport p with Tcp _ _ _ => None | _ => Some C end).
  split; [|split; [left; reflexivity|destruct (pl_transport p); auto]]. apply C47_launch. cbn [map fst]. split; [exact R|]. split; [discriminate|]. constructor; [|constructor]. cbn [fst snd].
  unfold starts. destruct (pl_transport p); repeat split; auto; repeat constructor; apply B.
Qed.
Definition sh_conf (P : prims) (link : option addresses) (r : role) : econf := make_stack P sodium_supports link 4096 10000 r.
Definition sh_hi (c : credentials) : initiator_handshake :=
  match c with CSecret k => ISharedSecret (suite_of hmac_sha256_16) k | CQkd _ => IQkd (suite_of hmac_sha256_16) | CPreshared _ s p => IPublicKey (suite_of hmac_sha256_16) s (Preshared p) | CCertificates _ s _ _ => IPublicKey (suite_of hmac_sha256_16) s (Preshared []) end.
Definition sh_hr (c : credentials) : responder_handshake :=
  match c with CSecret k => RSharedSecret k | CQkd _ => RQkd | CPreshared _ s p => RPublicKey s (Preshared p) | CCertificates _ s _ _ => RPublicKey s (Preshared []) end.
Definition no_chain (c : credentials) : Prop := match c with CCertificates _ _ _ _ => False | _ => True end.
Lemma sh_create P link t c : no_chain c ->
  create_stack P sodium_supports (pl_factory (sh_initiator link t c)) = ret (sh_conf P link (Initiator {| ic_handshake := sh_hi c; ic_limits := ig_limits ex_stack_i; ic_nonce_trigger := 32700 |})) /\
  create_stack P sodium_supports (pl_factory (sh_responder link t c)) = ret (sh_conf P link (Responder (sh_hr c))).
Proof. destruct c; intros H; [split; reflexivity|split; reflexivity|split; reflexivity|destruct H]. Qed.
Lemma sh_deployed P a1 a2 M1 M2 f1 f2 i r l1 l2 t1 t2 ci cr r1 r2 N : files_ok f1 -> files_ok f2 -> all_bind M1 -> all_bind M2 -> no_chain ci -> no_chain cr ->
  read (yaml a1) M1 f1 i = ret (r1, [sh_initiator l1 t1 ci]) -> read (yaml a2) M2 f2 r = ret (r2, [sh_responder l2 t2 cr]) ->
  faces (sh_initiator l1 t1 ci) (sh_responder l2 t2 cr) -> reaches (sh_initiator l1 t1 ci) (sh_responder l2 t2 cr) -> suits P False ci cr -> within_shipped_limits N ->
  n_ca N = sh_conf P l1 (Initiator {| ic_handshake := sh_hi ci; ic_limits := ig_limits ex_stack_i; ic_nonce_trigger := 32700 |}) -> n_cb N = sh_conf P l2 (Responder (sh_hr cr)) ->
  deployed P sodium_supports N.
Proof.
  intros F1 F2 B1 B2 N1 N2 R1 R2 Fa Re Su (D & E & Li & Hia & Hans) A B. destruct (sh_create P l1 t1 ci N1) as [C1 _]. destruct (sh_create P l2 t2 cr N2) as [_ C2].
  exists (yaml a1), M1, f1, i, (sh_initiator l1 t1 ci), ex_stack_i, (suite_of hmac_sha256_16), ci, (yaml a2), M2, f2, r, (sh_responder l2 t2 cr), {| rg_max_payload := 4096; rg_ttl_pad_ms := 10000 |}, cr.
  rewrite A, B. split; [eapply runs_of; eauto|]. split; [reflexivity|]. split; [eapply runs_of; eauto|]. split; [reflexivity|]. split; [exact Fa|]. split; [exact Re|].
  constructor; cbn [ex_stack_i ig_max_payload rg_max_payload ig_ttl_pad_ms rg_ttl_pad_ms ig_limits l_max_time_ms l_max_nonce ig_nonce_trigger]; try lia; auto.
  - destruct ci, cr; cbn in *; tauto.
  - destruct ci, cr; cbn in *; tauto.
Qed.

(** With the shared secret: started on two machines with the same secret in both files, the shipped
    files of TCP and of UDP make proxies that are meant for each other. *)
Theorem C56_shipped_secret : forall P a1 a2 M1 M2 f1 f2 k i r, files_ok f1 -> files_ok f2 -> all_bind M1 -> all_bind M2 ->
  holds f1 (a1 "./shared_secret.icf") ce_shared_secret k -> holds f2 (a2 "./shared_secret.icf") ce_shared_secret k ->
  In (i, r) [(shared_secret_tcp_initiator, shared_secret_tcp_responder); (shared_secret_udp_initiator, shared_secret_udp_responder)] ->
  exists C1 C2 p1 p2, runs P sodium_supports (yaml a1) M1 f1 i p1 C1 /\ runs P sodium_supports (yaml a2) M2 f2 r p2 C2 /\
    forall N, n_ca N = C1 -> n_cb N = C2 -> within_shipped_limits N -> deployed P sodium_supports N.
Proof.
  intros P a1 a2 M1 M2 f1 f2 k i r F1 F2 B1 B2 H1 H2 I. destruct (sh_secret a1 M1 f1 k F1 H1) as (X1 & _ & X3 & _). destruct (sh_secret a2 M2 f2 k F2 H2) as (_ & X2 & _ & X4).
  destruct I as [I|[I|[]]]; injection I as <- <-.
  - do 4 eexists. split; [eapply runs_of; [exact F1|exact B1|exact X1|apply (sh_create P); exact Logic.I]|]. split; [eapply runs_of; [exact F2|exact B2|exact X2|apply (sh_create P); exact Logic.I]|].
    intros N A B W. eapply sh_deployed; [exact F1|exact F2|exact B1|exact B2| | |exact X1|exact X2| | | |exact W|exact A|exact B]; try exact Logic.I; try reflexivity; split; reflexivity.
  - do 4 eexists. split; [eapply runs_of; [exact F1|exact B1|exact X3|apply (sh_create P); exact Logic.I]|]. split; [eapply runs_of; [exact F2|exact B2|exact X4|apply (sh_create P); exact Logic.I]|].
    intros N A B W. eapply sh_deployed; [exact F1|exact F2|exact B1|exact B2| | |exact X3|exact X4| | | |exact W|exact A|exact B]; try exact Logic.I; try reflexivity; split; reflexivity.
Qed.
Print Assumptions C56_shipped_secret.

(** With preshared public keys, over UDP *)
Theorem C56_shipped_preshared_udp : forall P a1 a2 M1 M2 f1 f2 ki kr, files_ok f1 -> files_ok f2 -> all_bind M1 -> all_bind M2 ->
  holds f1 (a1 "./initiator_private_key.icf") ce_x25519_private_key ki -> holds f1 (a1 "./initiator_public_key.icf") ce_x25519_public_key (p_dh_public P ki) ->
  holds f1 (a1 "./responder_public_key.icf") ce_x25519_public_key (p_dh_public P kr) ->
  holds f2 (a2 "./responder_private_key.icf") ce_x25519_private_key kr -> holds f2 (a2 "./responder_public_key.icf") ce_x25519_public_key (p_dh_public P kr) ->
  holds f2 (a2 "./initiator_public_key.icf") ce_x25519_public_key (p_dh_public P ki) ->
  exists C1 C2 p1 p2, runs P sodium_supports (yaml a1) M1 f1 preshared_udp_initiator p1 C1 /\ runs P sodium_supports (yaml a2) M2 f2 preshared_udp_responder p2 C2 /\
    forall N, n_ca N = C1 -> n_cb N = C2 -> within_shipped_limits N -> deployed P sodium_supports N.
Proof.
  intros P a1 a2 M1 M2 f1 f2 ki kr F1 F2 B1 B2 H1 H2 H3 K1 K2 K3. destruct (sh_preshared_i a1 M1 f1 _ _ _ F1 H2 H1 H3) as (_ & X1). destruct (sh_preshared_r a2 M2 f2 _ _ _ F2 K2 K1 K3) as (_ & X2).
  do 4 eexists. split; [eapply runs_of; [exact F1|exact B1|exact X1|apply (sh_create P); exact Logic.I]|]. split; [eapply runs_of; [exact F2|exact B2|exact X2|apply (sh_create P); exact Logic.I]|].
  intros N A B W. eapply sh_deployed; [exact F1|exact F2|exact B1|exact B2| | |exact X1|exact X2| | | |exact W|exact A|exact B]; try exact Logic.I; split; reflexivity.
Qed.
Print Assumptions C56_shipped_preshared_udp.

(** Over TCP the shipped files for preshared public keys do not belong to each other: both proxies
    have the same address and listen on the same port, and neither connects to the other. *)
Theorem C56_shipped_preshared_tcp_refuted : forall a1 a2 M1 M2 f1 f2 r1 r2 p1 p2, 
  (exists k1 k2 k3, files_ok f1 /\ holds f1 (a1 "./initiator_public_key.icf") ce_x25519_public_key k1 /\ holds f1 (a1 "./initiator_private_key.icf") ce_x25519_private_key k2 /\ holds f1 (a1 "./responder_public_key.icf") ce_x25519_public_key k3) ->
  (exists k1 k2 k3, files_ok f2 /\ holds f2 (a2 "./responder_public_key.icf") ce_x25519_public_key k1 /\ holds f2 (a2 "./responder_private_key.icf") ce_x25519_private_key k2 /\ holds f2 (a2 "./initiator_public_key.icf") ce_x25519_public_key k3) ->
  read (yaml a1) M1 f1 preshared_tcp_initiator = ret (r1, [p1]) -> read (yaml a2) M2 f2 preshared_tcp_responder = ret (r2, [p2]) ->
  ~ faces p1 p2 /\ ~ reaches p1 p2 /\ fa_addresses (pl_factory p1) = fa_addresses (pl_factory p2) /\ pl_transport p1 = pl_transport p2.
Proof.
  intros a1 a2 M1 M2 f1 f2 r1 r2 p1 p2 (k1 & k2 & k3 & F1 & H1 & H2 & H3) (q1 & q2 & q3 & F2 & K1 & K2 & K3) R1 R2.
  destruct (sh_preshared_i a1 M1 f1 _ _ _ F1 H1 H2 H3) as (X1 & _). destruct (sh_preshared_r a2 M2 f2 _ _ _ F2 K1 K2 K3) as (X2 & _).
  rewrite X1 in R1. rewrite X2 in R2. apply ret_inj in R1, R2. injection R1 as <- <-. injection R2 as <- <-. cbn. repeat split; try reflexivity; intros H; [destruct H; discriminate|discriminate].
Qed.
Print Assumptions C56_shipped_preshared_tcp_refuted.

(** Three of the four files for QKD are refused by the proxy, whatever the machine and the disk: they
    lack the entry [metrics]. *)
Theorem C56_shipped_qkd_refuted : forall P S a M f root, In root [qkd_tcp_responder; qkd_udp_initiator; qkd_udp_responder] -> launch P S (yaml a) M f root = throw.
Proof.
  intros P S a M f root I. assert (R : read (yaml a) M f root = throw); [|unfold launch; rewrite R; reflexivity].
  destruct I as [<-|[<-|[<-|[]]]]; vm_compute; reflexivity.
Qed.
Print Assumptions C56_shipped_qkd_refuted.

(** The other one is accepted, if the serial port opens *)
Example C56_shipped_qkd_initiator : forall a M f, (forall s, opens M s = true) -> exists r p, read (yaml a) M f qkd_tcp_initiator = ret (r, [p]).
Proof.
  intros a M f O. do 2 eexists. unfold read. (eapply bind_ret; [vm_compute; reflexivity|]); cbv beta iota; cbn [foreach each];
  (eapply bind_ret; [eapply bind_ret;
    [unfold configure_qkd_source; do 2 (eapply bind_ret; [vm_compute; reflexivity|]; cbn [find_source]); cbn [String.eqb Ascii.eqb Bool.eqb]; eapply bind_ret; [|reflexivity];
     unfold new_qix_source; do 6 (eapply bind_ret; [vm_compute; reflexivity|]); rewrite O; reflexivity
    |cbv beta iota; reflexivity]|]); cbv beta iota; cbn [foreach each]; go.
Qed.

(** The files of the initiators give the duration of a session and the time of its renewal under names the
    reader does not know: whatever is written there, the proxy does the same. *)
Theorem C56_shipped_ignored_refuted : forall P S a M f i key v,
  In i [shared_secret_tcp_initiator; shared_secret_udp_initiator; preshared_tcp_initiator; preshared_udp_initiator; qkd_tcp_initiator] ->
  In key ["max_session_duration"; "session_time_renegotiation_trigger"] ->
  (exists w, set_key key w i <> i) /\ launch P S (yaml a) M f (set_key key v i) = launch P S (yaml a) M f i.
Proof.
  intros P S a M f i key v Hi Hk. split.
  - exists (NScalar ""). destruct Hk as [<-|[<-|[]]]; destruct Hi as [<-|[<-|[<-|[<-|[<-|[]]]]]]; intros H; vm_compute in H; discriminate H.
  - assert (R : read (yaml a) M f (set_key key v i) = read (yaml a) M f i); [|unfold launch; rewrite R; reflexivity].
    destruct Hk as [<-|[<-|[]]]; destruct Hi as [<-|[<-|[<-|[<-|[<-|[]]]]]]; reflexivity.
Qed.
Print Assumptions C56_shipped_ignored_refuted.

(** From the key generator on: one machine makes the secret with the tool, at the place the file names;
    the file with the secret is copied to the other machine; both start the proxy with the shipped files:
    what the clients send comes out, for every secret. *)
Theorem C56_quickstart : forall P G k a1 a2 M1 M2 f1 f2 random f1' ok i r, works_everywhere P sodium_supports -> works k ->
  files_ok f1 -> files_ok f2 -> all_bind M1 -> all_bind M2 -> length random = 32 -> bytes_ok random ->
  run_command P G k f1 (GenShared (a1 "./shared_secret.icf") random) = Ok (f1', ok) -> f2 (a2 "./shared_secret.icf") = f1' (a1 "./shared_secret.icf") ->
  In (i, r) [(shared_secret_tcp_initiator, shared_secret_tcp_responder); (shared_secret_udp_initiator, shared_secret_udp_responder)] ->
  ok = true /\ exists C1 C2 p1 p2, runs P sodium_supports (yaml a1) M1 f1' i p1 C1 /\ runs P sodium_supports (yaml a2) M2 f2 r p2 C2 /\
    forall N, n_ca N = C1 -> n_cb N = C2 -> within_shipped_limits N -> forall x, tunnel_reachable N x ->
      ((exists r, t_out (u_b x) ++ r = t_sent (u_a x))%list /\ (exists r, t_out (u_a x) ++ r = t_sent (u_b x))%list) /\
      forall deadline, has_room N (u_a x) -> has_room N (u_b x) -> tunnel_in_time N deadline x ->
        tunnel_inevitable N (fun y => (deadline < u_now y)%Z \/ all_through y) x.
Proof.
  intros P G k a1 a2 M1 M2 f1 f2 random f1' ok i r W K F1 F2 B1 B2 Lr Br H Hc I. cbn [run_command] in H. unfold gen_shared_secret in H. rewrite firstn_all2 in H by lia.
  assert (Q : seq_ok random) by (apply (seq_ok_len _ 32); auto; reflexivity). rewrite write_ok, put_works in H by auto. injection H as <- <-. split; [reflexivity|].
  assert (F1' : files_ok (set_file f1 (a1 "./shared_secret.icf") (file_of ce_shared_secret random))) by (apply files_ok_set; [exact F1|apply file_bytes, Q]).
  rewrite set_same in Hc.
  assert (Ls : 1 <= length (file_of ce_shared_secret random) <= 4096).
  { unfold file_of, wire_container, wire_seq. cbn [cf_payload cf_type]. rewrite !app_length, Lr, (der_small (N.of_nat 32)) by reflexivity. cbn [length]. lia. }
  destruct (C56_shipped_secret P a1 a2 M1 M2 _ f2 random i r F1' F2 B1 B2) as (C1 & C2 & p1 & p2 & R1 & R2 & D); [split; [exact Lr|split; [apply set_same|exact Ls]]|split; [exact Lr|split; [exact Hc|exact Ls]]|exact I|].
  exists C1, C2, p1, p2. split; [exact R1|]. split; [exact R2|]. intros N E1 E2 WS x R. specialize (D N E1 E2 WS).
  split; [apply (C56_pipe P sodium_supports N x W D R)|]. intros deadline. exact (C56_comes_out P sodium_supports N x deadline W D R).
Qed.
Print Assumptions C56_quickstart.

(** ** Examples *)
Definition ex_place (s : String.string) : N :=
  if String.eqb s "./initiator_public_key.icf" then 2 else if String.eqb s "./initiator_private_key.icf" then 3 else
  if String.eqb s "./responder_public_key.icf" then 4 else if String.eqb s "./responder_private_key.icf" then 5 else if String.eqb s "./shared_secret.icf" then 19 else 0.
Lemma ex_holds p t k : ex_disk p = Some (file_of t k) -> length k = 32 -> length (file_of t k) <= 4096 -> 1 <= length (file_of t k) -> holds ex_disk p t k.
Proof. intros E L A B. split; [exact L|]. split; [exact E|]. split; [exact B|exact A]. Qed.
Ltac ex_key := apply ex_holds; [vm_compute; reflexivity|vm_compute; reflexivity|apply Nat.leb_le; vm_compute; reflexivity|apply Nat.leb_le; vm_compute; reflexivity].
Definition ex_net (C1 C2 : econf) : net := {| n_ca := C1; n_cb := C2; n_ia := hx_ia; n_ans := hx_ans; n_oa := 0; n_ob := 77; n_delay := 4999500000; n_limit := N.to_nat 32700; n_end := 3590000000000 |}.
Lemma ex_within C1 C2 : within_shipped_limits (ex_net C1 C2).
Proof. unfold within_shipped_limits, ex_net. cbn [n_delay n_end n_limit n_ia n_ans]. repeat split; try lia; try apply hx_ia_ok; apply hx_ans_ok. Qed.
Lemma ex_works : works_everywhere toy sodium_supports.
Proof. split; [exact toy_ok|]. split; [reflexivity|exact toy_dh]. Qed.
(** Two clients have sent data to proxies that run with the shipped files: it gets through. *)
Definition ex_tunnel (N : net) : tunnel := {| u_now := 0; u_a := client (new_station (n_ca N)) [1; 2; 3; 4; 5]%N; u_b := client (new_station (n_cb N)) [2; 3]%N |}.
Lemma ex_tunnel_ok N : tunnel_reachable N (ex_tunnel N).
Proof.
  apply (tr_client_b N {| u_now := 0; u_a := client (new_station (n_ca N)) [1; 2; 3; 4; 5]%N; u_b := new_station (n_cb N) |}).
  - apply (tr_client_a N (new_tunnel N)); [constructor|]. repeat constructor; cbn; lia.
  - repeat constructor; cbn; lia.
Qed.
Lemma ex_gets_through N : deployed toy sodium_supports N -> n_limit N = N.to_nat 32700 -> n_end N = 3590000000000%Z -> n_delay N = 4999500000%Z ->
  tunnel_inevitable N (fun y => (4999500000 < u_now y)%Z \/ all_through y) (ex_tunnel N).
Proof.
  intros D L E De. apply (C56_comes_out toy sodium_supports N _ _ ex_works D (ex_tunnel_ok N)).
  - unfold has_room. rewrite L. cbn [ex_tunnel u_a client new_station t_sent]. cbn [length app]. lia.
  - unfold has_room. rewrite L. cbn [ex_tunnel u_b client new_station t_sent]. cbn [length app]. lia.
  - unfold tunnel_in_time, in_time. rewrite E, De. cbn. split; [lia|]. split; [lia|]. split; constructor.
Qed.
Example C56_shipped_instance : forall i r, In (i, r) [(shared_secret_tcp_initiator, shared_secret_tcp_responder); (shared_secret_udp_initiator, shared_secret_udp_responder)] ->
  exists C1 C2 p1 p2, runs toy sodium_supports (yaml ex_place) ex_M ex_disk i p1 C1 /\ runs toy sodium_supports (yaml ex_place) ex_M ex_disk r p2 C2 /\
    deployed toy sodium_supports (ex_net C1 C2) /\ tunnel_inevitable (ex_net C1 C2) (fun y => (4999500000 < u_now y)%Z \/ all_through y) (ex_tunnel (ex_net C1 C2)).
Proof.
  intros i r I. assert (H : holds ex_disk (ex_place "./shared_secret.icf") ce_shared_secret (repeat 7%N 32)) by ex_key.
  destruct (C56_shipped_secret toy ex_place ex_place ex_M ex_M ex_disk ex_disk _ i r ex_files ex_files (fun _ _ => eq_refl) (fun _ _ => eq_refl) H H I) as (C1 & C2 & p1 & p2 & R1 & R2 & D).
  specialize (D (ex_net C1 C2) eq_refl eq_refl (ex_within C1 C2)). exists C1, C2, p1, p2. split; [exact R1|]. split; [exact R2|]. split; [exact D|]. apply ex_gets_through; auto.
Qed.
Example C56_shipped_preshared_instance : exists C1 C2 p1 p2, runs toy sodium_supports (yaml ex_place) ex_M ex_disk preshared_udp_initiator p1 C1 /\
  runs toy sodium_supports (yaml ex_place) ex_M ex_disk preshared_udp_responder p2 C2 /\
  deployed toy sodium_supports (ex_net C1 C2) /\ tunnel_inevitable (ex_net C1 C2) (fun y => (4999500000 < u_now y)%Z \/ all_through y) (ex_tunnel (ex_net C1 C2)).
Proof.
  destruct (C56_shipped_preshared_udp toy ex_place ex_place ex_M ex_M ex_disk ex_disk hx_static_i hx_static_r ex_files ex_files (fun _ _ => eq_refl) (fun _ _ => eq_refl)) as (C1 & C2 & p1 & p2 & R1 & R2 & D); try ex_key.
  specialize (D (ex_net C1 C2) eq_refl eq_refl (ex_within C1 C2)). exists C1, C2, p1, p2. split; [exact R1|]. split; [exact R2|]. split; [exact D|]. apply ex_gets_through; auto.
Qed.

(** The files for preshared keys over TCP: the initiator sends its request, all of it arrives, and the
    responder does not get it. *)
Definition mis_link : addresses := {| a_destination := 1; a_source := 10 |}.
Definition mis_ci : credentials := CPreshared (p_dh_public toy hx_static_i) hx_static_i (p_dh_public toy hx_static_r).
Definition mis_cr : credentials := CPreshared (p_dh_public toy hx_static_r) hx_static_r (p_dh_public toy hx_static_i).
Definition mis_i : econf := sh_conf toy (Some mis_link) (Initiator {| ic_handshake := sh_hi mis_ci; ic_limits := ig_limits ex_stack_i; ic_nonce_trigger := 32700 |}).
Definition mis_r : econf := sh_conf toy (Some mis_link) (Responder (sh_hr mis_cr)).
Definition mis_a : list slabel := slabels_of (sdrive mis_i (sfresh mis_i mis_link) [shappen (Enter LowerOpen) 1]).
Definition mis_request : list N := sframe_no mis_i mis_link [shappen (Enter LowerOpen) 1] 0.
Definition mis_b : list slabel := slabels_of (sdrive mis_r (sfresh mis_r mis_link) [shappen (Enter LowerOpen) 1; sarrive [firstn 40 mis_request] 2; sarrive [skipn 40 mis_request] 3]).
Lemma only_nil t : existsb is_message t = false -> messages t = [].
Proof. induction t as [|e t IH]; [reflexivity|]. cbn. intros H. apply Bool.orb_false_iff in H as [H1 H2]. destruct e; try discriminate; cbn; auto. Qed.
Example C56_misaddressed_instance : exists kA tA kB tB,
  runs toy sodium_supports (yaml ex_place) ex_M ex_disk preshared_tcp_initiator (sh_initiator (Some mis_link) (Tcp 1 (sh_addr 20000) (sh_addr 20001)) mis_ci) mis_i /\
  runs toy sodium_supports (yaml ex_place) ex_M ex_disk preshared_tcp_responder (sh_responder (Some mis_link) (Tcp 1 (sh_addr 20000) (sh_addr 20001)) mis_cr) mis_r /\
  a_destination mis_link <> a_source mis_link /\
  stack_run mis_i (new_stack mis_i mis_link, []) mis_a = Ok (kA, tA) /\ bytes_ok (wire_out tA) /\ length (frames_out tA) = 1 /\
  Forall arrival_ok mis_b /\ Forall (fun l => l <> SArrive []) mis_b /\ salong from_outside mis_r (new_stack mis_r mis_link, []) mis_b /\
  stack_run mis_r (new_stack mis_r mis_link, []) mis_b = Ok (kB, tB) /\ ~ In EvClosed tB /\ wire_in mis_b = wire_out tA /\ Stack.st_open (fst kB) = true /\ messages tB = [].
Proof.
  assert (X : match stack_run mis_i (new_stack mis_i mis_link, []) mis_a, stack_run mis_r (new_stack mis_r mis_link, []) mis_b with
    | Ok (ka, ta), Ok (kb, tb) => salongb orderlyb mis_r (new_stack mis_r mis_link, []) mis_b && arrivalsb mis_b && small (wire_out ta) && (length (frames_out ta) =? 1) && negb (existsb is_closed tb) &&
        bytes_eqb (wire_in mis_b) (wire_out ta) && Stack.st_open (fst kb) && negb (existsb is_message tb)
    | _, _ => false end = true) by (vm_compute; reflexivity).
  assert (RI : runs toy sodium_supports (yaml ex_place) ex_M ex_disk preshared_tcp_initiator (sh_initiator (Some mis_link) (Tcp 1 (sh_addr 20000) (sh_addr 20001)) mis_ci) mis_i).
  { destruct (sh_preshared_i ex_place ex_M ex_disk (p_dh_public toy hx_static_i) hx_static_i (p_dh_public toy hx_static_r) ex_files) as (R & _); try ex_key.
    eapply runs_of; [exact ex_files|intros ? ?; reflexivity|exact R|apply (sh_create toy); exact Logic.I]. }
  assert (RR : runs toy sodium_supports (yaml ex_place) ex_M ex_disk preshared_tcp_responder (sh_responder (Some mis_link) (Tcp 1 (sh_addr 20000) (sh_addr 20001)) mis_cr) mis_r).
  { destruct (sh_preshared_r ex_place ex_M ex_disk (p_dh_public toy hx_static_r) hx_static_r (p_dh_public toy hx_static_i) ex_files) as (R & _); try ex_key.
    eapply runs_of; [exact ex_files|intros ? ?; reflexivity|exact R|apply (sh_create toy); exact Logic.I]. }
  set (la := mis_a) in *. set (lb := mis_b) in *. clearbody la lb.
  destruct (stack_run mis_i _ la) as [[kA tA]| |] eqn:HA; try discriminate X. destruct (stack_run mis_r _ lb) as [[kB tB]| |] eqn:HB; try discriminate X.
  do 7 (apply Bool.andb_true_iff in X; let X' := fresh "X" in destruct X as [X X']). destruct (arrivalsb_ok _ X6) as [A1 A2].
  exists kA, tA, kB, tB. split; [exact RI|]. split; [exact RR|]. split; [discriminate|]. split; [reflexivity|]. split; [apply small_ok, X5|]. split; [apply Nat.eqb_eq, X4|].
  split; [exact A1|]. split; [exact A2|]. split; [eapply salong_impl; [|exact (salongb_ok _ _ _ orderlyb_ok _ _ X)]; intros ? ? [_ V]; exact V|].
  split; [reflexivity|]. split; [apply (absent is_closed); [apply Bool.negb_true_iff; exact X3|reflexivity]|]. split; [apply bytes_eqb_iff; exact X2|]. split; [exact X1|]. apply only_nil. apply Bool.negb_true_iff, X0.
Qed.
