(** * DeploySpec: two proxies that were configured for each other by their files *)
From Verif Require Import Base Codec Link LinkLayer Primitives Session SessionSpec Handshake HandshakeSpec Endpoint PairSpec Icf IcfSpec Config ConfigSpec Line.

(** The proxy was started with the file [root], and [C] is the stack of its session [p]: of a
    connection if the transport is TCP, since the start if it is UDP. *)
Definition runs (P : prims) (S : supports) (L : library) (M : machine) (f : files) (root : node) (p : session_plan) (C : econf) : Prop :=
  library_ok L /\ files_ok f /\
  exists r started c, launch P S L M f root = ret (r, started) /\ In (p, c) started /\
    match c with Some C' => C' = C | None => on_connected P S p = ret C end.

(** What the files, and the line between the two, must be like: the credentials fit together (with
    QKD, the key the initiator takes is one the responder has); what they present fits into a message;
    [max_payload_size] is at least 1024; [ttl_pad] is at least twice the delay of the line plus a
    millisecond; all is over before the session ends; fewer messages than [max_nonce_value] and the
    renegotiation trigger. *)
Record meant_for_each_other (P : prims) (g : initiator_config) (ci : credentials) (g2 : responder_config) (cr : credentials) (N : net) : Prop := {
  me_credentials : suits P (exists id key, ia_key (n_ia N) = Some (id, key) /\ (id < 2 ^ 64)%N /\ ans_lookup (n_ans N) id = Some key) ci cr;
  me_chains : short_chain ci /\ short_chain cr;
  me_buffers : (1024 <= ig_max_payload g)%N /\ (1024 <= rg_max_payload g2)%N;
  me_random : ianswers_ok (n_ia N) /\ answers_ok (n_ans N);
  me_delay : (0 <= n_delay N)%Z /\ (2 * n_delay N + 1000000 <= Z.of_N (ig_ttl_pad_ms g) * 1000000)%Z /\ (2 * n_delay N + 1000000 <= Z.of_N (rg_ttl_pad_ms g2) * 1000000)%Z;
  me_end : (n_end N + Z.of_N (ig_ttl_pad_ms g) * 1000000 <= Z.of_N (l_max_time_ms (ig_limits g)) * 1000000)%Z /\
    (n_end N + Z.of_N (rg_ttl_pad_ms g2) * 1000000 <= Z.of_N (l_max_time_ms (ig_limits g)) * 1000000)%Z;
  me_limit : (N.of_nat (n_limit N) <= l_max_nonce (ig_limits g))%N /\ (N.of_nat (n_limit N) <= ig_nonce_trigger g)%N }.

(** The sessions face each other: the link addresses of one are those of the other the other way
    round, and the secure side of one proxy is connected to that of the other: the initiator's proxy
    connects to where the responder's proxy listens. *)
Definition faces (p1 p2 : session_plan) : Prop :=
  match fa_addresses (pl_factory p1), fa_addresses (pl_factory p2) with
  | Some a, Some b => a_destination a = a_source b /\ a_destination b = a_source a
  | None, None => True
  | _, _ => False
  end.
Definition reaches (p1 p2 : session_plan) : Prop :=
  match pl_transport p1, pl_transport p2 with
  | Tcp _ _ connect, Tcp _ listen _ => connect = listen
  | Udp _ _ rx tx, Udp _ _ rx' tx' => tx = rx' /\ tx' = rx
  | _, _ => False
  end.

(** Two proxies that run with such files: [N] is made of the stacks of their two sessions.  ([faces] and
    [reaches] make a line of what is between them: they are what Line.v takes for granted.) *)
Definition deployed (P : prims) (S : supports) (N : net) : Prop :=
  exists L1 M1 f1 root1 p1 g suite ci L2 M2 f2 root2 p2 g2 cr,
    runs P S L1 M1 f1 root1 p1 (n_ca N) /\ fa_role (pl_factory p1) = FInitiator g suite ci /\
    runs P S L2 M2 f2 root2 p2 (n_cb N) /\ fa_role (pl_factory p2) = FResponder g2 cr /\
    faces p1 p2 /\ reaches p1 p2 /\ meant_for_each_other P g ci g2 cr N.
(** The cryptographic library: the functions return what their interfaces promise, certificates can
    be verified, and the key agreement accepts every key *)
Definition works_everywhere (P : prims) (S : supports) : Prop := prims_ok P /\ sup_ed25519 S = true /\ (forall x y, dh_defined P x y).

(** ** The files of /repo/config/proxy *)
(** The key file at [p] is readable and holds the key [k] of 32 bytes. *)
Definition holds (f : files) (p : N) (t : ContainerEntryType) (k : list N) : Prop := length k = 32 /\ readable f p (file_of t k).
(** Every address of a file can be bound. *)
Definition all_bind (M : machine) : Prop := forall address port, binds M address port = true.
(** What the line must be like for the settings in these files: messages wait less than 5 seconds,
    all is over a little before an hour, at most 32700 messages from each side. *)
Definition within_shipped_limits (N : net) : Prop :=
  (0 <= n_delay N <= 4999500000)%Z /\ (n_end N <= 3590000000000)%Z /\ n_limit N <= N.to_nat 32700 /\ ianswers_ok (n_ia N) /\ answers_ok (n_ans N).
(** A file with other values at every place with the name [key]. *)
Fixpoint set_key (key : string) (v : node) (n : node) : node :=
  match n with
  | NMap l => NMap (map (fun kx => if String.eqb (fst kx) key then (fst kx, v) else (fst kx, set_key key v (snd kx))) l)
  | NSeq l => NSeq (map (set_key key v) l)
  | _ => n
  end.
