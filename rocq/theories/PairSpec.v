(** * PairSpec: two endpoints and the network between them

    The network is the adversary: what an endpoint receives is an arbitrary list of messages (every
    run of an endpoint is considered).  The only link between the two runs is the cryptographic
    assumption [unforged]. *)
From Verif Require Import Base Codec CodecSpec Link LinkLayer Primitives Session SessionSpec Handshake Endpoint EndpointSpec.

(** ** The environment supplies values of the C++ types *)
Definition call_typed (c : call) : Prop := match c with StartTx d => bytes_ok d | _ => True end.
Definition typed (k : config) (l : label) : Prop :=
  match l with
  | Run inp => bytes_ok (in_message inp) /\ Forall call_typed (in_calls inp)
  | Ext (Enter c) => call_typed c
  | Ext _ => True
  end.
Definition conf_typed (C : econf) : Prop :=
  match c_role C with Initiator c => (l_max_nonce (ic_limits c) <= 65535)%N | Responder _ => True end.

(** ** What an endpoint sealed, read off the events

    [kp] is the session whose keys were derived and that is not established yet, [ka] the session
    established last, each with the number of messages sealed under it so far.  The initiator's
    authentication is sealed under the former, everything else under the latter.  [None]: a
    session is established without keys derived for it since the last one was, or something is
    sealed without keys. *)
Record sealed_message := { sm_session : session; sm_nonce : N; sm_data : list N; sm_frame : list N }.
Record kstate := { kp : option (session * N); ka : option (session * N); klog : list sealed_message }.
Definition seal (x : option (session * N)) (data frame : list N) : option (option (session * N) * sealed_message) :=
  match x with
  | None => None
  | Some (s, n) => Some (Some (s, (n + 1)%N), {| sm_session := s; sm_nonce := n; sm_data := data; sm_frame := frame |})
  end.
Definition sealing (initiator : bool) (st : kstate) (e : event) : option kstate :=
  match e with
  | EvKeys s => Some {| kp := Some (s, 0%N); ka := ka st; klog := klog st |}
  | EvAuthOk _ _ _ =>
      match kp st with None => None | Some x => Some {| kp := None; ka := Some x; klog := klog st |} end
  | EvTx (TxAuth c) f =>
      if initiator then
        match seal (kp st) c f with None => None | Some (x, m) => Some {| kp := x; ka := ka st; klog := klog st ++ [m] |} end
      else
        match seal (ka st) c f with None => None | Some (x, m) => Some {| kp := kp st; ka := x; klog := klog st ++ [m] |} end
  | EvTx (TxData c) f =>
      match seal (ka st) c f with None => None | Some (x, m) => Some {| kp := kp st; ka := x; klog := klog st ++ [m] |} end
  | _ => Some st
  end.
Definition kstart : kstate := {| kp := None; ka := None; klog := [] |}.
Definition sealed_log (C : econf) (t : list event) : list sealed_message :=
  match play (sealing (is_initiator C)) kstart t with Some st => klog st | None => [] end.

(** The log entry describes the frame: it is a session message with this nonce that opens under
    the transmit key of the session to the data *)
Definition seals_frame (C : econf) (x : sealed_message) : Prop :=
  exists md, carries (c_env C) (s_crypto_mode (sm_session x)) (k_tx (s_keys (sm_session x))) (sm_frame x) md (sm_data x) /\ am_nonce md = sm_nonce x.

(** The data sealed under one key, in order *)
Definition under (key : list N) (x : sealed_message) : bool := bytes_eqb (k_tx (s_keys (sm_session x))) key.
Definition sent_under (C : econf) (key : list N) (t : list event) : list (list N) := map sm_data (filter (under key) (sealed_log C t)).

(** ** Assumptions *)

(** The handshakes of the sender derived different keys *)
Definition derived (t : list event) : list session := flat_map (fun e => match e with EvKeys s => [s] | _ => [] end) t.
Definition fresh_keys (t : list event) : Prop := NoDup (map (fun s => k_tx (s_keys s)) (derived t)).

(** A session message that the receiver got from the network and that opens under the receive key
    of a session the receiver established was sealed by the sender under this key: nobody else
    knows the key, and the authenticated encryption is not forged. *)
Definition unforged (CA : econf) (tA : list event) (CB : econf) (tB : list event) : Prop :=
  forall raw m s m0 p0 p, In (EvRecv raw) tB -> session_data_read raw = inl m -> In (EvAuthOk s m0 p0) tB ->
    authentic (e_prims (c_env CB)) (s_crypto_mode s) (k_rx (s_keys s)) m p ->
    exists x, In x (sealed_log CA tA) /\ k_tx (s_keys (sm_session x)) = k_rx (s_keys s) /\ s_crypto_mode (sm_session x) = s_crypto_mode s /\
      carries (c_env CA) (s_crypto_mode s) (k_rx (s_keys s)) (sm_frame x) (sd_metadata m) p.

(** ** What the receiver delivers *)

(** The payloads accepted, and the data read by the application *)
Definition payloads (t : list event) : list (list N) :=
  filter nonempty (flat_map (fun e => match e with EvAuthOk _ _ p | EvDataOk _ _ p => [p] | _ => [] end) t).
Definition read_data (t : list event) : list (list N) := flat_map (fun e => match e with EvRead d => [d] | _ => [] end) t.
(** [part] is the part of [t] that belongs to one session: from the acceptance of its
    authentication up to (not including) the next one *)
Definition session_part (t : list event) (s : session) (part : list event) : Prop :=
  exists t0 m p rest t2, t = t0 ++ part ++ t2 /\ part = EvAuthOk s m p :: rest /\
    forallb (fun e => match e with EvAuthOk _ _ _ => false | _ => true end) rest = true.

(** ** Where the sender's data comes from *)

(** The buffers taken from the application *)
Definition offered (t : list event) : list (list N) := flat_map (fun e => match e with EvAccept d => [d] | _ => [] end) t.
Definition starts_with (d c : list N) : Prop := exists rest, d = c ++ rest.
(** [c] is a piece of [d] *)
Definition piece_of (c d : list N) : Prop := exists a b, d = a ++ c ++ b.
