(** * Line: two endpoints connected by a reliable line

    The crypto layers of an initiator and of a responder (Endpoint), each over a lower layer as
    include/ssp21/stack/ILowerLayer.h:20-63 and IUpperLayer.h:26-84 describe it, and a line between
    the two lower layers that delivers every message once, unmodified and in order: what ssp21
    promises is a statement about two of its endpoints.

    - the lower layer is ready exactly when no transmission is in progress (ILowerLayer.h:21-26), a
      transmission started while it is ready succeeds (ILowerLayer.h:28-37), it reports the end of
      every transmission (IUpperLayer.h:62-72), and it reports that there are messages
      (IUpperLayer.h:74-84) some time after one arrived, once it has opened the endpoint
      (IUpperLayer.h:26-42);
    - start_rx_from_upper returns the oldest message not yet taken (ILowerLayer.h:39-63);
    - a frame arrives as the message inside it (the link layer is modelled in LinkLayer and Stack);
    - the applications call start_tx_from_upper and start_rx_from_upper, at any time and inside
      every notification;
    - the connection is not closed, and none of the timers of the initiator expires
      (Initiator.cpp:69-95): this is one session, from the first handshake on.

    The clocks of the two sides run at the same speed, with any offset.  A message is stamped with
    the time at which it was sent. *)
From Verif Require Import Base Codec Link LinkLayer Primitives Session SessionSpec Handshake Endpoint EndpointSpec PairSpec.

(** The two endpoints; what their random generators and key stores answer during the handshake
    (Handshake); the offset of their clocks; the longest time a message may wait, from the start of
    its transmission to its processing; how many messages each side sends; how long it all lasts *)
Record net := {
  n_ca : econf; n_cb : econf; n_ia : ianswers; n_ans : answers;
  n_oa : Z; n_ob : Z; n_delay : Z; n_limit : nat; n_end : Z }.

(** One side: the endpoint, what has happened, the messages it sent, how many messages of the other
    side it has taken, and whether its lower layer has to report messages *)
Record side := { d_conf : config; d_trace : list event; d_out : list (Z * list N); d_taken : nat; d_owed : bool }.
Record line := { l_now : Z; l_a : side; l_b : side }.

Definition new_side (C : econf) : side :=
  {| d_conf := (new_endpoint C, []); d_trace := []; d_out := []; d_taken := 0; d_owed := false |}.
Definition new_line (L : net) : line := {| l_now := 0; l_a := new_side (n_ca L); l_b := new_side (n_cb L) |}.

(** The frames given to the lower layer, and how many messages were taken from it *)
Definition frames (t : list event) : list (list N) := flat_map (fun e => match e with EvTx _ f => [f] | _ => [] end) t.
Definition takes (t : list event) : nat := length (flat_map (fun e => match e with EvRecv m => [m] | _ => [] end) t).

(** The messages that wait for a side, when the other one sent [out] *)
Definition waiting (out : list (Z * list N)) (d : side) : list (Z * list N) := skipn (d_taken d) out.
(** When the message it took last was sent *)
Definition taken_sent (out : list (Z * list N)) (d : side) : Z := fst (nth (pred (d_taken d)) out (0%Z, [])).
Definition call_in (d : side) (c : call) (owed : bool) : side :=
  {| d_conf := (fst (d_conf d), [ICall c]); d_trace := d_trace d; d_out := d_out d; d_taken := d_taken d; d_owed := owed |}.

(** What the environment answers in one step that starts at time [t1] and ends at time [t2] *)
Record answers_step (L : net) (off : Z) (out : list (Z * list N)) (d : side) (i : instr) (inp : input) (t1 t2 : Z) : Prop := {
  as_ready : in_ready inp = negb (ep_busy (fst (d_conf d)));
  as_started : ep_busy (fst (d_conf d)) = false -> in_started inp = true;
  as_message : in_message inp = if ep_open (fst (d_conf d)) then match waiting out d with (_, m) :: _ => m | [] => [] end else [];
  as_calls : forallb app_call (in_calls inp) = true /\ Forall call_typed (in_calls inp);
  as_answers : in_answers inp = n_ans L /\ in_ianswers inp = n_ia L;
  as_time : in_now inp = (t1 + off)%Z /\ in_now2 inp = (t2 + off)%Z;
  as_delay : forall m, i = IProcess m -> (t1 <= taken_sent out d + n_delay L)%Z }.

(** A step of one side, when the other one sent [out] *)
Inductive side_step (L : net) (C : econf) (off : Z) (out : list (Z * list N)) (now : Z) (d : side) : side -> Z -> Prop :=
| ss_open : snd (d_conf d) = [] -> ep_open (fst (d_conf d)) = false -> side_step L C off out now d (call_in d LowerOpen (d_owed d)) now
| ss_sent : snd (d_conf d) = [] -> ep_busy (fst (d_conf d)) = true -> side_step L C off out now d (call_in d LowerTxReady (d_owed d)) now
| ss_arrived : snd (d_conf d) = [] -> ep_open (fst (d_conf d)) = true -> d_owed d = true -> side_step L C off out now d (call_in d LowerRxReady false) now
| ss_call c : snd (d_conf d) = [] -> app_call c = true -> call_typed c -> side_step L C off out now d (call_in d c (d_owed d)) now
| ss_run s i rest inp t1 t2 s' pushed ev ms :
    d_conf d = (s, i :: rest) -> (now <= t1 <= t2)%Z -> (t2 <= n_end L)%Z -> answers_step L off out d i inp t1 t2 ->
    exec C s i inp = Ok (s', pushed, ev) ->
    Forall2 (fun f m => f = frame_of (e_kind (c_env C)) m) (frames ev) ms -> length (d_out d) + length ms <= n_limit L ->
    side_step L C off out now d
      {| d_conf := (s', pushed ++ rest); d_trace := d_trace d ++ ev; d_out := d_out d ++ map (pair t1) ms; d_taken := d_taken d + takes ev; d_owed := d_owed d |} t2.

(** Messages that were sent have to be reported on the other side *)
Definition informed (before after : list (Z * list N)) (d : side) : side :=
  {| d_conf := d_conf d; d_trace := d_trace d; d_out := d_out d; d_taken := d_taken d;
     d_owed := d_owed d || negb (length before =? length after) |}.

Inductive line_step (L : net) (x : line) : line -> Prop :=
| ls_a a' now' : side_step L (n_ca L) (n_oa L) (d_out (l_b x)) (l_now x) (l_a x) a' now' ->
    line_step L x {| l_now := now'; l_a := a'; l_b := informed (d_out (l_a x)) (d_out a') (l_b x) |}
| ls_b b' now' : side_step L (n_cb L) (n_ob L) (d_out (l_a x)) (l_now x) (l_b x) b' now' ->
    line_step L x {| l_now := now'; l_a := informed (d_out (l_b x)) (d_out b') (l_a x); l_b := b' |}.

(** The states the two endpoints and the line can get into, from the state [x0]; from the beginning *)
Inductive reachable_from (L : net) (x0 : line) : line -> Prop :=
| rc_new : reachable_from L x0 x0
| rc_step x y : reachable_from L x0 x -> line_step L x y -> reachable_from L x0 y.
Definition reachable (L : net) : line -> Prop := reachable_from L (new_line L).

(** A new connection between two endpoints that exist already: nothing is under way on the line, and
    the lower layers are not transmitting.  What happens is counted from here on. *)
Definition start_side (s : endpoint) : side :=
  {| d_conf := (set_busy s false, []); d_trace := []; d_out := []; d_taken := 0; d_owed := false |}.
Definition start_line (sa sb : endpoint) : line := {| l_now := 0; l_a := start_side sa; l_b := start_side sb |}.
