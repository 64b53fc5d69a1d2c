(** * StackSpec: what is observed at a complete stack *)
From Verif Require Import Base Codec Link LinkSpec LinkLayer Primitives Session SessionSpec Handshake Endpoint EndpointSpec Stack.

(** All bytes the transport received, and all bytes given to the transport, in order *)
Definition wire_in (ls : list slabel) : list N := flat_map (fun l => match l with SArrive ch => ch | _ => [] end) ls.
Definition wire_out (t : list event) : list N := flat_map (fun e => match e with EvTx _ f => f | _ => [] end) t.
(** The frames given to the transport *)
Definition frames_out (t : list event) : list (list N) := flat_map (fun e => match e with EvTx _ f => [f] | _ => [] end) t.
(** The messages the crypto layer took from the link layer *)
Definition messages (t : list event) : list (list N) := flat_map (fun e => match e with EvRecv m => [m] | _ => [] end) t.

(** A condition on what the environment does (except on arriving bytes), at every step of a run; it sees the crypto layer and the
    calls in progress, and not the contents of messages. *)
Fixpoint salong (Q : config -> label -> Prop) (C : econf) (k : sconfig) (ls : list slabel) : Prop :=
  match ls with
  | [] => True
  | l :: ls' =>
      match l with SLab l0 => Q (st_crypto (fst k), snd k) l0 | SArrive _ => True end /\
      match stack_step C k l with Ok (k', _) => salong Q C k' ls' | _ => True end
  end.
Definition arrival_ok (l : slabel) : Prop := match l with SArrive ch => bytes_ok ch | _ => True end.

(** The transport keeps its promises (ILowerLayer.h:20-46): it is ready exactly when no transmission is in progress, and a
    transmission started while it is ready succeeds. *)
Definition transport_ok (k : config) (l : label) : Prop :=
  match l with
  | Run inp => in_ready inp = negb (ep_busy (fst k)) /\ (ep_busy (fst k) = false -> in_started inp = true)
  | _ => True
  end.
(** The application is closed from outside its notifications, and does not read while the stack is closed. *)
Definition is_start_rx (c : call) : bool := match c with StartRx => true | _ => false end.
Definition closes_outside (k : config) (l : label) : Prop :=
  match l with
  | Run inp => forallb app_call (in_calls inp) = true /\ (ep_open (fst k) = false -> forallb is_start_tx (in_calls inp) = true)
  | Ext (Enter StartRx) => ep_open (fst k) = true
  | Ext _ => True
  end.
(** The data given by the application consists of bytes. *)
Definition calls_typed (k : config) (l : label) : Prop :=
  match l with
  | Run inp => Forall (fun c => match c with StartTx d => bytes_ok d | _ => True end) (in_calls inp)
  | Ext (Enter (StartTx d)) => bytes_ok d
  | Ext _ => True
  end.

(** ** One transmission at a time *)

(** What was done and what followed, step by step (labels that do not apply are left out) *)
Definition applies (k : sconfig) (l : slabel) : bool :=
  match l, snd k with SLab (Ext _), _ :: _ | SLab (Run _), [] => false | _, _ => true end.
Fixpoint history (C : econf) (k : sconfig) (ls : list slabel) : list (slabel * list event) :=
  match ls with
  | [] => []
  | l :: ls' =>
      match stack_step C k l with
      | Ok (k', e) => (if applies k l then [(l, e)] else []) ++ history C k' ls'
      | _ => []
      end
  end.
(** A frame is given to the transport only if it reported the end of the previous transmission. *)
Definition reports_end (l : slabel) : bool := match l with SLab (Ext (Enter LowerTxReady)) => true | _ => false end.
Fixpoint one_at_a_time (busy : bool) (h : list (slabel * list event)) : Prop :=
  match h with
  | [] => True
  | (l, e) :: h' =>
      match frames_out e with
      | [] => one_at_a_time (if reports_end l then false else busy) h'
      | [_] => busy = false /\ one_at_a_time true h'
      | _ => False
      end
  end.

(** ** Messages are taken only while the connection is open *)
Definition listening (open : bool) (e : event) : option bool :=
  match e with
  | EvOpened => Some true
  | EvClosed => Some false
  | EvRecv _ => if open then Some open else None
  | _ => Some open
  end.
(** A complete stack with these addresses *)
Definition stack_of (C : econf) (a : addresses) : Prop := exists p ttl sup r size, C = stack_conf a p ttl sup r size.
