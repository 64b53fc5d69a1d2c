(** * Stack: model of the complete protocol stack

    cpp/libs/ssp21/src/stack/LinkCryptoStack.h: FullInitiatorStack and FullResponderStack, that is
    the stack object with its own flags (AbstractStack), the link layer and the crypto layer.

    The transport below and the application above see only the stack object.  The model is the
    machine of Endpoint.v whose lower layer is the link layer of LinkLayer.v: a message is taken
    from the link layer, and the notifications of the transport pass through the stack object and the
    link layer before they reach the crypto layer.  What the transport has received and not handed
    over is the queue of the link layer model; bytes may arrive at any time.  is_tx_ready and
    start_tx_from_upper of the link layer are those of the transport (LinkLayer.cpp:52-66), so these
    answers are inputs, as in Endpoint.v; the field [in_message] of an input is not used.

    The link layer calls the crypto layer in tail position (LinkLayer.cpp:15-35), so the effect on the
    link layer and the call of the crypto layer are one step. *)
From Verif Require Import Base Codec Link LinkLayer Primitives Session Handshake Endpoint.

(** LinkCryptoStack.h:13-68 (is_open_flag of the stack object, IUpperLayer.h:125; the flag of
    ILowerLayer.h:106 of the stack object is [ep_proc], see [c_via_stack]), 99-100, 165-166 *)
Record stack := { st_open : bool; st_link : link_layer; st_crypto : endpoint }.

(** LinkCryptoStack.h:72-87, 138-153 with CryptoLayer.cpp:10-24: the configuration of the crypto
    layer in a stack *)
Definition stack_conf (a : addresses) (p : prims) (ttl_pad_ms : N) (sup : supports) (r : role) (payload_size : nat) : econf :=
  {| c_env := {| e_prims := p; e_kind := FLink a; e_max_payload := max_config_payload_size; e_ttl_pad_ms := ttl_pad_ms |};
     c_supports := sup; c_role := r; c_payload_size := payload_size; c_via_stack := true |}.
Definition new_stack (C : econf) (a : addresses) : stack :=
  {| st_open := false; st_link := stack_link a; st_crypto := new_endpoint C |}.

Definition sres := outcome (stack * list instr * list event).

(** A step of the crypto layer *)
Definition crypto_step (C : econf) (open : bool) (l : link_layer) (s : endpoint) (i : instr) (inp : input) : sres :=
  let* (s', pushed, ev) := exec C s i inp in
  Ok ({| st_open := open; st_link := l; st_crypto := s' |}, pushed, ev).

(** A notification of the transport after the stack object (LinkCryptoStack.h:44-62): the link layer,
    and the crypto layer if the link layer calls it *)
Definition through_link (C : econf) (open : bool) (s : stack) (o : ll_op) (c : call) (inp : input) : sres :=
  let* (l, out) := ll_step (st_link s) o in
  match out with
  | [] => Ok ({| st_open := open; st_link := l; st_crypto := st_crypto s |}, [], [])
  | _ :: _ => crypto_step C open l (st_crypto s) (ICall c) inp
  end.

(** What the link layer returns to the crypto layer *)
Definition with_message (inp : input) (m : list N) : input :=
  {| in_now := in_now inp; in_now2 := in_now2 inp; in_ready := in_ready inp; in_message := m; in_started := in_started inp;
     in_calls := in_calls inp; in_answers := in_answers inp; in_ianswers := in_ianswers inp; in_scratch := in_scratch inp |}.
(** CryptoLayer.cpp:130-141: whether try_read_one_from_lower calls lower->start_rx_from_upper() *)
Definition reads_link (s : endpoint) (inp : input) : bool :=
  in_ready inp && match ep_payload s with None => true | Some _ => false end.

Definition stack_exec (C : econf) (s : stack) (i : instr) (inp : input) : sres :=
  match i with
  (* IUpperLayer.h:26-84 for the stack object *)
  | ICall LowerOpen => if st_open s then Ok (s, [], []) else through_link C true s LOpen LowerOpen inp
  | ICall LowerClose => if st_open s then through_link C false s LClose LowerClose inp else Ok (s, [], [])
  | ICall LowerTxReady =>
      (* the transport is ready again, whether it is open or not *)
      if st_open s then through_link C true s LTxReady LowerTxReady inp
      else Ok ({| st_open := false; st_link := st_link s; st_crypto := set_busy (st_crypto s) false |}, [], [])
  | ICall LowerRxReady => if st_open s then through_link C true s LRxReady LowerRxReady inp else Ok (s, [], [])
  | ITryRead =>
      if reads_link (st_crypto s) inp then
        let* (m, l) := ll_start_rx (st_link s) in
        crypto_step C (st_open s) l (st_crypto s) ITryRead (with_message inp m)
      else crypto_step C (st_open s) (st_link s) (st_crypto s) ITryRead (with_message inp [])
  | _ => crypto_step C (st_open s) (st_link s) (st_crypto s) i (with_message inp [])
  end.

(** Labels: bytes arrive at the transport; otherwise as in Endpoint.v *)
Inductive slabel := SArrive (chunk : list N) | SLab (l : label).
Definition sconfig := (stack * list instr)%type.
Definition arrive_link (l : link_layer) (chunk : list N) : link_layer :=
  {| ll_local := ll_local l; ll_remote := ll_remote l; ll_open := ll_open l; ll_processing := ll_processing l;
     ll_remainder := ll_remainder l; ll_parser := ll_parser l; ll_rx_queue := ll_rx_queue l ++ [chunk] |}.

Definition stack_step (C : econf) (k : sconfig) (l : slabel) : outcome (sconfig * list event) :=
  let s := fst k in
  match l, snd k with
  | SArrive chunk, stk => Ok (({| st_open := st_open s; st_link := arrive_link (st_link s) chunk; st_crypto := st_crypto s |}, stk), [])
  | SLab (Ext e), [] =>
      let (c, stk) := inject (st_crypto s) e in
      Ok (({| st_open := st_open s; st_link := st_link s; st_crypto := c |}, stk), [])
  | SLab (Run inp), i :: rest => let* (s', pushed, ev) := stack_exec C s i inp in Ok ((s', pushed ++ rest), ev)
  | _, _ => Ok (k, [])
  end.

Fixpoint stack_run (C : econf) (k : sconfig) (ls : list slabel) : outcome (sconfig * list event) :=
  match ls with
  | [] => Ok (k, [])
  | l :: ls' =>
      let* (k1, e1) := stack_step C k l in
      let* (k2, e2) := stack_run C k1 ls' in
      Ok (k2, e1 ++ e2)
  end.
