(** * UdpProxySpec: what an observer of the UDP proxy can say, from the events alone *)
From Verif Require Import Base Proxy UdpProxy.

(** The sessions started and destroyed, in order; the session started last *)
Definition started (l : list uev) : list N := flat_map (fun e => match e with UStarted i => [i] | _ => [] end) l.
Definition gone (l : list uev) : list N := flat_map (fun e => match e with UDestroyed i => [i] | _ => [] end) l.
Definition latest (l : list uev) : option N := last (map Some (started l)) None.

(** The sessions whose socket of this side is bound *)
Definition same_side (x y : side) : bool := match x, y with Lower, Lower | Upper, Upper => true | _, _ => false end.
Definition binding (x : side) (holders : list N) (e : uev) : list N :=
  match e with
  | UBound i y => if same_side x y then holders ++ [i] else holders
  | UClosed i y => if same_side x y then filter (fun j => negb (j =? i)%N) holders else holders
  | _ => holders
  end.
Definition holding (x : side) (l : list uev) : list N := fold_left (binding x) l [].

(** An operation of this kind succeeded; the handshake of the session succeeded *)
Definition worked (l : list uev) (id : N) (x : side) (d : way) : Prop := In (UDone id x d true) l.
Definition uestablished (l : list uev) (id : N) : Prop := In (UUp id) l.

(** Another operation of the session is not completed *)
Definition uothers (id : N) (x : side) (d : way) (s : udp) : Prop := exists y e, (y, e) <> (x, d) /\ In (id, y, e) (upend s).

(** The proxy after some history *)
Definition ureachable (s : udp) : Prop := exists s0 es, started_udp = UGood s0 /\ usteps s0 es = UGood s.

(** The situations in which the proxy fails:
    - an operation fails on the unprotected side of the current session, and one of this kind succeeded before;
    - an operation fails on the protected side of the current session after its handshake succeeded, one of this kind
      succeeded before, and no other operation of the session is pending. *)
Definition uhazard (s : udp) (e : uin) : Prop :=
  match e with
  | UCompleted id Upper d false => In (id, Upper, d) (upend s) /\ latest (ulog s) = Some id /\ worked (ulog s) id Upper d
  | UCompleted id Lower d false => In (id, Lower, d) (upend s) /\ latest (ulog s) = Some id /\ worked (ulog s) id Lower d /\
      uestablished (ulog s) id /\ ~ uothers id Lower d s
  | _ => False
  end.
