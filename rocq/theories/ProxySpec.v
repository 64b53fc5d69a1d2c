(** * ProxySpec: what an observer of the TCP proxy can say, from the events alone *)
From Verif Require Import Base Proxy.

(** The sessions that were added, removed and destroyed, in order *)
Definition added (l : list pev) : list N := flat_map (fun e => match e with PAdded i => [i] | _ => [] end) l.
Definition removed (l : list pev) : list N := flat_map (fun e => match e with PRemoved i => [i] | _ => [] end) l.
Definition destroyed (l : list pev) : list N := flat_map (fun e => match e with PDestroyed i => [i] | _ => [] end) l.

(** The sessions the proxy has: added and not removed, the oldest first *)
Definition current (l : list pev) : list N := filter (fun i => negb (existsb (N.eqb i) (removed l))) (added l).

(** The number of sessions allowed *)
Definition allowed (max : N) : nat := Nat.max 1 (N.to_nat max).

(** The other operations of a session that the sockets have not completed *)
Definition others (id : N) (x : side) (d : way) (s : proxy) : Prop :=
  exists y e, (y, e) <> (x, d) /\ In (id, y, e) (pending s).

(** The proxy after some history *)
Definition reachable (max : N) (s : proxy) : Prop := exists es, steps (new_proxy max) es = Good s.

(** The handshake of the session succeeded and its connections were not closed *)
Definition established (s : proxy) (id : N) : Prop := exists o, lookup id (objects s) = Some o /\ app_on o = true.

(** The two situations in which the proxy uses something that no longer exists:
    - a connection arrives while the proxy is full and the handshake of its oldest session succeeded;
    - the last operation of a session whose handshake succeeded fails on its protocol side. *)
Definition hazard (s : proxy) (e : pin) : Prop :=
  match e with
  | Connected => connecting s <> 0 /\ N.of_nat (length (sessions s)) = max_sessions s /\ exists id r, sessions s = id :: r /\ established s id
  | Completed id Lower d false => In (id, Lower, d) (pending s) /\ established s id /\ ~ others id Lower d s
  | _ => False
  end.
