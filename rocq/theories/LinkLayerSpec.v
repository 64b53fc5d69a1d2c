(** * LinkLayerSpec: what is observed at the link layer *)
From Verif Require Import Base Codec Link LinkSpec LinkLayer.

(** All bytes the transport received, in order. *)
Definition arrivals (ops : list ll_op) : list N :=
  flat_map (fun o => match o with LArrive ch => ch | _ => [] end) ops.
(** All payloads handed to the layer above, in order. *)
Definition deliveries (outs : list ll_out) : list (list N) :=
  flat_map (fun o => match o with Data d => [d] | _ => [] end) outs.
(** Received data consists of bytes. *)
Definition op_ok (o : ll_op) : Prop := match o with LArrive ch => bytes_ok ch | _ => True end.
