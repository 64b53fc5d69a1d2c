(** * QixSpec: what the properties of the quantum key library mean *)
From Verif Require Import Base Crc Link Qix.

(** A frame on the wire: start bytes, identifier, key, status, CRC of what precedes but the start bytes *)
Definition wire (id : N) (key : list N) (status : N) : list N :=
  [0x5A; 0xA5]%N ++ be_bytes 8 id ++ key ++ [status] ++ be_bytes 4 (crc32 (be_bytes 8 id ++ key ++ [status])).
Definition well_formed (f : qframe) : Prop := (q_id f < 2 ^ 64)%N /\ length (q_key f) = 32 /\ bytes_ok (q_key f) /\ q_status f = q_ok.
Definition wire_of (f : qframe) : list N := wire (q_id f) (q_key f) 1.

(** The stream contains these frames, in this order, without overlap *)
Inductive contains : list N -> list qframe -> Prop :=
| contains_nil s : contains s []
| contains_cons g f s fs : well_formed f -> contains s fs -> contains (g ++ wire_of f ++ s) (f :: fs).

(** Does a sequence start like a frame, as far as can be seen? *)
Definition starts (l : list N) : Prop := match l with [] => False | [a] => a = 0x5A%N | a :: b :: _ => a = 0x5A%N /\ b = 0xA5%N end.

(** The documented algorithm on a whole stream: look at 47 bytes; if they do not start like a
    frame, drop what precedes the first place where they do; if they do, the frame is
    delivered if its CRC is right, and the 47 bytes are consumed.
    [reads s fs rest]: from the stream [s] the frames [fs] are delivered, and [rest] remains. *)
Definition frame_ok (w : list N) : Prop := be_value (skipn 43 w) = crc32 (firstn 41 (skipn 2 w)).
Definition frame_of (w : list N) : qframe :=
  {| q_id := be_value (firstn 8 (skipn 2 w)); q_key := firstn 32 (skipn 10 w); q_status := get_status (nth 42 w 0%N) |}.
Inductive reads : list N -> list qframe -> list N -> Prop :=
| reads_short s : length s < 47 -> reads s [] s
| reads_skip d w s fs rest : length w = 47 -> 0 < d <= 47 ->
    (forall i, i < d -> ~ starts (skipn i w)) -> d = 47 \/ starts (skipn d w) ->
    reads (skipn d w ++ s) fs rest -> reads (w ++ s) fs rest
| reads_bad w s fs rest : length w = 47 -> starts w -> ~ frame_ok w -> reads s fs rest -> reads (w ++ s) fs rest
| reads_good w s fs rest : length w = 47 -> starts w -> frame_ok w -> reads s fs rest -> reads (w ++ s) (frame_of w :: fs) rest.

Definition usable (f : qframe) : bool := match q_status f with q_ok => true | _ => false end.
(** The bytes the port delivered before its first error *)
Fixpoint stream (es : list port) : list N :=
  match es with [] => [] | Data b :: es' => b ++ stream es' | Failed :: _ => [] end.

Definition no_error (es : list port) : Prop := Forall (fun e => e <> Failed) es.
(** The port never returns more bytes than it was asked for *)
Fixpoint within (r : qreader) (es : list port) : Prop :=
  match es with
  | [] => True
  | e :: es' => match e with Data b => length b <= length (qp_buffer (qr_parser r)) - qr_dest r | Failed => True end /\
                forall f r1, read_some false r e = Ok (f, r1) -> within r1 es'
  end.
(** Frames one after the other, with anything between them that does not contain the first start byte *)
Inductive spaced : list N -> list qframe -> Prop :=
| spaced_nil g : ~ In 0x5A%N g -> spaced g []
| spaced_cons g f s fs : ~ In 0x5A%N g -> well_formed f -> spaced s fs -> spaced (g ++ wire_of f ++ s) (f :: fs).
(** The start bytes occur in the frame at its start only *)
Definition quiet (f : qframe) : Prop := forall i, 0 < i -> nth i (wire_of f) 0%N = 0x5A%N -> nth (S i) (wire_of f) 0%N <> 0xA5%N.
Definition suffix {A} (a b : list A) : Prop := exists pre, b = pre ++ a.

(** ** The key store: what the answers mean, in terms of the operations before *)
Definition adds (id : N) (o : op) : bool := match o with Add f => (q_id f =? id)%N | _ => false end.
(** The identifier and key an operation handed out *)
Definition handed (x : op * answer) : option (N * list N) :=
  match x with
  | (Consume, Record_ id (Some k)) => Some (id, k)
  | (Find id, Key k) => Some (id, k)
  | _ => None
  end.
(** The key added last under an identifier *)
Fixpoint last_added (os : list op) (id : N) (d : option (list N)) : option (list N) :=
  match os with
  | [] => d
  | Add f :: os' => last_added os' id (if (q_id f =? id)%N then Some (q_key f) else d)
  | _ :: os' => last_added os' id d
  end.

(** What a store would answer if asked for this identifier now *)
Definition would_find (m : key_map) (id : N) : option (list N) :=
  match snd (do_op 0 m (Find id)) with Key k => Some k | _ => None end.
(** Every key that is added has 32 bytes, as the parser and the proxy guarantee *)
Definition adds32 (os : list op) : Prop := Forall (fun o => match o with Add f => length (q_key f) = 32 | _ => True end) os.

(** ** The source *)
(** The subscriber and the key an operation handed out *)
Definition shanded (x : sop * sanswer) : option (N * N * list N) :=
  match x with
  | (Take sub o, Took a) => match handed (o, a) with Some (id, k) => Some (sub, id, k) | None => None end
  | _ => None
  end.
(** Endpoints only take keys; keys are added by frames *)
Definition takes_only (os : list sop) : Prop := Forall (fun o => match o with Take _ (Add _) => False | _ => True end) os.

(** A frame that carries a key with this identifier *)
Definition carries (id : N) (o : sop) : bool :=
  match o with Frame f => usable f && (length (q_key f) =? 32) && (q_id f =? id)%N | _ => false end.
(** The key of the last such frame *)
Fixpoint last_carried (os : list sop) (id : N) (d : option (list N)) : option (list N) :=
  match os with
  | [] => d
  | o :: os' => last_carried os' id (match o with Frame f => if carries id o then Some (q_key f) else d | _ => d end)
  end.
