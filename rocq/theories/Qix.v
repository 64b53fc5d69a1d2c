(** * Qix: model of the quantum key interface library and of the proxy's key source

    cpp/libs/qix/src/{QIXFrameParser,AsyncQIXFrameReader,QIXFrameWriter,QIXKeyStore}.cpp and
    cpp/exe/proxy/src/qkd/QIXQKDSource.cpp, with cpp/libs/ssp21/src/crypto/KeyRecord.cpp.

    Not modelled: the serial port settings, logging, the metrics of FrameHandler::handle
    (QIXQKDSource.cpp:93-122). *)
From Verif Require Import Base Crc Codec Link.

(** ** Frames *)

(** QIXFrame.h:13-17 *)
Inductive qstatus := q_ok | q_compromised | q_undefined.
(** QIXFrame.h:21-23.  [key_data] points into the buffer of the parser; it is copied before the
    next read (QIXKeyStore.cpp:21, KeyRecord.cpp:18), so it is modelled by its bytes. *)
Record qframe := { q_id : N; q_key : list N; q_status : qstatus }.

(** QIXFrameParser.h:14-27 *)
Definition q_sync1 : N := 0x5A.
Definition q_sync2 : N := 0xA5.
Definition q_crc_size : nat := 41.
Definition q_frame_size : nat := 47.

(** QIXFrameWriter.cpp:33-56 write: the bytes given to the port, or an exception.  The status of
    the frame is ignored. *)
Definition qix_write (f : qframe) : option (list N) :=
  if length (q_key f) =? 32 then
    let body := be_bytes 8 (q_id f) ++ q_key f ++ [0x01%N] in
    Some ([q_sync1; q_sync2] ++ body ++ be_bytes 4 (crc32 body))
  else None.

(** QIXFrameParser.cpp:88-109 find_sync: how many bytes are discarded *)
Fixpoint find_sync (input : list N) : nat :=
  match input with
  | [] => 0
  | [a] => if (a =? q_sync1)%N then 0 else 1
  | a :: ((b :: _) as rest) => if ((a =? q_sync1) && (b =? q_sync2))%N then 0 else S (find_sync rest)
  end.

(** QIXFrameParser.cpp:63-73 get_status *)
Definition get_status (v : N) : qstatus :=
  if (v =? 0x01)%N then q_ok else if (v =? 0xFF)%N then q_compromised else q_undefined.

(** QIXFrameParser.h:57-58 *)
Record qparser := { qp_buffered : nat; qp_buffer : list N }.

(** [buffer.as_wseq().copy_from(remainder)] where [remainder] is the buffer without its first [d]
    bytes (QIXFrameParser.cpp:34).  ser4cpp has copy_from (memcpy) and move_from (memmove); with
    [strict] the copy is undefined when source and destination overlap, without it the bytes are
    moved. *)
Definition copy_down (strict : bool) (buf : list N) (d : nat) : outcome (list N) :=
  let n := length buf - d in
  if strict && (0 <? d) && (d <? n) then UB else Ok (skipn d buf ++ skipn n buf).

(** QIXFrameParser.cpp:52-61 read_frame_fields *)
Definition read_fields (buf : list N) : qframe :=
  let payload := skipn 2 buf in
  let after_id := skipn 8 payload in
  {| q_id := be_value (firstn 8 payload); q_key := firstn 32 after_id; q_status := get_status (hd 0%N (skipn 32 after_id)) |}.

(** QIXFrameParser.cpp:19-50 parse, with 75-86 calc_frame_crc and read_frame_crc.  The buffer has 47
    bytes, so none of the reads is out of bounds. *)
Definition qix_parse (strict : bool) (p : qparser) : outcome (option qframe * qparser) :=
  let discarded := find_sync (qp_buffer p) in
  let remaining := length (qp_buffer p) - discarded in
  if remaining <? q_frame_size then
    let* buf := copy_down strict (qp_buffer p) discarded in
    Ok (None, {| qp_buffered := remaining; qp_buffer := buf |})
  else
    let calc := crc32 (firstn q_crc_size (skipn 2 (qp_buffer p))) in
    let actual := be_value (firstn 4 (skipn (2 + q_crc_size) (qp_buffer p))) in
    let p' := {| qp_buffered := 0; qp_buffer := qp_buffer p |} in
    if (calc =? actual)%N then Ok (Some (read_fields (qp_buffer p)), p') else Ok (None, p').

(** ** The reader *)

(** AsyncQIXFrameReader.cpp:13-31 State with the [dest] of the read in progress (33-68: a slice
    of the buffer from [qr_dest] to its end); [qr_running]: a read is in progress *)
Record qreader := { qr_parser : qparser; qr_dest : nat; qr_running : bool }.

(** AsyncQIXFrameReader.cpp:70-91: the first read *)
Definition new_reader (buf : list N) : qreader :=
  {| qr_parser := {| qp_buffered := 0; qp_buffer := buf |}; qr_dest := 0; qr_running := true |}.

(** What the port answers to async_read_some: some bytes, or an error *)
Inductive port := Data (bytes : list N) | Failed.

(** AsyncQIXFrameReader.cpp:33-68 read_some: the callback.  Only frames with status ok reach the
    handler.  The port never returns more bytes than were asked for; such an answer is undefined here. *)
Definition read_some (strict : bool) (r : qreader) (e : port) : outcome (option qframe * qreader) :=
  if negb (qr_running r) then Ok (None, r)
  else match e with
  | Failed => Ok (None, {| qr_parser := qr_parser r; qr_dest := qr_dest r; qr_running := false |})
  | Data bytes =>
      match buf_write (qp_buffer (qr_parser r)) (qr_dest r) bytes with
      | None => UB
      | Some buf =>
          let p := {| qp_buffered := qp_buffered (qr_parser r); qp_buffer := buf |} in
          if qr_dest r + length bytes <? length buf
          then Ok (None, {| qr_parser := p; qr_dest := qr_dest r + length bytes; qr_running := true |})
          else
            let* (f, p') := qix_parse strict p in
            Ok (match f with Some fr => match q_status fr with q_ok => Some fr | _ => None end | None => None end,
                {| qr_parser := p'; qr_dest := qp_buffered p'; qr_running := true |})
      end
  end.

(** All answers of the port, and the frames given to the handler *)
Fixpoint read_all (strict : bool) (r : qreader) (es : list port) : outcome (list qframe * qreader) :=
  match es with
  | [] => Ok ([], r)
  | e :: es' =>
      let* (f, r1) := read_some strict r e in
      let* (fs, r2) := read_all strict r1 es' in
      Ok (match f with Some x => x :: fs | None => fs end, r2)
  end.

(** ** The key store *)

(** std::map<uint64_t, shared_ptr<KeyRecord>> as the list of its entries in ascending order of the
    identifiers; the key of a record is null unless it has 32 bytes (KeyRecord.cpp:12-22).  Every
    method holds the mutex for its whole body, so the methods are atomic. *)
Definition key_map := list (N * option (list N)).
Definition make_key (k : list N) : option (list N) := if length k =? 32 then Some k else None.

(** std::map::operator[] with assignment *)
Fixpoint map_put (m : key_map) (id : N) (v : option (list N)) : key_map :=
  match m with
  | [] => [(id, v)]
  | (i, w) :: m' =>
      if (id <? i)%N then (id, v) :: m
      else if (id =? i)%N then (id, v) :: m'
      else (i, w) :: map_put m' id v
  end.
(** std::map::find, std::map::erase *)
Definition map_find (m : key_map) (id : N) : option (option (list N)) :=
  match find (fun e => (fst e =? id)%N) m with Some e => Some (snd e) | None => None end.
Definition map_erase (m : key_map) (id : N) : key_map := filter (fun e => negb (fst e =? id)%N) m.
(** std::map::rbegin *)
Fixpoint map_last (m : key_map) : option (N * option (list N)) :=
  match m with [] => None | [e] => Some e | _ :: m' => map_last m' end.

(** QIXKeyStore.cpp:11-27 add_key *)
Definition add_key (max : nat) (m : key_map) (f : qframe) : key_map :=
  let m1 := match map_last m with Some (hi, _) => if (q_id f <? hi)%N then [] else m | None => m end in
  let m2 := map_put m1 (q_id f) (make_key (q_key f)) in
  if max <? length m2 then tl m2 else m2.

(** QIXKeyStore.cpp:29-39 consume_key *)
Definition consume_key (m : key_map) : option (N * option (list N)) * key_map :=
  match map_last m with None => (None, m) | Some (id, k) => (Some (id, k), map_erase m id) end.

(** QIXKeyStore.cpp:41-52 find_and_consume_key; the result may be null for either reason *)
Definition find_and_consume_key (m : key_map) (id : N) : option (list N) * key_map :=
  match map_find m id with None => (None, m) | Some k => (k, map_erase m id) end.

(** The operations on a store, and what they return *)
Inductive op := Add (f : qframe) | Consume | Find (id : N).
Inductive answer := Done | Record_ (id : N) (key : option (list N)) | Null | Key (key : list N).
Definition do_op (max : nat) (m : key_map) (o : op) : key_map * answer :=
  match o with
  | Add f => (add_key max m f, Done)
  | Consume => match consume_key m with (None, m') => (m', Null) | (Some (id, k), m') => (m', Record_ id k) end
  | Find id => match find_and_consume_key m id with (None, m') => (m', Null) | (Some k, m') => (m', Key k) end
  end.
Fixpoint do_ops (max : nat) (m : key_map) (os : list op) : key_map * list (op * answer) :=
  match os with
  | [] => (m, [])
  | o :: os' => let (m1, a) := do_op max m o in let (m2, h) := do_ops max m1 os' in (m2, (o, a) :: h)
  end.

(** ** The proxy's key source *)

(** QIXQKDSource.h:19-47 FrameHandler: the configured number of subscribers and the stores bound so
    far (std::map<uint16_t, shared_ptr<QIXKeyStore>>: identifier, maximal number of keys, contents) *)
Record subscriber := { sub_id : N; sub_max : nat; sub_keys : key_map }.
Record source := { src_subscribers : N; src_stores : list subscriber }.

(** QIXQKDSource.cpp:217-227 bind_key_store: [None] when it throws *)
Definition bind_key_store (s : source) (modulo : N) (max : nat) : option source :=
  if existsb (fun x => (sub_id x =? modulo)%N) (src_stores s) then None
  else Some {| src_subscribers := src_subscribers s; src_stores := {| sub_id := modulo; sub_max := max; sub_keys := [] |} :: src_stores s |}.

(** QIXQKDSource.cpp:72-91 handle: the key goes to the subscriber [key_id % num_subscribers];
    division by zero is undefined *)
Definition handle (s : source) (f : qframe) : outcome source :=
  match q_status f with
  | q_ok =>
      if negb (length (q_key f) =? 32) then Ok s
      else if (src_subscribers s =? 0)%N then UB
      else
        let id := u16 (q_id f mod src_subscribers s) in
        Ok {| src_subscribers := src_subscribers s;
              src_stores := map (fun x => if (sub_id x =? id)%N then {| sub_id := sub_id x; sub_max := sub_max x; sub_keys := add_key (sub_max x) (sub_keys x) f |} else x)
                              (src_stores s) |}
  | _ => Ok s
  end.

(** What happens at a source: an endpoint binds a store, a frame arrives, an endpoint takes a key from
    its store (through the pointer bind_key_store returned: IKeySource::consume_key or
    IKeyLookup::find_and_consume_key) *)
Inductive sop := Bind (sub : N) (max : nat) | Frame (f : qframe) | Take (sub : N) (o : op).
Inductive sanswer := Bound | Refused | Handled | Took (a : answer) | NoStore.
Definition take (s : source) (sub : N) (o : op) : source * sanswer :=
  match find (fun x => (sub_id x =? sub)%N) (src_stores s) with
  | None => (s, NoStore)
  | Some y =>
      let r := do_op (sub_max y) (sub_keys y) o in
      ({| src_subscribers := src_subscribers s;
          src_stores := map (fun x => if (sub_id x =? sub)%N then {| sub_id := sub_id x; sub_max := sub_max x; sub_keys := fst r |} else x) (src_stores s) |},
       Took (snd r))
  end.
Definition do_sop (s : source) (o : sop) : outcome (source * sanswer) :=
  match o with
  | Bind sub max => match bind_key_store s sub max with None => Ok (s, Refused) | Some s' => Ok (s', Bound) end
  | Frame f => let* s' := handle s f in Ok (s', Handled)
  | Take sub o => Ok (take s sub o)
  end.
Fixpoint do_sops (s : source) (os : list sop) : outcome (source * list (sop * sanswer)) :=
  match os with
  | [] => Ok (s, [])
  | o :: os' => let* (s1, a) := do_sop s o in let* (s2, h) := do_sops s1 os' in Ok (s2, (o, a) :: h)
  end.
(** QIXQKDSource.cpp:61-68 a source before any store is bound *)
Definition new_source (num_subscribers : N) : source := {| src_subscribers := num_subscribers; src_stores := [] |}.
