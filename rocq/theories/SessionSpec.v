(** * SessionSpec: histories of a session and what is observed *)
From Verif Require Import Base Codec CodecSpec Link LinkSpec LinkLayer Primitives Session.

(** The calls a session receives after it has been initialized. *)
Inductive sop :=
| SValidateAuth (m : SessionData) (now : Z)
| SValidateData (m : SessionData) (now : Z)
| SFormatAuth (clear : list N) (now : Z)
| SFormatData (clear : list N) (now : Z).

(** What the caller sees. *)
Inductive sevent :=
| EvAuth (m : SessionData) (payload : list N) (now : Z)      (** authentication message accepted *)
| EvData (m : SessionData) (payload : list N) (now : Z)      (** data message accepted *)
| EvRejected (m : SessionData) (e : serr) (now : Z)          (** message rejected *)
| EvSent (frame : list N) (clear rest : list N) (now : Z)    (** frame produced from clear, rest is left *)
| EvNotSent (e : serr) (clear rest : list N) (now : Z).      (** no frame produced *)

Definition sstep (E : senv) (cap : nat) (s : session) (o : sop) : outcome (session * sevent) :=
  match o with
  | SValidateAuth m now =>
      let* (r, s', _) := validate_session_auth E s m now cap in
      Ok (s', match r with inl p => EvAuth m p now | inr e => EvRejected m e now end)
  | SValidateData m now =>
      let* (r, s', _) := validate_session_data E s m now cap in
      Ok (s', match r with inl p => EvData m p now | inr e => EvRejected m e now end)
  | SFormatAuth clear now =>
      let* (r, rest, s') := format_session_auth E s now clear in
      Ok (s', match r with inl f => EvSent f clear rest now | inr e => EvNotSent e clear rest now end)
  | SFormatData clear now =>
      let* (r, rest, s') := format_session_data E s now clear in
      Ok (s', match r with inl f => EvSent f clear rest now | inr e => EvNotSent e clear rest now end)
  end.
Fixpoint srun (E : senv) (cap : nat) (s : session) (ops : list sop) : outcome (session * list sevent) :=
  match ops with
  | [] => Ok (s, [])
  | o :: ops' =>
      let* (s1, e) := sstep E cap s o in
      let* (s2, es) := srun E cap s1 ops' in
      Ok (s2, e :: es)
  end.

(** A session right after a successful initialization. *)
Definition fresh (s : session) : Prop :=
  exists s0 nm cm p k, initialize s0 nm cm p k = (true, s, [st_init]) /\ (p_max_nonce p < 65536)%N.

(** Nonces of the data messages that were authenticated and let through, in order: those
    delivered and those dropped only because they carry no user data. *)
Definition data_nonces (es : list sevent) : list N :=
  flat_map (fun e => match e with
    | EvData m _ _ | EvRejected m e_empty_user_data _ => [am_nonce (sd_metadata m)]
    | _ => [] end) es.
Definition auth_nonces (es : list sevent) : list N :=
  flat_map (fun e => match e with EvAuth m _ _ => [am_nonce (sd_metadata m)] | _ => [] end) es.
(** User data delivered. *)
Definition delivered (es : list sevent) : list (list N) :=
  flat_map (fun e => match e with EvData _ p _ => [p] | _ => [] end) es.
Definition sent_frames (es : list sevent) : list (list N) :=
  flat_map (fun e => match e with EvSent f _ _ _ => [f] | _ => [] end) es.
(** The part of the cleartext each frame consumed. *)
Definition sent_chunks (es : list sevent) : list (list N) :=
  flat_map (fun e => match e with EvSent _ clear rest _ => [firstn (length clear - length rest) clear] | _ => [] end) es.

(** Strictly increasing, starting above [r]. *)
Fixpoint above (r : N) (l : list N) : Prop :=
  match l with [] => True | n :: l' => (r < n)%N /\ above n l' end.
(** Consecutive, starting at [r + 1]. *)
Fixpoint consecutive (r : N) (l : list N) : Prop :=
  match l with [] => True | n :: l' => n = (r + 1)%N /\ consecutive n l' end.

(** The frame that carries a message: its wire encoding, inside a link frame if there is a link
    layer. *)
Definition frame_of (kind : frame_kind) (payload : list N) : list N :=
  match kind with
  | FLink a => frame_bytes {| f_destination := a_destination a; f_source := a_source a; f_payload := payload |}
  | FRaw => payload
  end.

(** [frame] carries a well-formed session message with this metadata, which opens under this key
    to [chunk] (for a receiver whose destination buffer is large enough). *)
Definition carries (E : senv) (mode : SessionCryptoMode) (key : list N) (frame : list N)
  (md : AuthMetadata) (chunk : list N) : Prop :=
  exists m, session_data_ok m /\ sd_metadata m = md /\ frame = frame_of (e_kind E) (wire_session_data m) /\
    (N.of_nat (length (sd_user_data m)) < 65536)%N /\
    forall cap, length (sd_user_data m) <= cap -> (N.of_nat cap < 65536)%N ->
      mode_read (e_prims E) mode key m cap = Ok (inl chunk).

(** Cleartexts are byte strings. *)
Definition sop_bytes (o : sop) : Prop :=
  match o with SFormatAuth clear _ | SFormatData clear _ => bytes_ok clear | _ => True end.

(** What a session sent: for each frame, its metadata and its user data. *)
Definition sent_log (E : senv) (s : session) (es : list sevent) (log : list (AuthMetadata * list N)) : Prop :=
  Forall2 (fun f mc => carries E (s_crypto_mode s) (k_tx (s_keys s)) f (fst mc) (snd mc)) (sent_frames es) log.

Inductive subseq {A} : list A -> list A -> Prop :=
| subseq_nil l : subseq [] l
| subseq_take x l l' : subseq l l' -> subseq (x :: l) (x :: l')
| subseq_skip x l l' : subseq l l' -> subseq l (x :: l').

(** The messages presented to the receiver. *)
Definition presented (ops : list sop) : list SessionData :=
  flat_map (fun o => match o with SValidateAuth m _ | SValidateData m _ => [m] | _ => [] end) ops.

Definition nonempty (l : list N) : bool := match l with [] => false | _ => true end.

(** A buffer is transmitted by formatting until nothing is left. *)
Inductive transmits (E : senv) : session -> list N -> list (list N) -> session -> Prop :=
| transmits_done s : transmits E s [] [] s
| transmits_step s now clear frame rest s1 frames s2 :
    clear <> [] -> format_session_data E s now clear = Ok (inl frame, rest, s1) ->
    transmits E s1 rest frames s2 -> transmits E s clear (frame :: frames) s2.

(** The data messages let through (delivered, or dropped only because they carry no user data):
    nonce and user data. *)
Definition accepted (es : list sevent) : list (N * list N) :=
  flat_map (fun e => match e with
    | EvData m p _ => [(am_nonce (sd_metadata m), p)]
    | EvRejected m e_empty_user_data _ => [(am_nonce (sd_metadata m), [])]
    | _ => [] end) es.

(** The AEAD was not forged: every message presented to the receiver that opens under the
    receiver's key has the metadata and the user data of a frame the sender sent. *)
Definition unforged (EA EB : senv) (mode : SessionCryptoMode) (key : list N) (capB : nat) (esA : list sevent) (opsB : list sop) : Prop :=
  forall m p, In m (presented opsB) -> mode_read (e_prims EB) mode key m capB = Ok (inl p) ->
    exists f, In f (sent_frames esA) /\ carries EA mode key f (sd_metadata m) p.

(** The valid-until time of a produced frame, in nanoseconds after the start of the session. *)
Definition valid_until (md : AuthMetadata) : Z := (Z.of_N (am_valid_until_ms md) * 1000000)%Z.

(** An event happens while the session lasts, and not after the time to live of the message. *)
Definition within (s : session) (e : sevent) : Prop :=
  let elapsed now := (now - p_start (s_param s))%Z in
  match e with
  | EvAuth m _ now | EvData m _ now =>
      (0 <= elapsed now <= p_max_time (s_param s))%Z /\ (elapsed now <= valid_until (sd_metadata m))%Z
  | EvSent f _ _ now => (0 <= elapsed now <= p_max_time (s_param s))%Z
  | _ => True
  end.

(** The conditions under which a session has something to say. *)
Definition can_send (E : senv) (s : session) (now : Z) : Prop :=
  s_valid s = true /\ length (k_tx (s_keys s)) = 32 /\ (p_start (s_param s) <= now)%Z /\
  (now - p_start (s_param s) + ms (e_ttl_pad_ms E) <= p_max_time (s_param s))%Z /\
  (s_tx_nonce s < p_max_nonce (s_param s))%N.

(** The initialization vector AES-GCM uses for a message nonce: ten zero bytes and the nonce. *)
Definition gcm_iv (nonce : N) : list N := repeat 0%N 10 ++ be_bytes 2 nonce.
(** How user data is protected: the ciphertext and the authentication tag. *)
Definition protected (P : prims) (mode : SessionCryptoMode) (key : list N) (md : AuthMetadata) (chunk : list N) : list N * list N :=
  match mode with
  | hmac_sha256_16 => (chunk, firstn 16 (p_hmac P key (wire_metadata md ++ be_bytes 2 (N.of_nat (length chunk)) ++ chunk)))
  | aes_256_gcm => p_gcm_encrypt P key (gcm_iv (am_nonce md)) (wire_metadata md) chunk
  end.
(** The message that protects [chunk]. *)
Definition protected_message (P : prims) (mode : SessionCryptoMode) (key : list N) (md : AuthMetadata) (chunk : list N) : SessionData :=
  {| sd_metadata := md; sd_user_data := fst (protected P mode key md chunk); sd_auth_tag := snd (protected P mode key md chunk) |}.
