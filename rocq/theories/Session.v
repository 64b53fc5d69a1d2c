(** * Session: model of sessions, session modes and nonces *)
From Verif Require Import Base Codec Link LinkLayer Primitives.

(** The error codes the session code produces: ssp21/crypto/gen/CryptoError.h and FormatError. *)
Inductive serr :=
| e_no_valid_session | e_bad_buffer_size | e_bad_length | e_mac_auth_fail | e_aead_decrypt_fail
| e_clock_rollback | e_max_session_time_exceeded | e_expired_ttl | e_max_nonce_exceeded
| e_nonce_replay | e_empty_user_data | e_format.

(** include/ssp21/crypto/Statistics.h:23-30: the counters that a call increments. *)
Inductive stat := st_init | st_no_session | st_auth_fail | st_ttl_expiration | st_nonce_fail | st_success.

(** ** Time.  exe4cpp::steady_time_t is std::chrono::steady_clock::time_point, exe4cpp::duration_t
    its duration: a count of nanoseconds, modelled in Z (no 64-bit overflow). *)
Definition ms (n : N) : Z := (Z.of_N n * 1000000)%Z.
(** std::chrono::duration_cast<milliseconds>(d).count(), for d >= 0 *)
Definition to_ms (d : Z) : N := Z.to_N (d / 1000000).

(** ** Nonces: NonceFunctions.h:19-37; Nonce.h:13-16 (uint16_t wraps) *)
Definition verify_strict_increment (last new : N) : bool :=
  if (last =? 65535)%N then false else (new =? last + 1)%N.
Definition verify_greater_than_last (last new : N) : bool := (last <? new)%N.
Definition equal_to_zero (last new : N) : bool := ((last =? 0) && (new =? 0))%N.
Definition nonce_increment (n : N) : N := u16 (n + 1).
(** Algorithms.cpp:10-19 *)
Definition verify_nonce (m : SessionNonceMode) : N -> N -> bool :=
  match m with strict_increment => verify_strict_increment | greater_than_last_rx => verify_greater_than_last end.

(** ** Session modes *)

(** Backend.cpp:63-70 secure_equals; sodium_memcmp compares the bytes. *)
Definition secure_equals (a b : list N) : bool := if length a =? length b then bytes_eqb a b else false.

Definition symmetric_key_length : nat := 32.
Definition trunc16 : nat := 16.
Definition aes_gcm_tag_length : nat := 16.

(** MacAdapters.h:38-39 and 73-74: the pieces the MAC is computed over *)
Definition mac_input (ad : list N) (data : list N) : list N :=
  ad ++ be_bytes 2 (u16 (N.of_nat (length data))) ++ data.

(** Backend.cpp:40-51 GCMNonceBuffer::set *)
Definition gcm_nonce (nonce : N) : list N := repeat 0%N 10 ++ be_bytes 2 nonce.

(** MacAdapters.h:17-44 aead_mac_encrypt (hmac_sha256, truncated to 16) and Backend.cpp:152-177
    aes256_gcm_encrypt.  [cap] is the length of the encryption buffer; GCM writes
    length(cleartext) bytes there without looking at its length. *)
Definition aead_encrypt (P : prims) (mode : SessionCryptoMode) (key : list N) (nonce : N) (ad cleartext : list N)
  (cap : nat) : outcome ((list N * list N) + serr) :=
  match mode with
  | hmac_sha256_16 =>
      if (65535 <? N.of_nat (length cleartext))%N then Ok (inr e_bad_length)
      else Ok (inl (cleartext, firstn trunc16 (p_hmac P key (mac_input ad cleartext))))
  | aes_256_gcm =>
      if cap <? length cleartext then UB
      else Ok (inl (p_gcm_encrypt P key (gcm_nonce nonce) ad cleartext))
  end.

(** MacAdapters.h:48-84 aead_mac_decrypt and Backend.cpp:179-200 aes256_gcm_decrypt.  [cap] is
    the length of the destination.  GCM reads 16 bytes at the tag and writes length(ciphertext)
    bytes to the destination, whatever their lengths: undefined behaviour when they are shorter. *)
Definition aead_decrypt (P : prims) (mode : SessionCryptoMode) (key : list N) (nonce : N) (ad ciphertext tag : list N)
  (cap : nat) : outcome (list N + serr) :=
  match mode with
  | hmac_sha256_16 =>
      if (65535 <? N.of_nat cap)%N then Ok (inr e_bad_length)
      else if secure_equals (firstn trunc16 (p_hmac P key (mac_input ad ciphertext))) tag
           then Ok (inl ciphertext) else Ok (inr e_mac_auth_fail)
  | aes_256_gcm =>
      if (length tag <? aes_gcm_tag_length) || (cap <? length ciphertext) then UB
      else match p_gcm_decrypt P key (gcm_nonce nonce) ad ciphertext (firstn aes_gcm_tag_length tag) with
           | Some d => Ok (inl d)
           | None => Ok (inr e_aead_decrypt_fail)
           end
  end.

(** SessionMode.cpp:26-31 get_metadata_bytes: the 6 bytes metadata.write produces *)
Definition metadata_bytes (m : AuthMetadata) : list N :=
  match metadata_write m 6 with WOk b => b | WErr => [] end.

(** SessionMode.cpp:46-57 SessionMode::read *)
Definition mode_read (P : prims) (mode : SessionCryptoMode) (key : list N) (msg : SessionData) (cap : nat)
  : outcome (list N + serr) :=
  if negb (length key =? symmetric_key_length) then Ok (inr e_bad_buffer_size)
  else aead_decrypt P mode key (am_nonce (sd_metadata msg)) (metadata_bytes (sd_metadata msg))
         (sd_user_data msg) (sd_auth_tag msg) cap.

(** SessionMode.cpp:13-24 calc_user_data_tx_length with max_frame_payload = 1024 (line 72) *)
Definition calc_user_data_tx_length (total encrypt_buffer_len max_frame_payload : N) : N :=
  u16 (N.min (N.min (N.min total encrypt_buffer_len) max_frame_payload) 65535).

(** SessionMode.cpp:59-92 SessionMode::write: the message, or an error, and the user data left
    (the argument is advanced only on success). *)
Definition mode_write (P : prims) (mode : SessionCryptoMode) (key : list N) (metadata : AuthMetadata)
  (user_data : list N) (cap : nat) : outcome ((SessionData + serr) * list N) :=
  if negb (length key =? symmetric_key_length) then Ok (inr e_bad_buffer_size, user_data)
  else if cap =? 0 then Ok (inr e_bad_buffer_size, user_data)
  else
    let n := N.to_nat (calc_user_data_tx_length (N.of_nat (length user_data)) (N.of_nat cap) 1024) in
    let* r := aead_encrypt P mode key (am_nonce metadata) (metadata_bytes metadata) (firstn n user_data) cap in
    match r with
    | inr e => Ok (inr e, user_data)
    | inl (ciphertext, tag) =>
        Ok (inl {| sd_metadata := metadata; sd_user_data := ciphertext; sd_auth_tag := tag |}, skipn n user_data)
    end.

(** ** Session *)

(** Session.h:25-43 Session::Param *)
Record param := { p_start : Z; p_max_nonce : N; p_max_time : Z }.
(** BufferTypes.h:106-126 SessionKeys; a key is its bytes (as_seq) *)
Record keys := { k_rx : list N; k_tx : list N }.
Definition keys_valid (k : keys) : bool := (length (k_rx k) =? 32) && (length (k_tx k) =? 32).

(** Session.h:91-103.  The contents of encrypt_buffer between calls do not matter (each call
    overwrites what it uses); its capacity is a function of the frame writer. *)
Record session := {
  s_valid : bool; s_rx_nonce : N; s_tx_nonce : N; s_keys : keys;
  s_nonce_mode : SessionNonceMode; s_crypto_mode : SessionCryptoMode; s_param : param }.

(** Session.h:39-42, Constants.h:45-48, Algorithms.h:32-33: the default member values *)
Definition new_session : session :=
  {| s_valid := false; s_rx_nonce := 0; s_tx_nonce := 0; s_keys := {| k_rx := []; k_tx := [] |};
     s_nonce_mode := strict_increment; s_crypto_mode := hmac_sha256_16;
     s_param := {| p_start := 0; p_max_nonce := 32768; p_max_time := ms 3600000 |} |}.

(** What a session is constructed with (Session.cpp:13-19): the frame writer (a link frame writer
    with its addresses, or the raw one), its maximum payload size, and the ttl padding. *)
Inductive frame_kind := FLink (a : addresses) | FRaw.
Record senv := { e_prims : prims; e_kind : frame_kind; e_max_payload : N; e_ttl_pad_ms : N }.

(** IFrameWriter.cpp:15-32 IFrameWriter::write (logging apart) *)
Definition frame_write (E : senv) (w : writer) : option (list N) :=
  option_map fst
    match e_kind E with
    | FLink a => link_frame_write (a_destination a) (a_source a) (e_max_payload E) w
    | FRaw => raw_frame_write (e_max_payload E) w
    end.

(** Session.cpp:21-24 with SessionData::min_size_bytes = 9 *)
Definition calc_max_crypto_payload_length (max_link : N) : N := (if 9 <? max_link then max_link - 9 else 0)%N.
Definition encrypt_cap (E : senv) : nat := N.to_nat (calc_max_crypto_payload_length (e_max_payload E)).

(** Session.cpp:26-42 *)
Definition initialize (s : session) (nm : SessionNonceMode) (cm : SessionCryptoMode) (p : param) (k : keys)
  : bool * session * list stat :=
  if negb (keys_valid k) then (false, s, [])
  else (true, {| s_valid := true; s_rx_nonce := 0; s_tx_nonce := 0; s_keys := k;
                 s_nonce_mode := nm; s_crypto_mode := cm; s_param := p |}, [st_init]).

(** Session.cpp:44-48 *)
Definition reset (s : session) : session :=
  {| s_valid := false; s_rx_nonce := s_rx_nonce s; s_tx_nonce := s_tx_nonce s;
     s_keys := {| k_rx := []; k_tx := [] |};
     s_nonce_mode := s_nonce_mode s; s_crypto_mode := s_crypto_mode s; s_param := s_param s |}.

Definition set_rx_nonce (s : session) (n : N) : session :=
  {| s_valid := s_valid s; s_rx_nonce := n; s_tx_nonce := s_tx_nonce s; s_keys := s_keys s;
     s_nonce_mode := s_nonce_mode s; s_crypto_mode := s_crypto_mode s; s_param := s_param s |}.
Definition set_tx_nonce (s : session) (n : N) : session :=
  {| s_valid := s_valid s; s_rx_nonce := s_rx_nonce s; s_tx_nonce := n; s_keys := s_keys s;
     s_nonce_mode := s_nonce_mode s; s_crypto_mode := s_crypto_mode s; s_param := s_param s |}.

(** Result of a validation: the payload or the error, the session after, the statistics. *)
Definition vres := outcome ((list N + serr) * session * list stat).

(** Session.cpp:91-144 validate_session_data_with_nonce_func *)
Definition validate_with (E : senv) (verify : N -> N -> bool) (s : session) (msg : SessionData) (now : Z) (cap : nat) : vres :=
  if negb (s_valid s) then Ok (inr e_no_valid_session, s, [st_no_session])
  else
    let* r := mode_read (e_prims E) (s_crypto_mode s) (k_rx (s_keys s)) msg cap in
    match r with
    | inr e => Ok (inr e, s, [st_auth_fail])
    | inl payload =>
        if (now <? p_start (s_param s))%Z then Ok (inr e_clock_rollback, s, [])
        else
          let current := (now - p_start (s_param s))%Z in
          if (p_max_time (s_param s) <? current)%Z then Ok (inr e_max_session_time_exceeded, s, [])
          else if (ms (am_valid_until_ms (sd_metadata msg)) <? current)%Z
          then Ok (inr e_expired_ttl, s, [st_ttl_expiration])
          else if (p_max_nonce (s_param s) <? am_nonce (sd_metadata msg))%N
          then Ok (inr e_max_nonce_exceeded, s, [st_nonce_fail])
          else if negb (verify (s_rx_nonce s) (am_nonce (sd_metadata msg)))
          then Ok (inr e_nonce_replay, s, [st_nonce_fail])
          else Ok (inl payload, set_rx_nonce s (am_nonce (sd_metadata msg)), [st_success])
    end.

(** Session.cpp:50-53 *)
Definition validate_session_auth (E : senv) (s : session) (msg : SessionData) (now : Z) (cap : nat) : vres :=
  validate_with E equal_to_zero s msg now cap.

(** Session.cpp:55-69 *)
Definition validate_session_data (E : senv) (s : session) (msg : SessionData) (now : Z) (cap : nat) : vres :=
  let* (r, s', st) := validate_with E (verify_nonce (s_nonce_mode s)) s msg now cap in
  match r with
  | inr e => Ok (inr e, s', st)
  | inl payload => if length payload =? 0 then Ok (inr e_empty_user_data, s', st ++ [st_auth_fail])
                   else Ok (inl payload, s', st)
  end.

(** Result of formatting: the frame or the error, what is left of the cleartext, the session. *)
Definition fres := outcome ((list N + serr) * list N * session).

(** Session.cpp:146-195 format_session_data_no_nonce_check *)
Definition format_no_nonce_check (E : senv) (s : session) (now : Z) (clear : list N) : fres :=
  if negb (s_valid s) then Ok (inr e_no_valid_session, clear, s)
  else if (now <? p_start (s_param s))%Z then Ok (inr e_clock_rollback, clear, s)
  else
    let session_time := (now - p_start (s_param s))%Z in
    if (p_max_time (s_param s) <? session_time)%Z then Ok (inr e_max_session_time_exceeded, clear, s)
    else
      let remainder := (p_max_time (s_param s) - session_time)%Z in
      if (remainder <? ms (e_ttl_pad_ms E))%Z then Ok (inr e_max_session_time_exceeded, clear, s)
      else
        let metadata := {| am_nonce := s_tx_nonce s;
                           am_valid_until_ms := u32 (to_ms (session_time + ms (e_ttl_pad_ms E))) |} in
        let* (r, rest) := mode_write (e_prims E) (s_crypto_mode s) (k_tx (s_keys s)) metadata clear (encrypt_cap E) in
        match r with
        | inr e => Ok (inr e, rest, s)
        | inl message =>
            match frame_write E (session_data_write message) with
            | None => Ok (inr e_format, rest, s)
            | Some frame => Ok (inl frame, rest, set_tx_nonce s (nonce_increment (s_tx_nonce s)))
            end
        end.

(** Session.cpp:71-79 *)
Definition format_session_auth (E : senv) (s : session) (now : Z) (clear : list N) : fres :=
  if negb (s_tx_nonce s =? 0)%N then Ok (inr e_max_nonce_exceeded, clear, s)
  else format_no_nonce_check E s now clear.

(** Session.cpp:81-89 *)
Definition format_session_data (E : senv) (s : session) (now : Z) (clear : list N) : fres :=
  if (p_max_nonce (s_param s) <=? s_tx_nonce s)%N then Ok (inr e_max_nonce_exceeded, clear, s)
  else format_no_nonce_check E s now clear.

(** ** Sessions: Sessions.h:12-27, Sessions.cpp:5-25 *)
Record sessions := { ss_active : session; ss_pending : session }.
Definition new_sessions : sessions := {| ss_active := new_session; ss_pending := new_session |}.
Definition reset_both (s : sessions) : sessions := {| ss_active := reset (ss_active s); ss_pending := reset (ss_pending s) |}.
Definition activate_pending (s : sessions) : sessions := {| ss_active := ss_pending s; ss_pending := reset (ss_active s) |}.
