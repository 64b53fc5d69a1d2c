(** * Statistics: model of the counters and of the calls that increment them *)
From Verif Require Import Base Codec Link LinkLayer Primitives Session Handshake Endpoint.

(** crypto/Statistics.h:9-30: six uint64_t, 0 at first *)
Record counters := {
  num_init : N; num_user_data_without_session : N; num_auth_fail : N;
  num_ttl_expiration : N; num_nonce_fail : N; num_success : N }.
Definition new_counters : counters := Build_counters 0 0 0 0 0 0.

(** crypto/Statistics.h:13-16 Statistic::increment *)
Definition increment (v : N) : N := u64 (v + 1).

Definition bump (c : counters) (st : stat) : counters :=
  let '(Build_counters i n a t o u) := c in
  match st with
  | st_init => Build_counters (increment i) n a t o u
  | st_no_session => Build_counters i (increment n) a t o u
  | st_auth_fail => Build_counters i n (increment a) t o u
  | st_ttl_expiration => Build_counters i n a (increment t) o u
  | st_nonce_fail => Build_counters i n a t (increment o) u
  | st_success => Build_counters i n a t o (increment u)
  end.
Definition bumps (c : counters) (l : list stat) : counters := fold_left bump l c.

(** ** The two sessions of a layer and their common counters: Sessions.h:12-27, Sessions.cpp:5-25,
    CryptoLayer.cpp:20-21.  [true] is the active session, [false] the pending one. *)
Inductive scall :=
| KInitialize (active : bool) (nm : SessionNonceMode) (cm : SessionCryptoMode) (p : param) (k : keys)
| KValidateAuth (active : bool) (m : SessionData) (now : Z)
| KValidateData (active : bool) (m : SessionData) (now : Z)
| KFormatAuth (active : bool) (clear : list N) (now : Z)
| KFormatData (active : bool) (clear : list N) (now : Z)
| KReset (active : bool)
| KResetBoth
| KActivatePending.

Inductive sanswer :=
| AInit (ok : bool)
| ARead (r : list N + serr)
| AFrame (r : list N + serr) (rest : list N)
| AVoid.

Definition get (s : sessions) (active : bool) : session := if active then ss_active s else ss_pending s.
Definition put (s : sessions) (active : bool) (x : session) : sessions :=
  if active then {| ss_active := x; ss_pending := ss_pending s |} else {| ss_active := ss_active s; ss_pending := x |}.

(** Session.cpp:26-195, with the increments of lines 37, 64, 94, 102, 120, 127, 134 and 141;
    [cap] is the length of the destination buffer. *)
Definition sessions_call (E : senv) (cap : nat) (x : sessions * counters) (c : scall)
  : outcome (sessions * counters * sanswer) :=
  let (s, n) := x in
  match c with
  | KInitialize a nm cm p k =>
      let '(ok, s', st) := initialize (get s a) nm cm p k in Ok (put s a s', bumps n st, AInit ok)
  | KValidateAuth a m now =>
      let* (r, s', st) := validate_session_auth E (get s a) m now cap in Ok (put s a s', bumps n st, ARead r)
  | KValidateData a m now =>
      let* (r, s', st) := validate_session_data E (get s a) m now cap in Ok (put s a s', bumps n st, ARead r)
  | KFormatAuth a clear now =>
      let* (r, rest, s') := format_session_auth E (get s a) now clear in Ok (put s a s', n, AFrame r rest)
  | KFormatData a clear now =>
      let* (r, rest, s') := format_session_data E (get s a) now clear in Ok (put s a s', n, AFrame r rest)
  | KReset a => Ok (put s a (reset (get s a)), n, AVoid)
  | KResetBoth => Ok (reset_both s, n, AVoid)
  | KActivatePending => Ok (activate_pending s, n, AVoid)
  end.
Fixpoint sessions_calls (E : senv) (cap : nat) (x : sessions * counters) (l : list scall)
  : outcome (sessions * counters * list sanswer) :=
  match l with
  | [] => Ok (fst x, snd x, [])
  | c :: l' =>
      let* (s1, n1, a) := sessions_call E cap x c in
      let* (s2, n2, r) := sessions_calls E cap (s1, n1) l' in
      Ok (s2, n2, a :: r)
  end.

(** ** The counters of an endpoint: CryptoLayer.h:45-48 get_statistics.  What one step of the machine of
    Endpoint.v increments: only the processing of a message calls a function of a session that
    counts. *)

(** validate_session_auth and validate_session_data, their counters alone *)
Definition counted (r : vres) : list stat := match r with Ok (_, _, st) => st | _ => [] end.

(** CryptoLayer.cpp:151-184, 246-261; InitiatorHandshakeStates.cpp:65-72, 101-108; Responder.cpp:64-97.
    A responder that answers a request with its reply has called Session::initialize with the keys it
    derived, which are of the right length (SharedSecretResponderHandshake.cpp:72-80 and the two like
    it: the result is ignored). *)
Definition process_stats (C : econf) (s : endpoint) (message : list N) (inp : input) : list stat :=
  match message with
  | [] => []
  | raw_function :: _ =>
      match c_role C, function_from raw_function with
      | Initiator c, Some reply_handshake_begin =>
          match reply_read message, ep_state s with
          | inl msg, WaitForBeginReply =>
              match initialize_session (e_prims (c_env C)) (c_supports C) (ic_handshake c) (ep_ihs s) msg message
                      (ic_limits c) (in_now inp) (ep_pending s) with
              | Ok (true, _, _) => [st_init]
              | _ => []
              end
          | _, _ => []
          end
      | Responder h, Some request_handshake_begin =>
          match request_read message with
          | inl msg =>
              if negb (major_version (rq_version msg) =? major_version version_get)%N then []
              else match process (c_env C) (c_supports C) h (in_answers inp) msg message (in_now inp) (ep_pending s) with
                   | Ok (inl _, _) => [st_init]
                   | _ => []
                   end
          | inr _ => []
          end
      | Initiator _, Some session_data =>
          match session_data_read message with
          | inl msg =>
              if (am_nonce (sd_metadata msg) =? 0)%N
              then match ep_state s with
                   | WaitForAuthReply => counted (validate_session_auth (c_env C) (ep_pending s) msg (in_now inp) (c_payload_size C))
                   | _ => []
                   end
              else counted (validate_session_data (c_env C) (ep_active s) msg (in_now inp) (c_payload_size C))
          | inr _ => []
          end
      | Responder _, Some session_data =>
          match session_data_read message with
          | inl msg =>
              if (am_nonce (sd_metadata msg) =? 0)%N
              then if negb (s_valid (ep_pending s)) then []
                   else counted (validate_session_auth (c_env C) (ep_pending s) msg (in_now inp) (c_payload_size C))
              else counted (validate_session_data (c_env C) (ep_active s) msg (in_now inp) (c_payload_size C))
          | inr _ => []
          end
      | _, _ => []
      end
  end.

Definition step_stats (C : econf) (k : config) (l : label) : list stat :=
  match l, snd k with
  | Run inp, IProcess m :: _ => process_stats C (fst k) m inp
  | _, _ => []
  end.

(** A run with the counters *)
Fixpoint counting (C : econf) (k : config) (n : counters) (ls : list label) : outcome (config * counters * list event) :=
  match ls with
  | [] => Ok (k, n, [])
  | l :: ls' =>
      let* (k1, e1) := step C k l in
      let* (k2, n2, e2) := counting C k1 (bumps n (step_stats C k l)) ls' in
      Ok (k2, n2, e1 ++ e2)
  end.
