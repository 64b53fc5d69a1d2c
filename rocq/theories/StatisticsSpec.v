(** * StatisticsSpec: what the counters of a layer should say *)
From Verif Require Import Base Codec Link LinkLayer Primitives Session Handshake Endpoint Statistics.

(** How many elements of a list satisfy a condition *)
Definition how_many {A} (f : A -> bool) (l : list A) : N := N.of_nat (length (filter f l)).

(** The answer to a received message: accepted, or the error. *)
Definition answered_with (f : serr -> bool) (a : sanswer) : bool := match a with ARead (inr e) => f e | _ => false end.
Definition initialized (a : sanswer) : bool := match a with AInit b => b | _ => false end.
Definition read_message (a : sanswer) : bool := match a with ARead _ => true | _ => false end.
Definition accepted_message (a : sanswer) : bool := match a with ARead (inl _) => true | _ => false end.

Definition no_session (e : serr) : bool := match e with e_no_valid_session => true | _ => false end.
(** It does not open: the key, the tag, a length *)
Definition not_authentic (e : serr) : bool :=
  match e with e_mac_auth_fail | e_aead_decrypt_fail | e_bad_length | e_bad_buffer_size => true | _ => false end.
Definition too_old (e : serr) : bool := match e with e_expired_ttl => true | _ => false end.
Definition bad_nonce (e : serr) : bool := match e with e_nonce_replay | e_max_nonce_exceeded => true | _ => false end.
Definition no_user_data (e : serr) : bool := match e with e_empty_user_data => true | _ => false end.
(** Outside of the time of the session *)
Definition outside (e : serr) : bool := match e with e_clock_rollback | e_max_session_time_exceeded => true | _ => false end.

(** All counters of received messages together *)
Definition received_in_all (c : counters) : N :=
  (num_user_data_without_session c + num_auth_fail c + num_ttl_expiration c + num_nonce_fail c + num_success c)%N.

(** ** What happens to one message: the session it is given to, before *)
Section Message.
Context (E : senv) (cap : nat) (s : session) (m : SessionData) (now : Z).

(** It opens under the key of the session to these bytes *)
Definition opens (payload : list N) : Prop := mode_read (e_prims E) (s_crypto_mode s) (k_rx (s_keys s)) m cap = Ok (inl payload).
Definition session_time : Z := (now - p_start (s_param s))%Z.
Definition in_session : Prop := (0 <= session_time <= p_max_time (s_param s))%Z.
Definition in_time : Prop := (session_time <= Z.of_N (am_valid_until_ms (sd_metadata m)) * 1000000)%Z.
Definition nonce := am_nonce (sd_metadata m).
(** The nonce is one that can come now: as authentication 0, when nothing was received; as data after the last one *)
Definition next_nonce (auth : bool) : Prop :=
  (nonce <= p_max_nonce (s_param s))%N /\
  if auth then s_rx_nonce s = 0%N /\ nonce = 0%N
  else match s_nonce_mode s with
       | strict_increment => s_rx_nonce s <> 65535%N /\ nonce = (s_rx_nonce s + 1)%N
       | greater_than_last_rx => (s_rx_nonce s < nonce)%N
       end.
End Message.

(** ** The events of an endpoint *)
Definition new_keys (e : event) : bool := match e with EvKeys _ => true | _ => false end.
Definition let_through (e : event) : bool := match e with EvAuthOk _ _ _ | EvDataOk _ _ _ | EvEmpty _ => true | _ => false end.
Definition without_data (e : event) : bool := match e with EvEmpty _ => true | _ => false end.
Definition a_message (e : event) : bool := match e with EvRecv _ => true | _ => false end.
