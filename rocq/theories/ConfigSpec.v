(** * ConfigSpec: what a configuration file says *)
From Coq Require String Ascii.
From Verif Require Import Base Codec CodecSpec Link LinkLayer Primitives Session Handshake HandshakeSpec Endpoint Icf IcfSpec Qix Config.
Import String.StringSyntax.
#[local] Open Scope string_scope.
#[local] Open Scope nat_scope.

(** ** Values *)

(** [n] is a map whose first entry with key [key] holds [v]. *)
Definition has (n : node) (key : string) (v : node) : Prop :=
  match n with NMap l => exists l1 l2, l = l1 ++ (key, v) :: l2 /\ ~ In key (map fst l1) | _ => False end.
(** [n] says nothing about [key]: a map without the key, an empty value, a sequence.  (A text in
    the place of a group of settings is an error.) *)
Definition lacks (n : node) (key : string) : Prop :=
  match n with NMap l => ~ In key (map fst l) | NScalar _ => False | _ => True end.
Definition text (n : node) (key : string) (s : string) : Prop := has n key (NScalar s).
(** An integer in a range; and a setting with a default. *)
Definition number (L : library) (n : node) (key : string) (high : Z) (v : N) : Prop :=
  exists s z, text n key s /\ as_int64 L s = Some z /\ (0 <= z <= high)%Z /\ v = Z.to_N z.
Definition number_or (L : library) (n : node) (key : string) (high : Z) (default v : N) : Prop :=
  number L n key high v \/ (lacks n key /\ v = default).

(** Durations, in nanoseconds: [value] times [unit].  [fits64]: it fits into 64 bits, else the
    conversion is undefined. *)
Definition unit_ns (u : string) (ns : Z) : Prop :=
  In (u, ns) [("milliseconds", 1000000); ("seconds", 1000000000); ("minutes", 60 * 1000000000); ("hours", 3600 * 1000000000)]%Z.
Definition fits64 (z : Z) : Prop := (- 2 ^ 63 <= z < 2 ^ 63)%Z.
Definition says_duration (L : library) (d : node) (ns : Z) : Prop :=
  exists s z u k, text d "value" s /\ as_int64 L s = Some z /\ text d "unit" u /\ unit_ns u k /\ ns = (z * k)%Z /\ fits64 z.
Definition duration (L : library) (n : node) (key : string) (ns : Z) : Prop := exists d, has n key d /\ says_duration L d ns /\ fits64 ns.
Definition duration_or (L : library) (n : node) (key : string) (default ns : Z) : Prop :=
  duration L n key ns \/ (lacks n key /\ ns = default).
(** ... in whole milliseconds that fit into 32 bits *)
Definition ms_or (L : library) (n : node) (key : string) (default ms : N) : Prop :=
  (duration L n key (Z.of_N ms * 1000000) /\ (ms < 2 ^ 32)%N) \/ (lacks n key /\ ms = default).

(** ** Groups of settings *)

Definition responder_settings (L : library) (session : node) (g : responder_config) : Prop :=
  number_or L session "max_payload_size" 65535 4092 (rg_max_payload g) /\ ms_or L session "ttl_pad" 10000 (rg_ttl_pad_ms g).
Definition initiator_settings (L : library) (handshake session : node) (g : initiator_config) : Prop :=
  number_or L session "max_payload_size" 65535 4092 (ig_max_payload g) /\
  ms_or L session "ttl_pad" 10000 (ig_ttl_pad_ms g) /\
  number_or L session "max_nonce_value" 65535 32768 (l_max_nonce (ig_limits g)) /\
  number_or L session "max_session_time_ms" 4294967295 3600000 (l_max_time_ms (ig_limits g)) /\
  number_or L session "nonce_renegotiation_trigger_value" 65535 32640 (ig_nonce_trigger g) /\
  ms_or L session "session_time_renegotiation_trigger_ms" 3540000 (ig_time_trigger_ms g) /\
  duration_or L handshake "response_timeout" 2000000000 (ig_response_timeout g) /\
  duration_or L handshake "retry_timeout" 5000000000 (ig_retry_timeout g).

(** The file named under [key] holds a key of 32 bytes of the given kind. *)
Definition key_in (L : library) (f : files) (n : node) (key : string) (t : ContainerEntryType) (k : list N) : Prop :=
  exists path, text n key path /\ readable f (file_at L path) (file_of t k) /\ length k = 32.
Definition data_in (L : library) (f : files) (n : node) (key : string) (d : list N) : Prop :=
  exists path, text n key path /\ readable f (file_at L path) d.

Definition mode_name (m : HandshakeMode) : string :=
  match m with hm_shared_secret => "shared_secret" | hm_qkd => "qkd" | hm_public_keys => "preshared_public_key" | hm_industrial_certificates => "certificate" end.
Definition crypto_name (m : SessionCryptoMode) : string := match m with hmac_sha256_16 => "hmac_sha256_16" | aes_256_gcm => "aes_256_gcm" end.
Definition credentials_mode (c : credentials) : HandshakeMode :=
  match c with CSecret _ => hm_shared_secret | CQkd _ => hm_qkd | CPreshared _ _ _ => hm_public_keys | CCertificates _ _ _ _ => hm_industrial_certificates end.

(** The credentials of a handshake section. *)
Definition says_credentials (L : library) (f : files) (h : node) (c : credentials) : Prop :=
  text h "type" (mode_name (credentials_mode c)) /\
  match c with
  | CSecret k => key_in L f h "shared_secret_key_path" ce_shared_secret k
  | CQkd s => text h "key_source_id" (sr_source s) /\ number L h "subscriber_id" 65535 (sr_subscriber s) /\ number L h "max_key_cache_size" 65535 (sr_cache s)
  | CPreshared public private remote =>
      key_in L f h "local_public_key_path" ce_x25519_public_key public /\ key_in L f h "local_private_key_path" ce_x25519_private_key private /\
      key_in L f h "remote_public_key_path" ce_x25519_public_key remote
  | CCertificates public private anchor chain =>
      key_in L f h "local_public_key_path" ce_x25519_public_key public /\ key_in L f h "local_private_key_path" ce_x25519_private_key private /\
      data_in L f h "authority_cert_path" anchor /\ data_in L f h "local_cert_path" chain
  end.
(** The session encryption a handshake section asks for. *)
Definition says_algorithm (h : node) (m : SessionCryptoMode) : Prop :=
  exists a, has h "algorithms" a /\ text a "session_crypto_mode" (crypto_name m).

(** The link layer: none, or with these addresses. *)
Definition says_link (L : library) (n : node) (a : option addresses) : Prop :=
  exists l s, has n "link_layer" l /\ text l "enabled" s /\
    match a with
    | None => as_bool L s = Some false
    | Some a => as_bool L s = Some true /\ exists d, has l "address" d /\ number L d "local" 65535 (a_source a) /\ number L d "remote" 65535 (a_destination a)
    end.

(** What a session's section says about the stack.  An initiator in certificate mode must have an
    [algorithms] entry; nothing is said about what it means (C47_certificate_algorithm_refuted). *)
Definition says_role (L : library) (f : files) (security : node) (r : frole) : Prop :=
  exists h s, has security "handshake" h /\ has security "session" s /\
  match r with
  | FInitiator g suite c =>
      text security "mode" "initiator" /\ initiator_settings L h s g /\ says_credentials L f h c /\
      (exists m, suite = suite_of m /\
         if mode_eqb (credentials_mode c) hm_industrial_certificates then m = hmac_sha256_16 /\ exists a, has h "algorithms" a else says_algorithm h m)
  | FResponder g c => text security "mode" "responder" /\ responder_settings L s g /\ says_credentials L f h c
  end.
Definition says_stack (L : library) (f : files) (n : node) (fac : factory) : Prop :=
  says_link L n (fa_addresses fac) /\ exists security, has n "security" security /\ says_role L f security (fa_role fac).

(** ** Transports *)
Definition says_endpoint (L : library) (t : node) (key : string) (e : endpoint_addr) : Prop :=
  exists c, has t key c /\ text c "address" (ip_address e) /\ number L c "port" 65535 (ip_port e).
Definition says_transport (L : library) (n : node) (t : transport) : Prop :=
  exists c, has n "transport" c /\
  match t with
  | Tcp max listen connect => text c "type" "tcp" /\ number L c "max_sessions" 65535 max /\ says_endpoint L c "listen" listen /\ says_endpoint L c "connect" connect
  | Udp a b d e => text c "type" "udp" /\ says_endpoint L c "raw_rx" a /\ says_endpoint L c "raw_tx" b /\ says_endpoint L c "secure_rx" d /\ says_endpoint L c "secure_tx" e
  end.

(** One session: its name, its log levels (letters of "vewidcfm"), its stack and its transport; TCP
    only with the link layer. *)
Fixpoint letters (s : string) : list Ascii.ascii := match s with String.EmptyString => [] | String.String c s' => c :: letters s' end.
Definition says_session (L : library) (f : files) (n : node) (p : session_plan) : Prop :=
  text n "id" (pl_id p) /\ text n "levels" (pl_levels p) /\ incl (letters (pl_levels p)) (letters "vewidcfm") /\
  says_stack L f n (pl_factory p) /\ says_transport L n (pl_transport p) /\
  match pl_transport p with Tcp _ _ _ => exists a, fa_addresses (pl_factory p) = Some a | Udp _ _ _ _ => True end.

(** ** QKD sources *)
Definition one_of_or (n : node) (key : string) (allowed : list string) (default v : string) : Prop :=
  In v allowed /\ (text n key v \/ (lacks n key /\ v = default)).
Definition says_serial (L : library) (n : node) (s : serial) : Prop :=
  text n "device" (se_device s) /\ number_or L n "baud_rate" 4294967295 9600 (Z.to_N (se_baud s)) /\ number_or L n "data_bits" 4294967295 8 (Z.to_N (se_bits s)) /\
  (0 <= se_baud s)%Z /\ (0 <= se_bits s)%Z /\
  one_of_or n "flow_control" ["none"; "hardware"; "software"] "none" (se_flow s) /\ one_of_or n "stop_bits" ["one"; "onepointfive"; "two"] "one" (se_stop s).
Definition says_source (L : library) (M : machine) (n : node) (id : string) (subscribers : N) : Prop :=
  text n "qkd_source_id" id /\ text n "type" "qix" /\ number L n "num_subscribers" 65535 subscribers /\
  (exists m, has n "metrics" m /\ (exists p, duration L m "update_period" p) /\ (exists b, number L m "bin_size" 65535 b)) /\
  (exists c s, has n "serial" c /\ says_serial L c s /\ opens M s = true).

(** The key stores the sessions use, in the order of the file. *)
Definition store_of (p : session_plan) : list (string * N) :=
  match fa_role (pl_factory p) with
  | FInitiator _ _ (CQkd s) | FResponder _ (CQkd s) => [(sr_source s, sr_subscriber s)]
  | _ => []
  end.

(** ** The file *)
(** The file describes the sources [ids] (with their numbers of subscribers) and the sessions
    [plans]: no source twice, no key store twice, no unknown source. *)
Definition says (L : library) (M : machine) (f : files) (root : node) (ids : list (string * N)) (plans : list session_plan) : Prop :=
  (exists l, has root "qkd_sources" (NSeq l) /\ Forall2 (fun n x => says_source L M n (fst x) (snd x)) l ids) /\
  (exists l, has root "sessions" (NSeq l) /\ Forall2 (says_session L f) l plans) /\
  NoDup (map fst ids) /\ NoDup (concat (map store_of plans)) /\ incl (map fst (concat (map store_of plans))) (map fst ids).

(** ** Durations that fit *)
Fixpoint subnodes (n : node) : list node :=
  n :: match n with
       | NSeq l => concat (map subnodes l)
       | NMap l => concat (map (fun x => subnodes (snd x)) l)
       | _ => []
       end.
(** Every duration in the file fits into 64 bits (292 years). *)
Definition durations_fit (L : library) (root : node) : Prop :=
  forall d ns, In d (subnodes root) -> says_duration L d ns -> fits64 ns.
(** yaml-cpp converts into an int64_t. *)
Definition library_ok (L : library) : Prop := forall s z, as_int64 L s = Some z -> fits64 z.

(** ** Two files for each other *)
(** A certificate file with the one certificate of [a]; a certificate file with the chain [c]. *)
Definition anchor_in (file : list N) (a : CertificateBody) : Prop :=
  exists e, file = chain_file [e] /\ chain_ok [e] /\ seq_ok (wire_chain [e]) /\ env_body e = wire_body a /\ body_ok a.
Definition chain_in (file : list N) (c : list CertificateEnvelope) : Prop := file = chain_file c /\ chain_ok c /\ seq_ok (wire_chain c).
(** The certificate files of one side lead the other side to the public key of its private key. *)
Definition vouches (P : prims) (private chain_file anchor_of_other : list N) : Prop :=
  exists c a leaf, chain_in chain_file c /\ anchor_in anchor_of_other a /\ chain_certifies P a c leaf /\ cb_public_key leaf = p_dh_public P private.

(** The credentials of the two sides fit together: the same secret; each side has the other's public
    key; certificates for both; with QKD the same key [q] under the identifier the initiator takes. *)
Definition suits (P : prims) (q : Prop) (ci cr : credentials) : Prop :=
  match ci, cr with
  | CSecret k, CSecret k' => k = k'
  | CQkd _, CQkd _ => q
  | CPreshared _ s1 r1, CPreshared _ s2 r2 => r1 = p_dh_public P s2 /\ r2 = p_dh_public P s1
  | CCertificates _ s1 a1 c1, CCertificates _ s2 a2 c2 => vouches P s1 c1 a2 /\ vouches P s2 c2 a1
  | _, _ => False
  end.
(** The presented chain leaves room for the rest of the message in a frame. *)
Definition short_chain (c : credentials) : Prop :=
  match c with CCertificates _ _ _ file => forall ch, chain_in file ch -> length (wire_chain ch) <= 4039 | _ => True end.
