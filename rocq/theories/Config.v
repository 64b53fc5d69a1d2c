(** * Config: model of the proxy's configuration (cpp/exe/proxy/src) and of the factories it calls *)
From Coq Require String Ascii.
From Verif Require Import Base Codec Link LinkLayer Primitives Session Handshake Endpoint Icf Qix.
Import String.StringSyntax.
#[local] Open Scope string_scope.
#[local] Open Scope nat_scope.
Notation string := String.string.

(** ** YAML *)

(** What YAML::LoadFile (yaml-cpp, not in /repo) makes of a file.  Keys that are not scalars and
    tags, anchors and positions are left out. *)
Inductive node := NNull | NScalar (s : string) | NSeq (l : list node) | NMap (l : list (string * node)).

(** The conversions of yaml-cpp and asio the reader calls: convert<int64_t>::decode,
    convert<bool>::decode, asio::ip::address::from_string; and the file a path names. *)
Record library := {
  as_int64 : string -> option Z; as_bool : string -> option bool;
  is_address : string -> bool; file_at : string -> N }.

(** Every function ends with a result, with an exception ([Ok None]) or undefined *)
Definition res A := outcome (option A).
Definition ret {A} (a : A) : res A := Ok (Some a).
Definition throw {A} : res A := Ok None.
Definition rbind {A B} (r : res A) (f : A -> res B) : res B :=
  match r with Ok (Some a) => f a | Ok None => Ok None | UB => UB | NoFuel => NoFuel end.
Notation "'get' x := p 'in' q" := (rbind p (fun x => q)) (at level 200, x pattern, q at level 200).
Definition from_option {A} (o : option A) : res A := Ok o.

(** The value under the first equal key of a map (yaml-cpp node_data.h) *)
Fixpoint lookup_key (l : list (string * node)) (key : string) : option node :=
  match l with [] => None | (k, v) :: l' => if String.eqb k key then Some v else lookup_key l' key end.

(** node[key] on a const node: subscripting a scalar throws BadSubscript, the others have no such key *)
Definition subscript (n : node) (key : string) : res (option node) :=
  match n with NMap l => ret (lookup_key l key) | NScalar _ => throw | _ => ret None end.

(** YAMLHelpers.cpp:50-67 require *)
Definition require (n : node) (key : string) : res node :=
  match n with NMap l => from_option (lookup_key l key) | _ => throw end.
(** YAMLHelpers.cpp:69-72 require_bool *)
Definition require_bool (L : library) (n : node) (key : string) : res bool :=
  get c := require n key in match c with NScalar s => from_option (as_bool L s) | _ => throw end.
(** YAMLHelpers.cpp:74-83 require_string *)
Definition require_string (n : node) (key : string) : res string :=
  get c := require n key in match c with NScalar s => ret s | _ => throw end.
(** YAMLHelpers.cpp:85-102 optional_string *)
Definition optional_string (n : node) (key : string) (default : string) : res string :=
  get c := subscript n key in match c with None => ret default | Some (NScalar s) => ret s | Some _ => throw end.
(** YAMLHelpers.h:43-59 extract_integer<T>, with the limits of T *)
Definition extract_integer (L : library) (low high : Z) (n : node) : res Z :=
  match n with
  | NScalar s =>
      match as_int64 L s with
      | None => throw
      | Some value => if (value <? low)%Z then throw else if (value >? high)%Z then throw else ret value
      end
  | _ => throw
  end.
(** YAMLHelpers.h:61-65 require_integer<T> *)
Definition require_integer (L : library) (low high : Z) (n : node) (key : string) : res Z :=
  get c := require n key in extract_integer L low high c.
(** YAMLHelpers.h:67-81 optional_integer<T> *)
Definition optional_integer (L : library) (low high : Z) (n : node) (key : string) (default : Z) : res Z :=
  get c := subscript n key in match c with None => ret default | Some c => extract_integer L low high c end.
(** YAMLHelpers.h:83-97 foreach, with the state the action changes *)
Fixpoint each {S A} (action : S -> node -> res (S * A)) (s : S) (l : list node) : res (S * list A) :=
  match l with
  | [] => ret (s, [])
  | n :: l' => get (s1, a) := action s n in get (s2, r) := each action s1 l' in ret (s2, a :: r)
  end.
Definition foreach {S A} (action : S -> node -> res (S * A)) (s : S) (n : node) : res (S * list A) :=
  match n with NSeq l => each action s l | _ => throw end.

Definition max_u16 : Z := 65535.
Definition max_u32 : Z := 4294967295.
Definition min_i64 : Z := - 2 ^ 63.
Definition max_i64 : Z := 2 ^ 63 - 1.

(** YAMLHelpers.cpp:20-48 TimeUnit and get_time_unit: nanoseconds of the unit.  duration_t is the
    duration of std::chrono::steady_clock: nanoseconds in an int64_t (exe4cpp/Typedefs.h, not in
    /repo, and libstdc++). *)
Definition get_time_unit (n : node) : res Z :=
  get u := require_string n "unit" in
  if String.eqb u "milliseconds" then ret 1000000%Z
  else if String.eqb u "seconds" then ret 1000000000%Z
  else if String.eqb u "minutes" then ret 60000000000%Z
  else if String.eqb u "hours" then ret 3600000000000%Z
  else throw.
(** The conversion to duration_t multiplies; undefined when the product does not fit *)
Definition to_duration (value unit : Z) : res Z :=
  let v := (value * unit)%Z in if ((min_i64 <=? v) && (v <=? max_i64))%Z then ret v else UB.
(** YAMLHelpers.cpp:104-118 get_duration_value *)
Definition get_duration_value (L : library) (n : node) : res Z :=
  get v := require n "value" in
  get value := extract_integer L min_i64 max_i64 v in
  get unit := get_time_unit n in
  to_duration value unit.
(** YAMLHelpers.cpp:120-123 require_duration *)
Definition require_duration (L : library) (n : node) (key : string) : res Z :=
  get d := require n key in get_duration_value L d.
(** YAMLHelpers.cpp:125-138 optional_duration *)
Definition optional_duration (L : library) (n : node) (key : string) (default : Z) : res Z :=
  get d := subscript n key in match d with None => ret default | Some d => get_duration_value L d end.

(** ** The settings of the stack *)

(** StackConfigReader.cpp:26-31 get_addresses; Addresses(destination, source) *)
Definition get_addresses (L : library) (n : node) : res addresses :=
  get remote := require_integer L 0 max_u16 n "remote" in
  get local := require_integer L 0 max_u16 n "local" in
  ret {| a_destination := Z.to_N remote; a_source := Z.to_N local |}.

(** StackFactory.h:17-20 *)
Inductive stack_type := TInitiator | TResponder.
(** StackConfigReader.cpp:33-44 get_stack_type *)
Definition get_stack_type (n : node) : res stack_type :=
  get v := require_string n "mode" in
  if String.eqb v "initiator" then ret TInitiator else if String.eqb v "responder" then ret TResponder else throw.
(** StackConfigReader.cpp:46-61 get_handshake_mode *)
Definition get_mode (n : node) : res HandshakeMode :=
  get v := require_string n "type" in
  if String.eqb v "shared_secret" then ret hm_shared_secret
  else if String.eqb v "qkd" then ret hm_qkd
  else if String.eqb v "preshared_public_key" then ret hm_public_keys
  else if String.eqb v "certificate" then ret hm_industrial_certificates
  else throw.

(** StackConfigReader.cpp:63-88 get_crypto_key *)
Definition get_crypto_key (L : library) (f : files) (path : string) (expected : ContainerEntryType) : res (list N) :=
  match read_container f (file_at L path) with
  | None => throw
  | Some file =>
      if negb (entry_eqb (cf_type file) expected) then throw
      else if negb (length (cf_payload file) =? 32) then throw
      else ret (cf_payload file)
  end.
(** StackConfigReader.cpp:90-93 get_file_data *)
Definition get_file_data (L : library) (f : files) (n : node) (key : string) : res (list N) :=
  get path := require_string n key in from_option (file_read f (file_at L path)).
(** StackConfigReader.cpp:95-98 get_shared_secret *)
Definition get_shared_secret (L : library) (f : files) (n : node) : res (list N) :=
  get path := require_string n "shared_secret_key_path" in get_crypto_key L f path ce_shared_secret.
(** StackConfigReader.cpp:180-185 get_local_static_keys: public and private key *)
Definition get_local_static_keys (L : library) (f : files) (n : node) : res (list N * list N) :=
  get path1 := require_string n "local_public_key_path" in get public := get_crypto_key L f path1 ce_x25519_public_key in
  get path2 := require_string n "local_private_key_path" in get private := get_crypto_key L f path2 ce_x25519_private_key in
  ret (public, private).
(** StackConfigReader.cpp:273 and 410 *)
Definition get_remote_public_key (L : library) (f : files) (n : node) : res (list N) :=
  get path := require_string n "remote_public_key_path" in get_crypto_key L f path ce_x25519_public_key.

(** StackConfigReader.cpp:100-114 get_optional_ms_from_duration *)
Definition get_optional_ms (L : library) (n : node) (key : string) (default : Z) : res Z :=
  get d := optional_duration L n key (default * 1000000)%Z in
  let ms := Z.quot d 1000000 in
  if (ms <? 0)%Z then throw else if (ms >? max_u32)%Z then throw else ret ms.

(** CryptoLayerConfig.h:11-66: SessionConfig, CryptoLayerConfig, ResponderConfig, InitiatorConfig *)
Record responder_config := { rg_max_payload : N; rg_ttl_pad_ms : N }.
Record initiator_config := {
  ig_response_timeout : Z; ig_retry_timeout : Z;   (* nanoseconds *)
  ig_time_trigger_ms : N; ig_nonce_trigger : N; ig_limits : limits;
  ig_max_payload : N; ig_ttl_pad_ms : N }.

(** StackConfigReader.cpp:116-124 get_session_limits; defaults CryptoLayerConfig.h:33-39, Constants.h:45, 48 *)
Definition get_session_limits (L : library) (session : node) : res limits :=
  get nonce := optional_integer L 0 max_u16 session "max_nonce_value" 32768 in
  get time := optional_integer L 0 max_u32 session "max_session_time_ms" 3600000 in
  ret {| l_max_nonce := Z.to_N nonce; l_max_time_ms := Z.to_N time |}.
(** StackConfigReader.cpp:126-133 get_crypto_layer_config; default LinkConstants.h:26 *)
Definition get_crypto_layer_config (L : library) (session : node) : res Z :=
  optional_integer L 0 max_u16 session "max_payload_size" 4092.
(** StackConfigReader.cpp:135-142 get_session_config; default Constants.h:38 *)
Definition get_session_config (L : library) (session : node) : res Z := get_optional_ms L session "ttl_pad" 10000.
(** StackConfigReader.cpp:144-167 get_initiator_params and get_initiator_config; defaults Constants.h:42-49 *)
Definition get_initiator_config (L : library) (handshake session : node) : res initiator_config :=
  get payload := get_crypto_layer_config L session in
  get pad := get_session_config L session in
  get lim := get_session_limits L session in
  get nonce := optional_integer L 0 max_u16 session "nonce_renegotiation_trigger_value" 32640 in
  get response := optional_duration L handshake "response_timeout" 2000000000 in
  get retry := optional_duration L handshake "retry_timeout" 5000000000 in
  get time := get_optional_ms L session "session_time_renegotiation_trigger_ms" 3540000 in
  ret {| ig_response_timeout := response; ig_retry_timeout := retry; ig_time_trigger_ms := Z.to_N time;
         ig_nonce_trigger := Z.to_N nonce; ig_limits := lim; ig_max_payload := Z.to_N payload; ig_ttl_pad_ms := Z.to_N pad |}.
(** StackConfigReader.cpp:169-178 get_responder_config *)
Definition get_responder_config (L : library) (session : node) : res responder_config :=
  get payload := get_crypto_layer_config L session in
  get pad := get_session_config L session in
  ret {| rg_max_payload := Z.to_N payload; rg_ttl_pad_ms := Z.to_N pad |}.

(** CryptoSuite.h:15-50: the defaults; the ephemeral is the one Factory.cpp adds for public keys and
    of no importance otherwise *)
Definition suite_of (mode : SessionCryptoMode) : CryptoSpec :=
  {| sp_ephemeral := he_x25519; sp_hash := hash_sha256; sp_kdf := kdf_hkdf_sha256;
     sp_nonce_mode := strict_increment; sp_crypto_mode := mode |}.
(** StackConfigReader.cpp:187-200 get_session_crypto_mode *)
Definition get_session_crypto_mode (n : node) : res SessionCryptoMode :=
  get m := require_string n "session_crypto_mode" in
  if String.eqb m "hmac_sha256_16" then ret hmac_sha256_16 else if String.eqb m "aes_256_gcm" then ret aes_256_gcm else throw.
(** StackConfigReader.cpp:202-209 get_crypto_suite *)
Definition get_crypto_suite (n : node) : res CryptoSpec :=
  get algorithms := require n "algorithms" in get mode := get_session_crypto_mode algorithms in ret (suite_of mode).

(** ** QKD sources *)

(** qix/SerialSettings.h *)
Record serial := { se_device : string; se_baud : Z; se_bits : Z; se_flow : string; se_stop : string }.

(** QIXQKDSource.cpp:15-51 get_flow_control, get_stop_bits *)
Definition one_of (allowed : list string) (value : string) : res string :=
  if existsb (String.eqb value) allowed then ret value else throw.
Definition get_flow_control (n : node) : res string :=
  get v := optional_string n "flow_control" "none" in one_of ["none"; "hardware"; "software"] v.
Definition get_stop_bits (n : node) : res string :=
  get v := optional_string n "stop_bits" "one" in one_of ["one"; "onepointfive"; "two"] v.
(** QIXQKDSource.cpp:53-61 read_serial_settings *)
Definition read_serial_settings (L : library) (n : node) : res serial :=
  get device := require_string n "device" in
  get baud := optional_integer L 0 max_u32 n "baud_rate" 9600 in
  get bits := optional_integer L 0 max_u32 n "data_bits" 8 in
  get flow := get_flow_control n in
  get stop := get_stop_bits n in
  ret {| se_device := device; se_baud := baud; se_bits := bits; se_flow := flow; se_stop := stop |}.

(** What the machine answers: whether the serial port opens with these settings, and whether a socket
    can be bound to an address.  That binding the same address twice fails is not modelled. *)
Record machine := { opens : serial -> bool; binds : string -> N -> bool }.

(** QKDSourceRegistry.cpp:8: the sources by identifier *)
Definition registry := list (string * source).
Fixpoint find_source (r : registry) (id : string) : option source :=
  match r with [] => None | (k, s) :: r' => if String.eqb k id then Some s else find_source r' id end.
Fixpoint put_source (r : registry) (id : string) (s : source) : registry :=
  match r with [] => [] | (k, x) :: r' => if String.eqb k id then (k, s) :: r' else (k, x) :: put_source r' id s end.

(** QIXQKDSource.cpp:63-70 and 209-215: the constructors of FrameHandler and QIXQKDSource with
    AsyncQIXFrameReader.cpp:71-95 start_frame_reader *)
Definition new_qix_source (L : library) (M : machine) (n : node) : res source :=
  get metrics := require n "metrics" in
  get subscribers := require_integer L 0 max_u16 n "num_subscribers" in
  get period := require_duration L metrics "update_period" in
  get bin := require_integer L 0 max_u16 metrics "bin_size" in
  get c := require n "serial" in
  get settings := read_serial_settings L c in
  if opens M settings then ret (new_source (Z.to_N subscribers)) else throw.
(** QKDSourceRegistry.cpp:10-19, 31-40 configure_qkd_source, create_qkd_source *)
Definition configure_qkd_source (L : library) (M : machine) (r : registry) (n : node) : res (registry * string) :=
  get id := require_string n "qkd_source_id" in
  match find_source r id with
  | Some _ => throw
  | None =>
      get type := require_string n "type" in
      if String.eqb type "qix" then get s := new_qix_source L M n in ret ((id, s) :: r, id) else throw
  end.
(** QKDSourceRegistry.cpp:21-29, 42-60: get_key_source, get_initiator_key_source and
    get_responder_key_lookup with QIXQKDSource.cpp:217-237; the key store is the one of the
    subscriber at the source *)
Record store_ref := { sr_source : string; sr_subscriber : N; sr_cache : N }.
Definition bind_store (L : library) (r : registry) (n : node) : res (registry * store_ref) :=
  get id := require_string n "key_source_id" in
  match find_source r id with
  | None => throw
  | Some s =>
      get sub := require_integer L 0 max_u16 n "subscriber_id" in
      get cache := require_integer L 0 max_u16 n "max_key_cache_size" in
      match bind_key_store s (Z.to_N sub) (Z.to_nat cache) with
      | None => throw
      | Some s' => ret (put_source r id s', {| sr_source := id; sr_subscriber := Z.to_N sub; sr_cache := Z.to_N cache |})
      end
  end.

(** ** The stack factory *)

(** What the closures of StackConfigReader.cpp:211-485 capture *)
Inductive credentials :=
| CSecret (key : list N)
| CQkd (store : store_ref)
| CPreshared (public private remote : list N)
| CCertificates (public private anchor_file chain_file : list N).
Inductive frole :=
| FInitiator (config : initiator_config) (suite : CryptoSpec) (c : credentials)
| FResponder (config : responder_config) (c : credentials).
(** StackFactory.h:22-50 *)
Record factory := { fa_addresses : option addresses; fa_role : frole }.
Definition uses_link_layer (f : factory) : bool := match fa_addresses f with Some _ => true | None => false end.

(** StackConfigReader.cpp:211-333: the credentials and the suite of an initiator.  The suite is read
    after the credentials; in the certificate mode [algorithms] must be there, but the suite is
    CryptoSuite(). *)
Definition get_initiator_credentials (L : library) (f : files) (r : registry) (mode : HandshakeMode) (n : node)
  : res (registry * (CryptoSpec * credentials)) :=
  match mode with
  | hm_shared_secret =>
      get key := get_shared_secret L f n in get suite := get_crypto_suite n in ret (r, (suite, CSecret key))
  | hm_qkd =>
      get (r', store) := bind_store L r n in get suite := get_crypto_suite n in ret (r', (suite, CQkd store))
  | hm_public_keys =>
      get (public, private) := get_local_static_keys L f n in
      get remote := get_remote_public_key L f n in
      get suite := get_crypto_suite n in ret (r, (suite, CPreshared public private remote))
  | hm_industrial_certificates =>
      get (public, private) := get_local_static_keys L f n in
      get anchor := get_file_data L f n "authority_cert_path" in
      get chain := get_file_data L f n "local_cert_path" in
      get _ := require n "algorithms" in ret (r, (suite_of hmac_sha256_16, CCertificates public private anchor chain))
  end.
(** StackConfigReader.cpp:357-464: the credentials of a responder *)
Definition get_responder_credentials (L : library) (f : files) (r : registry) (mode : HandshakeMode) (n : node)
  : res (registry * credentials) :=
  match mode with
  | hm_shared_secret => get key := get_shared_secret L f n in ret (r, CSecret key)
  | hm_qkd => get (r', store) := bind_store L r n in ret (r', CQkd store)
  | hm_public_keys =>
      get (public, private) := get_local_static_keys L f n in
      get remote := get_remote_public_key L f n in ret (r, CPreshared public private remote)
  | hm_industrial_certificates =>
      get (public, private) := get_local_static_keys L f n in
      get anchor := get_file_data L f n "authority_cert_path" in
      get chain := get_file_data L f n "local_cert_path" in ret (r, CCertificates public private anchor chain)
  end.
(** StackConfigReader.cpp:335-355 get_initiator_factory *)
Definition get_initiator_factory (L : library) (f : files) (r : registry) (n : node) : res (registry * frole) :=
  get handshake := require n "handshake" in
  get session := require n "session" in
  get config := get_initiator_config L handshake session in
  get mode := get_mode handshake in
  get (r', (suite, c)) := get_initiator_credentials L f r mode handshake in
  ret (r', FInitiator config suite c).
(** StackConfigReader.cpp:466-485 get_responder_factory *)
Definition get_responder_factory (L : library) (f : files) (r : registry) (n : node) : res (registry * frole) :=
  get handshake := require n "handshake" in
  get session := require n "session" in
  get config := get_responder_config L session in
  get mode := get_mode handshake in
  get (r', c) := get_responder_credentials L f r mode handshake in
  ret (r', FResponder config c).
(** StackConfigReader.cpp:487-507 get_stack_factory *)
Definition get_stack_factory (L : library) (f : files) (r : registry) (n : node) : res (registry * factory) :=
  get link_layer := require n "link_layer" in
  get security := require n "security" in
  get type := get_stack_type security in
  get enabled := require_bool L link_layer "enabled" in
  get addr := (if enabled then get a := require link_layer "address" in get x := get_addresses L a in ret (Some x) else ret None) in
  get (r', role) := match type with TInitiator => get_initiator_factory L f r security | TResponder => get_responder_factory L f r security end in
  ret (r', {| fa_addresses := addr; fa_role := role |}).

(** ** Transports and sessions *)

(** IPEndpoint.cpp:5-9 *)
Record endpoint_addr := { ip_address : string; ip_port : N }.
Definition get_endpoint (L : library) (n : node) (key : string) : res endpoint_addr :=
  get c := require n key in
  get a := require_string c "address" in
  get p := require_integer L 0 max_u16 c "port" in
  ret {| ip_address := a; ip_port := Z.to_N p |}.
(** TcpConfig.cpp:5-10, UdpConfig.cpp:5-11 *)
Inductive transport :=
| Tcp (max_sessions : N) (listen connect : endpoint_addr)
| Udp (raw_rx raw_tx secure_rx secure_tx : endpoint_addr).

(** LogConfig.cpp:7-41 get_log_levels: whether every letter is known *)
Fixpoint contains (c : Ascii.ascii) (s : string) : bool :=
  match s with String.EmptyString => false | String.String d s' => Ascii.eqb c d || contains c s' end.
Fixpoint levels_known (s : string) : bool :=
  match s with String.EmptyString => true | String.String c s' => contains c "vewidcfm" && levels_known s' end.

Record session_plan := { pl_id : string; pl_levels : string; pl_factory : factory; pl_transport : transport }.

(** ConfigReader.cpp:36-72 get_session_factory with LogConfig.cpp:43-47 and get_transport_type (21-34) *)
Definition get_session_factory (L : library) (f : files) (r : registry) (n : node) : res (registry * session_plan) :=
  get id := require_string n "id" in
  get levels := require_string n "levels" in
  if negb (levels_known levels) then throw else
  get (r', fac) := get_stack_factory L f r n in
  get t := require n "transport" in
  get type := require_string t "type" in
  get tr := (if String.eqb type "tcp" then
               if negb (uses_link_layer fac) then throw else
               get max := require_integer L 0 max_u16 t "max_sessions" in
               get listen := get_endpoint L t "listen" in
               get connect := get_endpoint L t "connect" in
               ret (Tcp (Z.to_N max) listen connect)
             else if String.eqb type "udp" then
               get a := get_endpoint L t "raw_rx" in get b := get_endpoint L t "raw_tx" in
               get c := get_endpoint L t "secure_rx" in get d := get_endpoint L t "secure_tx" in
               ret (Udp a b c d)
             else throw) in
  ret (r', {| pl_id := id; pl_levels := levels; pl_factory := fac; pl_transport := tr |}).

(** ProxyConfig.cpp:11-30 read, after YAML::LoadFile *)
Definition read (L : library) (M : machine) (f : files) (root : node) : res (registry * list session_plan) :=
  get sources := require root "qkd_sources" in
  get (r, _) := foreach (configure_qkd_source L M) [] sources in
  get sessions := require root "sessions" in
  foreach (get_session_factory L f) r sessions.

(** ** Making the stacks *)

(** LinkCryptoStack.h:70-199: what the four stack classes are made of *)
Definition make_stack (P : prims) (S : supports) (a : option addresses) (payload ttl : N) (r : role) : econf :=
  {| c_env := {| e_prims := P; e_kind := match a with Some a => FLink a | None => FRaw end;
                 e_max_payload := max_config_payload_size; e_ttl_pad_ms := ttl |};
     c_supports := S; c_role := r; c_payload_size := N.to_nat payload; c_via_stack := true |}.
(** Factory.cpp:11-293: the handshake of each mode *)
Definition make_handler (P : prims) (S : supports) (c : credentials) : res (option cert_handler) :=
  match c with
  | CPreshared _ _ remote => ret (Some (Preshared remote))
  | CCertificates _ _ anchor chain => get h := make_industrial P S anchor chain in ret (Some h)
  | _ => ret None
  end.
Definition make_initiator (suite : CryptoSpec) (c : credentials) (h : option cert_handler) : option initiator_handshake :=
  match c, h with
  | CSecret key, _ => Some (ISharedSecret suite key)
  | CQkd _, _ => Some (IQkd suite)
  | CPreshared _ private _, Some h | CCertificates _ private _ _, Some h => Some (IPublicKey suite private h)
  | _, None => None
  end.
Definition make_responder (c : credentials) (h : option cert_handler) : option responder_handshake :=
  match c, h with
  | CSecret key, _ => Some (RSharedSecret key)
  | CQkd _, _ => Some RQkd
  | CPreshared _ private _, Some h | CCertificates _ private _ _, Some h => Some (RPublicKey private h)
  | _, None => None
  end.
(** StackFactory.h:31-34 create_stack *)
Definition create_stack (P : prims) (S : supports) (f : factory) : res econf :=
  match fa_role f with
  | FInitiator g suite c =>
      get h := make_handler P S c in
      match make_initiator suite c h with
      | None => throw
      | Some hs =>
          if initiator_constructible S hs then
            ret (make_stack P S (fa_addresses f) (ig_max_payload g) (ig_ttl_pad_ms g)
                   (Initiator {| ic_handshake := hs; ic_limits := ig_limits g; ic_nonce_trigger := ig_nonce_trigger g |}))
          else throw
      end
  | FResponder g c =>
      get h := make_handler P S c in
      match make_responder c h with
      | None => throw
      | Some hs => ret (make_stack P S (fa_addresses f) (rg_max_payload g) (rg_ttl_pad_ms g) (Responder hs))
      end
  end.

(** ** Starting the proxy *)

Definition usable (L : library) (e : endpoint_addr) : bool := is_address L (ip_address e).
Definition bindable (M : machine) (e : endpoint_addr) : bool := binds M (ip_address e) (ip_port e).
(** TcpProxySession.cpp:12-33, UdpProxySession.cpp:13-27: the constructors, whether they finish *)
Definition construct (L : library) (M : machine) (p : session_plan) : bool :=
  match pl_transport p with
  | Tcp _ listen connect => usable L listen && bindable M listen && usable L connect
  | Udp a b c d => usable L a && usable L b && usable L c && usable L d
  end.
(** TcpProxySession.cpp:35-44 start only accepts connections; UdpProxySession.cpp:29-43, 54-99 start
    binds the receiving sockets and creates the stack *)
Definition start (P : prims) (S : supports) (M : machine) (p : session_plan) : res (option econf) :=
  match pl_transport p with
  | Tcp _ _ _ => ret None
  | Udp raw_rx _ secure_rx _ =>
      if bindable M secure_rx && bindable M raw_rx then get c := create_stack P S (pl_factory p) in ret (Some c) else throw
  end.
Fixpoint start_all (P : prims) (S : supports) (M : machine) (l : list session_plan) : res (list (option econf)) :=
  match l with
  | [] => ret []
  | p :: l' => get c := start P S M p in get r := start_all P S M l' in ret (c :: r)
  end.
(** main.cpp:57-95 configure_sessions and run up to the event loop; [Ok None]: an exception that main
    (40-45) reports before it exits with -1 *)
Definition launch (P : prims) (S : supports) (L : library) (M : machine) (f : files) (root : node)
  : res (registry * list (session_plan * option econf)) :=
  get (r, plans) := read L M f root in
  match plans with
  | [] => throw
  | _ =>
      if forallb (construct L M) plans then get cs := start_all P S M plans in ret (r, combine plans cs) else throw
  end.
(** TcpProxySession.cpp:76-131: a connection through a TCP session creates a stack.  An exception there
    leaves the completion handler and io_service::run, main catches it and the process exits
    ([Ok None]). *)
Definition on_connected (P : prims) (S : supports) (p : session_plan) : res econf := create_stack P S (pl_factory p).
