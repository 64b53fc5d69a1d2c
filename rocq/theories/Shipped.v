(** * Shipped: the files of /repo/config/proxy

    Written by tools/shipped.py from the files: maps, sequences and scalars as yaml-cpp yields them. *)
From Coq Require String.
From Verif Require Import Base Config.
Import String.StringSyntax.
#[local] Open Scope string_scope.
#[local] Open Scope list_scope.

(** config/proxy/preshared_public_keys/tcp/initiator.yml:1-46 *)
Definition preshared_tcp_initiator : node :=
  NMap [("qkd_sources", NSeq []);
    ("sessions", NSeq [NMap [("id", NScalar "session1");
        ("levels", NScalar "iwemf");
        ("link_layer", NMap [("enabled", NScalar "true");
          ("address", NMap [("local", NScalar "10");
            ("remote", NScalar "1")])]);
        ("security", NMap [("mode", NScalar "initiator");
          ("session", NMap [("max_payload_size", NScalar "4096");
            ("ttl_pad", NMap [("value", NScalar "10");
              ("unit", NScalar "seconds")]);
            ("max_nonce_value", NScalar "32768");
            ("nonce_renegotiation_trigger_value", NScalar "32700");
            ("max_session_duration", NMap [("value", NScalar "1");
              ("unit", NScalar "hours")]);
            ("session_time_renegotiation_trigger", NMap [("value", NScalar "59");
              ("unit", NScalar "minutes")])]);
          ("handshake", NMap [("algorithms", NMap [("session_crypto_mode", NScalar "hmac_sha256_16")]);
            ("response_timeout", NMap [("value", NScalar "2");
              ("unit", NScalar "seconds")]);
            ("retry_timeout", NMap [("value", NScalar "5");
              ("unit", NScalar "seconds")]);
            ("type", NScalar "preshared_public_key");
            ("local_private_key_path", NScalar "./initiator_private_key.icf");
            ("local_public_key_path", NScalar "./initiator_public_key.icf");
            ("remote_public_key_path", NScalar "./responder_public_key.icf")])]);
        ("transport", NMap [("type", NScalar "tcp");
          ("max_sessions", NScalar "1");
          ("listen", NMap [("address", NScalar "127.0.0.1");
            ("port", NScalar "20000")]);
          ("connect", NMap [("address", NScalar "127.0.0.1");
            ("port", NScalar "20001")])])]])].

(** config/proxy/preshared_public_keys/tcp/responder.yml:1-30 *)
Definition preshared_tcp_responder : node :=
  NMap [("qkd_sources", NSeq []);
    ("sessions", NSeq [NMap [("id", NScalar "session1");
        ("levels", NScalar "iwemf");
        ("link_layer", NMap [("enabled", NScalar "true");
          ("address", NMap [("local", NScalar "10");
            ("remote", NScalar "1")])]);
        ("security", NMap [("mode", NScalar "responder");
          ("session", NMap [("max_payload_size", NScalar "4096");
            ("ttl_pad", NMap [("value", NScalar "10");
              ("unit", NScalar "seconds")])]);
          ("handshake", NMap [("type", NScalar "preshared_public_key");
            ("local_private_key_path", NScalar "./responder_private_key.icf");
            ("local_public_key_path", NScalar "./responder_public_key.icf");
            ("remote_public_key_path", NScalar "./initiator_public_key.icf")])]);
        ("transport", NMap [("type", NScalar "tcp");
          ("max_sessions", NScalar "1");
          ("listen", NMap [("address", NScalar "127.0.0.1");
            ("port", NScalar "20000")]);
          ("connect", NMap [("address", NScalar "127.0.0.1");
            ("port", NScalar "20001")])])]])].

(** config/proxy/preshared_public_keys/udp/initiator.yml:1-48 *)
Definition preshared_udp_initiator : node :=
  NMap [("qkd_sources", NSeq []);
    ("sessions", NSeq [NMap [("id", NScalar "session1");
        ("levels", NScalar "iwemf");
        ("link_layer", NMap [("enabled", NScalar "false")]);
        ("security", NMap [("mode", NScalar "initiator");
          ("session", NMap [("max_payload_size", NScalar "4096");
            ("ttl_pad", NMap [("value", NScalar "10");
              ("unit", NScalar "seconds")]);
            ("max_nonce_value", NScalar "32768");
            ("nonce_renegotiation_trigger_value", NScalar "32700");
            ("max_session_duration", NMap [("value", NScalar "1");
              ("unit", NScalar "hours")]);
            ("session_time_renegotiation_trigger", NMap [("value", NScalar "59");
              ("unit", NScalar "minutes")])]);
          ("handshake", NMap [("algorithms", NMap [("session_crypto_mode", NScalar "hmac_sha256_16")]);
            ("response_timeout", NMap [("value", NScalar "2");
              ("unit", NScalar "seconds")]);
            ("retry_timeout", NMap [("value", NScalar "5");
              ("unit", NScalar "seconds")]);
            ("type", NScalar "preshared_public_key");
            ("local_private_key_path", NScalar "./initiator_private_key.icf");
            ("local_public_key_path", NScalar "./initiator_public_key.icf");
            ("remote_public_key_path", NScalar "./responder_public_key.icf")])]);
        ("transport", NMap [("type", NScalar "udp");
          ("raw_rx", NMap [("address", NScalar "127.0.0.1");
            ("port", NScalar "20000")]);
          ("raw_tx", NMap [("address", NScalar "127.0.0.1");
            ("port", NScalar "20001")]);
          ("secure_rx", NMap [("address", NScalar "127.0.0.1");
            ("port", NScalar "20002")]);
          ("secure_tx", NMap [("address", NScalar "127.0.0.1");
            ("port", NScalar "20003")])])]])].

(** config/proxy/preshared_public_keys/udp/responder.yml:1-32 *)
Definition preshared_udp_responder : node :=
  NMap [("qkd_sources", NSeq []);
    ("sessions", NSeq [NMap [("id", NScalar "session1");
        ("levels", NScalar "iwemf");
        ("link_layer", NMap [("enabled", NScalar "false")]);
        ("security", NMap [("mode", NScalar "responder");
          ("session", NMap [("max_payload_size", NScalar "4096");
            ("ttl_pad", NMap [("value", NScalar "10");
              ("unit", NScalar "seconds")])]);
          ("handshake", NMap [("type", NScalar "preshared_public_key");
            ("local_private_key_path", NScalar "./responder_private_key.icf");
            ("local_public_key_path", NScalar "./responder_public_key.icf");
            ("remote_public_key_path", NScalar "./initiator_public_key.icf")])]);
        ("transport", NMap [("type", NScalar "udp");
          ("raw_rx", NMap [("address", NScalar "127.0.0.1");
            ("port", NScalar "20004")]);
          ("raw_tx", NMap [("address", NScalar "127.0.0.1");
            ("port", NScalar "20005")]);
          ("secure_rx", NMap [("address", NScalar "127.0.0.1");
            ("port", NScalar "20003")]);
          ("secure_tx", NMap [("address", NScalar "127.0.0.1");
            ("port", NScalar "20002")])])]])].

(** config/proxy/qkd/tcp/initiator.yml:1-60 *)
Definition qkd_tcp_initiator : node :=
  NMap [("qkd_sources", NSeq [NMap [("qkd_source_id", NScalar "source1");
        ("type", NScalar "qix");
        ("num_subscribers", NScalar "1");
        ("metrics", NMap [("bin_size", NScalar "10");
          ("update_period", NMap [("value", NScalar "5");
            ("unit", NScalar "seconds")])]);
        ("serial", NMap [("device", NScalar "/dev/pts/2");
          ("baud", NScalar "9600");
          ("data_bits", NScalar "8");
          ("flow_control", NScalar "none");
          ("stop_bits", NScalar "one")])]]);
    ("sessions", NSeq [NMap [("id", NScalar "session1");
        ("levels", NScalar "iwecfm");
        ("link_layer", NMap [("enabled", NScalar "true");
          ("address", NMap [("local", NScalar "10");
            ("remote", NScalar "1")])]);
        ("security", NMap [("mode", NScalar "initiator");
          ("session", NMap [("max_payload_size", NScalar "4096");
            ("ttl_pad", NMap [("value", NScalar "10");
              ("unit", NScalar "seconds")]);
            ("max_nonce_value", NScalar "32768");
            ("nonce_renegotiation_trigger_value", NScalar "32700");
            ("max_session_duration", NMap [("value", NScalar "1");
              ("unit", NScalar "hours")]);
            ("session_time_renegotiation_trigger", NMap [("value", NScalar "59");
              ("unit", NScalar "minutes")])]);
          ("handshake", NMap [("algorithms", NMap [("session_crypto_mode", NScalar "hmac_sha256_16")]);
            ("response_timeout", NMap [("value", NScalar "2");
              ("unit", NScalar "seconds")]);
            ("retry_timeout", NMap [("value", NScalar "5");
              ("unit", NScalar "seconds")]);
            ("type", NScalar "qkd");
            ("key_source_id", NScalar "source1");
            ("subscriber_id", NScalar "0");
            ("max_key_cache_size", NScalar "100")])]);
        ("transport", NMap [("type", NScalar "tcp");
          ("max_sessions", NScalar "1");
          ("listen", NMap [("address", NScalar "127.0.0.1");
            ("port", NScalar "20000")]);
          ("connect", NMap [("address", NScalar "127.0.0.1");
            ("port", NScalar "20001")])])]])].

(** config/proxy/qkd/tcp/responder.yml:1-39 *)
Definition qkd_tcp_responder : node :=
  NMap [("qkd_sources", NSeq [NMap [("qkd_source_id", NScalar "source1");
        ("type", NScalar "qix");
        ("num_subscribers", NScalar "1");
        ("serial", NMap [("device", NScalar "/dev/pts/5");
          ("baud", NScalar "9600");
          ("data_bits", NScalar "8");
          ("flow_control", NScalar "none");
          ("stop_bits", NScalar "one")])]]);
    ("sessions", NSeq [NMap [("id", NScalar "session1");
        ("levels", NScalar "iwemf");
        ("link_layer", NMap [("enabled", NScalar "true");
          ("address", NMap [("local", NScalar "10");
            ("remote", NScalar "1")])]);
        ("security", NMap [("mode", NScalar "responder");
          ("session", NMap [("max_payload_size", NScalar "4096");
            ("ttl_pad", NMap [("value", NScalar "10");
              ("unit", NScalar "seconds")])]);
          ("handshake", NMap [("type", NScalar "qkd");
            ("key_source_id", NScalar "source1");
            ("subscriber_id", NScalar "0");
            ("max_key_cache_size", NScalar "100")])]);
        ("transport", NMap [("type", NScalar "tcp");
          ("max_sessions", NScalar "1");
          ("listen", NMap [("address", NScalar "127.0.0.1");
            ("port", NScalar "20000")]);
          ("connect", NMap [("address", NScalar "127.0.0.1");
            ("port", NScalar "20001")])])]])].

(** config/proxy/qkd/udp/initiator.yml:1-57 *)
Definition qkd_udp_initiator : node :=
  NMap [("qkd_sources", NSeq [NMap [("qkd_source_id", NScalar "source1");
        ("type", NScalar "qix");
        ("num_subscribers", NScalar "1");
        ("serial", NMap [("device", NScalar "/dev/pts/3");
          ("baud", NScalar "9600");
          ("data_bits", NScalar "8");
          ("flow_control", NScalar "none");
          ("stop_bits", NScalar "one")])]]);
    ("sessions", NSeq [NMap [("id", NScalar "session1");
        ("levels", NScalar "iwemf");
        ("link_layer", NMap [("enabled", NScalar "false")]);
        ("security", NMap [("mode", NScalar "initiator");
          ("session", NMap [("max_payload_size", NScalar "4096");
            ("ttl_pad", NMap [("value", NScalar "10");
              ("unit", NScalar "seconds")]);
            ("max_nonce_value", NScalar "32768");
            ("nonce_renegotiation_trigger_value", NScalar "32700");
            ("max_session_duration", NMap [("value", NScalar "1");
              ("unit", NScalar "hours")]);
            ("session_time_renegotiation_trigger", NMap [("value", NScalar "59");
              ("unit", NScalar "minutes")])]);
          ("handshake", NMap [("algorithms", NMap [("session_crypto_mode", NScalar "hmac_sha256_16")]);
            ("response_timeout", NMap [("value", NScalar "2");
              ("unit", NScalar "seconds")]);
            ("retry_timeout", NMap [("value", NScalar "5");
              ("unit", NScalar "seconds")]);
            ("type", NScalar "qkd");
            ("key_source_id", NScalar "source1");
            ("subscriber_id", NScalar "0");
            ("max_key_cache_size", NScalar "100")])]);
        ("transport", NMap [("type", NScalar "udp");
          ("raw_rx", NMap [("address", NScalar "127.0.0.1");
            ("port", NScalar "20000")]);
          ("raw_tx", NMap [("address", NScalar "127.0.0.1");
            ("port", NScalar "20001")]);
          ("secure_rx", NMap [("address", NScalar "127.0.0.1");
            ("port", NScalar "20002")]);
          ("secure_tx", NMap [("address", NScalar "127.0.0.1");
            ("port", NScalar "20003")])])]])].

(** config/proxy/qkd/udp/responder.yml:1-41 *)
Definition qkd_udp_responder : node :=
  NMap [("qkd_sources", NSeq [NMap [("qkd_source_id", NScalar "source1");
        ("type", NScalar "qix");
        ("num_subscribers", NScalar "1");
        ("serial", NMap [("device", NScalar "/dev/pts/5");
          ("baud", NScalar "9600");
          ("data_bits", NScalar "8");
          ("flow_control", NScalar "none");
          ("stop_bits", NScalar "one")])]]);
    ("sessions", NSeq [NMap [("id", NScalar "session1");
        ("levels", NScalar "iwemf");
        ("link_layer", NMap [("enabled", NScalar "false")]);
        ("security", NMap [("mode", NScalar "responder");
          ("session", NMap [("max_payload_size", NScalar "4096");
            ("ttl_pad", NMap [("value", NScalar "10");
              ("unit", NScalar "seconds")])]);
          ("handshake", NMap [("type", NScalar "qkd");
            ("key_source_id", NScalar "source1");
            ("subscriber_id", NScalar "0");
            ("max_key_cache_size", NScalar "100")])]);
        ("transport", NMap [("type", NScalar "udp");
          ("raw_rx", NMap [("address", NScalar "127.0.0.1");
            ("port", NScalar "20004")]);
          ("raw_tx", NMap [("address", NScalar "127.0.0.1");
            ("port", NScalar "20005")]);
          ("secure_rx", NMap [("address", NScalar "127.0.0.1");
            ("port", NScalar "20003")]);
          ("secure_tx", NMap [("address", NScalar "127.0.0.1");
            ("port", NScalar "20002")])])]])].

(** config/proxy/shared_secret/tcp/initiator.yml:1-44 *)
Definition shared_secret_tcp_initiator : node :=
  NMap [("qkd_sources", NSeq []);
    ("sessions", NSeq [NMap [("id", NScalar "session1");
        ("levels", NScalar "iwemf");
        ("link_layer", NMap [("enabled", NScalar "true");
          ("address", NMap [("local", NScalar "10");
            ("remote", NScalar "1")])]);
        ("security", NMap [("mode", NScalar "initiator");
          ("session", NMap [("max_payload_size", NScalar "4096");
            ("ttl_pad", NMap [("value", NScalar "10");
              ("unit", NScalar "seconds")]);
            ("max_nonce_value", NScalar "32768");
            ("nonce_renegotiation_trigger_value", NScalar "32700");
            ("max_session_duration", NMap [("value", NScalar "1");
              ("unit", NScalar "hours")]);
            ("session_time_renegotiation_trigger", NMap [("value", NScalar "59");
              ("unit", NScalar "minutes")])]);
          ("handshake", NMap [("algorithms", NMap [("session_crypto_mode", NScalar "hmac_sha256_16")]);
            ("response_timeout", NMap [("value", NScalar "2");
              ("unit", NScalar "seconds")]);
            ("retry_timeout", NMap [("value", NScalar "5");
              ("unit", NScalar "seconds")]);
            ("type", NScalar "shared_secret");
            ("shared_secret_key_path", NScalar "./shared_secret.icf")])]);
        ("transport", NMap [("type", NScalar "tcp");
          ("max_sessions", NScalar "1");
          ("listen", NMap [("address", NScalar "127.0.0.1");
            ("port", NScalar "20000")]);
          ("connect", NMap [("address", NScalar "127.0.0.1");
            ("port", NScalar "20001")])])]])].

(** config/proxy/shared_secret/tcp/responder.yml:1-28 *)
Definition shared_secret_tcp_responder : node :=
  NMap [("qkd_sources", NSeq []);
    ("sessions", NSeq [NMap [("id", NScalar "session1");
        ("levels", NScalar "iwemf");
        ("link_layer", NMap [("enabled", NScalar "true");
          ("address", NMap [("local", NScalar "1");
            ("remote", NScalar "10")])]);
        ("security", NMap [("mode", NScalar "responder");
          ("session", NMap [("max_payload_size", NScalar "4096");
            ("ttl_pad", NMap [("value", NScalar "10");
              ("unit", NScalar "seconds")])]);
          ("handshake", NMap [("type", NScalar "shared_secret");
            ("shared_secret_key_path", NScalar "./shared_secret.icf")])]);
        ("transport", NMap [("type", NScalar "tcp");
          ("max_sessions", NScalar "1");
          ("listen", NMap [("address", NScalar "127.0.0.1");
            ("port", NScalar "20001")]);
          ("connect", NMap [("address", NScalar "127.0.0.1");
            ("port", NScalar "20002")])])]])].

(** config/proxy/shared_secret/udp/initiator.yml:1-46 *)
Definition shared_secret_udp_initiator : node :=
  NMap [("qkd_sources", NSeq []);
    ("sessions", NSeq [NMap [("id", NScalar "session1");
        ("levels", NScalar "iwemf");
        ("link_layer", NMap [("enabled", NScalar "false")]);
        ("security", NMap [("mode", NScalar "initiator");
          ("session", NMap [("max_payload_size", NScalar "4096");
            ("ttl_pad", NMap [("value", NScalar "10");
              ("unit", NScalar "seconds")]);
            ("max_nonce_value", NScalar "32768");
            ("nonce_renegotiation_trigger_value", NScalar "32700");
            ("max_session_duration", NMap [("value", NScalar "1");
              ("unit", NScalar "hours")]);
            ("session_time_renegotiation_trigger", NMap [("value", NScalar "59");
              ("unit", NScalar "minutes")])]);
          ("handshake", NMap [("algorithms", NMap [("session_crypto_mode", NScalar "hmac_sha256_16")]);
            ("response_timeout", NMap [("value", NScalar "2");
              ("unit", NScalar "seconds")]);
            ("retry_timeout", NMap [("value", NScalar "5");
              ("unit", NScalar "seconds")]);
            ("type", NScalar "shared_secret");
            ("shared_secret_key_path", NScalar "./shared_secret.icf")])]);
        ("transport", NMap [("type", NScalar "udp");
          ("raw_rx", NMap [("address", NScalar "127.0.0.1");
            ("port", NScalar "20000")]);
          ("raw_tx", NMap [("address", NScalar "127.0.0.1");
            ("port", NScalar "20001")]);
          ("secure_rx", NMap [("address", NScalar "127.0.0.1");
            ("port", NScalar "20002")]);
          ("secure_tx", NMap [("address", NScalar "127.0.0.1");
            ("port", NScalar "20003")])])]])].

(** config/proxy/shared_secret/udp/responder.yml:1-30 *)
Definition shared_secret_udp_responder : node :=
  NMap [("qkd_sources", NSeq []);
    ("sessions", NSeq [NMap [("id", NScalar "session1");
        ("levels", NScalar "iwemf");
        ("link_layer", NMap [("enabled", NScalar "false")]);
        ("security", NMap [("mode", NScalar "responder");
          ("session", NMap [("max_payload_size", NScalar "4096");
            ("ttl_pad", NMap [("value", NScalar "10");
              ("unit", NScalar "seconds")])]);
          ("handshake", NMap [("type", NScalar "shared_secret");
            ("shared_secret_key_path", NScalar "./shared_secret.icf")])]);
        ("transport", NMap [("type", NScalar "udp");
          ("raw_rx", NMap [("address", NScalar "127.0.0.1");
            ("port", NScalar "20004")]);
          ("raw_tx", NMap [("address", NScalar "127.0.0.1");
            ("port", NScalar "20005")]);
          ("secure_rx", NMap [("address", NScalar "127.0.0.1");
            ("port", NScalar "20003")]);
          ("secure_tx", NMap [("address", NScalar "127.0.0.1");
            ("port", NScalar "20002")])])]])].
