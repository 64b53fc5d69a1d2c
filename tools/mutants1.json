[
 {
  "id": "crc-1",
  "file": "Crc",
  "definition": "crc_table",
  "old": "0x1df50d35",
  "new": "0x1df50d36",
  "edit": "one table entry off by a bit pattern",
  "claim": "C06",
  "breaks": "the table no longer computes the CRC of the generator"
 },
 {
  "id": "crc-2",
  "file": "Crc",
  "definition": "crc_step",
  "old": "N.shiftr r 24",
  "new": "N.shiftr r 16",
  "edit": "index taken from the wrong byte of the remainder",
  "claim": "C06",
  "breaks": "not the polynomial remainder"
 },
 {
  "id": "crc-3",
  "file": "Crc",
  "definition": "crc32",
  "old": "crc_step data 0%N",
  "new": "crc_step data 0xFFFFFFFF%N",
  "edit": "initial value all ones",
  "claim": "C06",
  "breaks": "not the plain polynomial remainder"
 },
 {
  "id": "codec-1",
  "file": "Codec",
  "definition": "num_values_bytes",
  "old": "(v <=? 127)%N then 0",
  "new": "(v <=? 128)%N then 0",
  "edit": "off by one at the first boundary",
  "claim": "C12,C10",
  "breaks": "128 is written as one byte and cannot be read back"
 },
 {
  "id": "codec-2",
  "file": "Codec",
  "definition": "vlength_read",
  "old": "if (N.of_nat (num_values_bytes ret) =? count)%N then pret ret else (fun _ => PErr bad_vlength)",
  "new": "pret ret",
  "edit": "shortest-encoding check dropped",
  "claim": "C11,C12",
  "breaks": "two encodings of one length are accepted"
 },
 {
  "id": "codec-3",
  "file": "Codec",
  "definition": "read_message",
  "old": "         | POk _ (_ :: _) => inr too_many_bytes\n         end\n  end.",
  "new": "         | POk a (_ :: _) => inl a\n         end\n  end.",
  "edit": "trailing bytes accepted",
  "claim": "C11,C13",
  "breaks": "messages with trailing bytes parse"
 },
 {
  "id": "codec-4",
  "file": "Codec",
  "definition": "seq_read",
  "old": "if (N.of_nat (length inp) <? len)%N then PErr insufficient_bytes",
  "new": "if (N.of_nat (length inp) + 1 <? len)%N then PErr insufficient_bytes",
  "edit": "bound off by one",
  "claim": "C11,C13",
  "breaks": "a truncated sequence is accepted"
 },
 {
  "id": "codec-5",
  "file": "Codec",
  "definition": "handshake_error_from",
  "old": "| 0xFF => Some he_unknown | 0xFD => Some he_no_error | _ => None",
  "new": "| 0xFF => Some he_unknown | 0xFD => Some he_no_error | _ => Some he_unknown",
  "edit": "unknown codes mapped to unknown",
  "claim": "C11,C13",
  "breaks": "an undefined error code is accepted"
 },
 {
  "id": "codec-6",
  "file": "Codec",
  "definition": "constraints_write",
  "old": "write_uint 2 (sc_max_nonce c) +w+ write_uint 4 (sc_max_session_duration c)",
  "new": "write_uint 4 (sc_max_session_duration c) +w+ write_uint 2 (sc_max_nonce c)",
  "edit": "fields swapped on write",
  "claim": "C10,C13",
  "breaks": "written constraints do not read back"
 },
 {
  "id": "codec-7",
  "file": "Codec",
  "definition": "items_read",
  "old": "| O => fun _ => PErr impl_capacity_limit",
  "new": "| O => pret [a]",
  "edit": "capacity limit ignored",
  "claim": "C13,C11",
  "breaks": "a seventh certificate is accepted"
 },
 {
  "id": "codec-8",
  "file": "Codec",
  "definition": "vlength_write",
  "old": "write_uint 1 (u8 (N.land (N.shiftr v 16) 0xFF)) +w+ write_uint 2 (u16 (N.land v 0xFFFF))",
  "new": "write_uint 1 (u8 (N.land (N.shiftr v 8) 0xFF)) +w+ write_uint 2 (u16 (N.land v 0xFFFF))",
  "edit": "wrong shift in the 3-byte case",
  "claim": "C12,C10",
  "breaks": "3-byte lengths do not round trip"
 },
 {
  "id": "codec-9",
  "file": "Codec",
  "definition": "seq_size",
  "old": "vlength_size (N.of_nat (length s)) + length s",
  "new": "1 + length s",
  "edit": "size assumes a one-byte length",
  "claim": "C13,C12",
  "breaks": "announced size is wrong for long sequences"
 },
 {
  "id": "link-1",
  "file": "Link",
  "definition": "parse_body",
  "old": "if negb (expected =? actual)%N\n  then Ok (wait_sync1, add_report c2 (on_bad_body_crc expected actual), i1)\n  else Ok (wait_read n, c2, i1)",
  "new": "Ok (wait_read n, c2, i1)",
  "edit": "body CRC not checked",
  "claim": "C03",
  "breaks": "frames with a wrong body CRC are delivered"
 },
 {
  "id": "link-2",
  "file": "Link",
  "definition": "parse_header",
  "old": "if (max_payload_length c2 <? len)%N",
  "new": "if (max_payload_length c2 + 1 <? len)%N",
  "edit": "maximum length off by one",
  "claim": "C03,C04",
  "breaks": "a frame longer than the buffer is accepted"
 },
 {
  "id": "link-3",
  "file": "Link",
  "definition": "parse_header",
  "old": "parse_many wait_sync1 c3 (Alias 2 10)",
  "new": "parse_many wait_sync1 c3 (Alias 3 9)",
  "edit": "rescan skips one byte",
  "claim": "C05",
  "breaks": "a frame starting right after a false sync is missed"
 },
 {
  "id": "link-4",
  "file": "Link",
  "definition": "parse_sync2",
  "old": "else Ok (wait_sync1, c, i')",
  "new": "else Ok (wait_sync2, c, i')",
  "edit": "stays in sync2 on a wrong second byte",
  "claim": "C03",
  "breaks": "07 xx AA is taken as a start of frame"
 },
 {
  "id": "link-5",
  "file": "Link",
  "definition": "transfer_data",
  "old": "let num_to_copy := Nat.min remaining (input_length i) in",
  "new": "let num_to_copy := input_length i in",
  "edit": "copies everything offered",
  "claim": "C04,C02",
  "breaks": "bytes beyond the section are swallowed or the buffer overrun"
 },
 {
  "id": "link-6",
  "file": "Link",
  "definition": "link_frame_write",
  "old": "be_bytes 2 destination ++ be_bytes 2 source",
  "new": "be_bytes 2 source ++ be_bytes 2 destination",
  "edit": "addresses swapped in the writer",
  "claim": "C01,C07",
  "breaks": "the frame carries swapped addresses"
 },
 {
  "id": "link-7",
  "file": "Link",
  "definition": "link_frame_write",
  "old": "if space - length body <? 4 then None else",
  "new": "",
  "edit": "no room check for the CRC",
  "claim": "C01",
  "breaks": "the frame is truncated when the payload fills the buffer"
 },
 {
  "id": "link-8",
  "file": "Link",
  "definition": "parse_body",
  "old": "let expected := crc32 (slice (buffer c2) header_total_size plen) in",
  "new": "let expected := crc32 (slice (buffer c2) header_total_size (plen - 1)) in",
  "edit": "CRC over one byte less",
  "claim": "C01,C03",
  "breaks": "the last payload byte is not protected"
 },
 {
  "id": "ll-1",
  "file": "LinkLayer",
  "definition": "ll_start_rx_impl",
  "old": "if (f_destination r =? ll_local l')%N then Ok (f_payload r, l') else Ok ([], l')",
  "new": "Ok (f_payload r, l')",
  "edit": "destination not checked",
  "claim": "C07",
  "breaks": "frames for other stations are delivered"
 },
 {
  "id": "ll-2",
  "file": "LinkLayer",
  "definition": "ll_start_rx",
  "old": "let l1 := if ll_processing l then set_processing (ll_discard l) false else l in",
  "new": "let l1 := set_processing l false in",
  "edit": "frame not discarded after it was read",
  "claim": "C07",
  "breaks": "the same frame is delivered again"
 },
 {
  "id": "ll-3",
  "file": "LinkLayer",
  "definition": "stack_write",
  "old": "link_frame_write (a_destination a) (a_source a)",
  "new": "link_frame_write (a_source a) (a_destination a)",
  "edit": "addresses swapped by the stack",
  "claim": "C07",
  "breaks": "transmitted frames carry swapped addresses"
 },
 {
  "id": "ll-4",
  "file": "LinkLayer",
  "definition": "ll_step",
  "old": "| LClose => if ll_open l then Ok (ll_discard (set_open l false), [UpClose])",
  "new": "| LClose => if ll_open l then Ok (set_open l false, [UpClose])",
  "edit": "parser not reset on close",
  "claim": "C09",
  "breaks": "a half-received frame survives the close"
 },
 {
  "id": "ll-5",
  "file": "LinkLayer",
  "definition": "read_frame_one_iteration",
  "old": "| ch :: q => Ok (negb (length ch =? 0), set_rx l ch (ll_parser l) q)",
  "new": "| ch :: q => Ok (false, set_rx l ch (ll_parser l) q)",
  "edit": "stops after fetching",
  "claim": "C08",
  "breaks": "bytes already fetched are not parsed in this read"
 },
 {
  "id": "ses-1",
  "file": "Session",
  "definition": "verify_strict_increment",
  "old": "(new =? last + 1)%N",
  "new": "(last + 1 <=? new)%N",
  "edit": "strict mode accepts gaps",
  "claim": "C14,C18",
  "breaks": "a gap is accepted in strict mode"
 },
 {
  "id": "ses-2",
  "file": "Session",
  "definition": "verify_greater_than_last",
  "old": "(last <? new)%N",
  "new": "(last <=? new)%N",
  "edit": "accepts the same nonce again",
  "claim": "C14",
  "breaks": "replay of the last message is accepted"
 },
 {
  "id": "ses-3",
  "file": "Session",
  "definition": "validate_with",
  "old": "set_rx_nonce s (am_nonce (sd_metadata msg)), [st_success]",
  "new": "s, [st_success]",
  "edit": "receive nonce not updated",
  "claim": "C14",
  "breaks": "every message can be replayed"
 },
 {
  "id": "ses-4",
  "file": "Session",
  "definition": "validate_with",
  "old": "if (p_max_nonce (s_param s) <? am_nonce (sd_metadata msg))%N",
  "new": "if false",
  "edit": "maximum nonce not checked on reception",
  "claim": "C14",
  "breaks": "nonces above the negotiated maximum are accepted"
 },
 {
  "id": "ses-5",
  "file": "Session",
  "definition": "format_no_nonce_check",
  "old": "| None => Ok (inr e_format, rest, s)",
  "new": "| None => Ok (inr e_format, rest, set_tx_nonce s (nonce_increment (s_tx_nonce s)))",
  "edit": "nonce consumed although the write failed",
  "claim": "C15",
  "breaks": "failed transmissions consume a nonce"
 },
 {
  "id": "ses-6",
  "file": "Session",
  "definition": "format_no_nonce_check",
  "old": "Ok (inl frame, rest, set_tx_nonce s (nonce_increment (s_tx_nonce s)))",
  "new": "Ok (inl frame, rest, s)",
  "edit": "transmit nonce not incremented",
  "claim": "C15",
  "breaks": "nonce reuse"
 },
 {
  "id": "ses-7",
  "file": "Session",
  "definition": "format_session_data",
  "old": "(p_max_nonce (s_param s) <=? s_tx_nonce s)%N",
  "new": "(p_max_nonce (s_param s) <? s_tx_nonce s)%N",
  "edit": "off by one in the maximum",
  "claim": "C15",
  "breaks": "one frame too many; nonce wraps at 65535"
 },
 {
  "id": "ses-8",
  "file": "Session",
  "definition": "validate_with",
  "old": "if (ms (am_valid_until_ms (sd_metadata msg)) <? current)%Z",
  "new": "if false",
  "edit": "time to live not checked",
  "claim": "C16",
  "breaks": "expired messages are accepted"
 },
 {
  "id": "ses-9",
  "file": "Session",
  "definition": "format_no_nonce_check",
  "old": "if (remainder <? ms (e_ttl_pad_ms E))%Z then Ok (inr e_max_session_time_exceeded, clear, s)\n      else",
  "new": "",
  "edit": "remaining time not checked",
  "claim": "C16",
  "breaks": "valid-until beyond the end of the session"
 },
 {
  "id": "ses-10",
  "file": "Session",
  "definition": "validate_with",
  "old": "if (now <? p_start (s_param s))%Z then Ok (inr e_clock_rollback, s, [])\n        else",
  "new": "",
  "edit": "clock rollback not checked on reception",
  "claim": "C16",
  "breaks": "messages accepted before the start of the session"
 },
 {
  "id": "ses-11",
  "file": "Session",
  "definition": "validate_with",
  "old": "then Ok (inr e_expired_ttl, s, [st_ttl_expiration])",
  "new": "then Ok (inr e_expired_ttl, set_rx_nonce s (am_nonce (sd_metadata msg)), [st_ttl_expiration])",
  "edit": "nonce updated on an expired message",
  "claim": "C17",
  "breaks": "a rejected message changes later decisions"
 },
 {
  "id": "ses-12",
  "file": "Session",
  "definition": "mac_input",
  "old": "ad ++ be_bytes 2 (u16 (N.of_nat (length data))) ++ data",
  "new": "data ++ ad",
  "edit": "metadata appended without length",
  "claim": "C21",
  "breaks": "ambiguous MAC input"
 },
 {
  "id": "ses-13",
  "file": "Session",
  "definition": "secure_equals",
  "old": "if length a =? length b then bytes_eqb a b else false",
  "new": "bytes_eqb (firstn (length b) a) b",
  "edit": "compares a prefix only",
  "claim": "C38,C21",
  "breaks": "a truncated tag is accepted"
 },
 {
  "id": "ses-14",
  "file": "Session",
  "definition": "mode_write",
  "old": "skipn n user_data)",
  "new": "skipn (S n) user_data)",
  "edit": "one byte too many consumed",
  "claim": "C19,C15",
  "breaks": "user data lost between fragments"
 },
 {
  "id": "ses-15",
  "file": "Session",
  "definition": "mode_write",
  "old": "(firstn n user_data) cap in",
  "new": "(firstn n (rev user_data)) cap in",
  "edit": "wrong part of the buffer sent",
  "claim": "C19,C15",
  "breaks": "fragments do not concatenate to the buffer"
 },
 {
  "id": "ses-16",
  "file": "Session",
  "definition": "aead_decrypt",
  "old": "if (length tag <? aes_gcm_tag_length) || (cap <? length ciphertext) then UB",
  "new": "if false then UB",
  "edit": "model without the out-of-bounds read",
  "claim": "C36",
  "breaks": "(model-side) short tags would be shown safe"
 },
 {
  "id": "ses-17",
  "file": "Session",
  "definition": "calc_max_crypto_payload_length",
  "old": "max_link - 9",
  "new": "max_link - 1",
  "edit": "buffer sizing with smaller overhead",
  "claim": "C20",
  "breaks": "latent failure range changes"
 },
 {
  "id": "ses-18",
  "file": "Session",
  "definition": "mode_read",
  "old": "(am_nonce (sd_metadata msg)) (metadata_bytes (sd_metadata msg))",
  "new": "(am_nonce (sd_metadata msg)) []",
  "edit": "metadata not authenticated on reception",
  "claim": "C21,C18",
  "breaks": "metadata can be modified"
 },
 {
  "id": "ses-19",
  "file": "Session",
  "definition": "gcm_nonce",
  "old": "repeat 0%N 10 ++ be_bytes 2 nonce",
  "new": "repeat 0%N 12",
  "edit": "constant AES-GCM nonce",
  "claim": "C15",
  "breaks": "AES-GCM nonce reuse although the message nonces differ",
  "tightened": [
   "C15_protected_with_own_nonce",
   "C15_gcm_iv_distinct"
  ]
 },
 {
  "id": "ses-20",
  "file": "Session",
  "definition": "initialize",
  "old": "s_rx_nonce := 0; s_tx_nonce := 0; s_keys := k;",
  "new": "s_rx_nonce := 0; s_tx_nonce := s_tx_nonce s; s_keys := k;",
  "edit": "transmit nonce not reset",
  "claim": "C15",
  "breaks": "a session does not start at nonce 0"
 },
 {
  "id": "ses-21",
  "file": "Session",
  "definition": "validate_session_data",
  "old": "(verify_nonce (s_nonce_mode s))",
  "new": "(verify_nonce greater_than_last_rx)",
  "edit": "configured nonce mode ignored",
  "claim": "C14,C18",
  "breaks": "gaps accepted in strict mode"
 },
 {
  "id": "ses-22",
  "file": "Session",
  "definition": "to_ms",
  "old": "(d / 1000000)",
  "new": "(d / 1000000 + 1)",
  "edit": "rounds up",
  "claim": "C16",
  "breaks": "valid-until after the end of the session"
 }
]