[
 {
  "id": "icf-1",
  "file": "Icf",
  "definition": "int_mul",
  "old": "(v <=? 2147483647)",
  "new": "(v <=? 4294967295)",
  "edit": "unsigned bound",
  "claim": "C39",
  "breaks": "the overflow is detected from 25 days on"
 },
 {
  "id": "icf-2",
  "file": "Icf",
  "definition": "days_to_times",
  "old": "int_mul wrap a 1000",
  "new": "int_mul wrap a 100",
  "edit": "tenths of seconds",
  "claim": "C39",
  "breaks": "valid for exactly that many days"
 },
 {
  "id": "icf-3",
  "file": "Icf",
  "definition": "days_to_times",
  "old": "int_mul wrap (Z.of_N days) 86400",
  "new": "int_mul wrap (Z.of_N days) 3600",
  "edit": "hours",
  "claim": "C39",
  "breaks": "valid for exactly that many days"
 },
 {
  "id": "icf-4",
  "file": "Icf",
  "definition": "days_to_times",
  "old": "Ok (now, Z.to_N",
  "new": "Ok (0%N, Z.to_N",
  "edit": "valid since 1970",
  "claim": "C39",
  "breaks": "valid from now"
 },
 {
  "id": "icf-5",
  "file": "Icf",
  "definition": "file_read",
  "old": "if 4096 <? length data then None",
  "new": "if 100 <? length data then None",
  "edit": "limit 100 bytes",
  "claim": "C43",
  "breaks": "the certificate made can be read again"
 },
 {
  "id": "icf-6",
  "file": "Icf",
  "definition": "file_read",
  "old": "if length data <=? 0 then None",
  "new": "if length data <=? 3 then None",
  "edit": "short files are refused",
  "claim": "C43",
  "breaks": "(exact conditions of success; keys are longer)"
 },
 {
  "id": "icf-7",
  "file": "Icf",
  "definition": "file_put",
  "old": "| Truncated n => (set_file f p (firstn n data), false)",
  "new": "| Truncated n => (set_file f p (firstn n data), true)",
  "edit": "a failed write is not reported",
  "claim": "C43",
  "breaks": "a failing command reports an error"
 },
 {
  "id": "icf-8",
  "file": "Icf",
  "definition": "file_put",
  "old": "| NotOpened => (f, false)",
  "new": "| NotOpened => (f, true)",
  "edit": "a file that cannot be opened is not reported",
  "claim": "C43",
  "breaks": "a command that reports success has written its file"
 },
 {
  "id": "icf-9",
  "file": "Icf",
  "definition": "expect_certificate_chain",
  "old": "if negb (entry_eqb (cf_type file) ce_certificate_chain) then None",
  "new": "if false then None",
  "edit": "the type of the file is not checked",
  "claim": "C43",
  "breaks": "appending only chains"
 },
 {
  "id": "icf-10",
  "file": "Icf",
  "definition": "print_contents",
  "old": "then print_certificate_chain (cf_payload file) else true",
  "new": "then false else true",
  "edit": "printing a chain fails",
  "claim": "C43",
  "breaks": "creation reports success"
 },
 {
  "id": "icf-11",
  "file": "Icf",
  "definition": "gen_x25519_key_pair",
  "old": "if ok1 then actions_write k f1 public_path ce_x25519_public_key (p_dh_public P random) else (f1, false)",
  "new": "if ok1 then actions_write k f1 public_path ce_x25519_public_key random else (f1, false)",
  "edit": "the private key is written to the public file",
  "claim": "C43",
  "breaks": "the public key file holds the public key"
 },
 {
  "id": "icf-12",
  "file": "Icf",
  "definition": "gen_ed25519_key_pair",
  "old": "actions_write k f private_path ce_ed25519_private_key (sg_secret G random)",
  "new": "actions_write k f private_path ce_ed25519_private_key random",
  "edit": "the seed is stored instead of the secret key",
  "claim": "C43",
  "breaks": "keys made by the tool can be used to sign"
 },
 {
  "id": "icf-13",
  "file": "Icf",
  "definition": "gen_ed25519_key_pair",
  "old": "actions_write k f private_path ce_ed25519_private_key",
  "new": "actions_write k f private_path ce_x25519_private_key",
  "edit": "wrong entry type",
  "claim": "C43",
  "breaks": "keys made by the tool can be used to sign"
 },
 {
  "id": "icf-14",
  "file": "Icf",
  "definition": "gen_shared_secret",
  "old": "ce_shared_secret (firstn 32 random)",
  "new": "ce_certificate_chain (firstn 32 random)",
  "edit": "wrong entry type",
  "claim": "C43",
  "breaks": "files written by the tool are of the right kind"
 },
 {
  "id": "icf-15",
  "file": "Icf",
  "definition": "append_certificate_chains",
  "old": "if is_empty chain_1 then fail",
  "new": "if false then fail",
  "edit": "empty first chain accepted",
  "claim": "C43",
  "breaks": "(an empty chain has no last certificate)"
 },
 {
  "id": "icf-16",
  "file": "Icf",
  "definition": "append_certificate_chains",
  "old": "else if negb (length chain_2 =? 1) then fail",
  "new": "else if negb (1 <=? length chain_2) then fail",
  "edit": "several certificates can be appended",
  "claim": "C43",
  "breaks": "success exactly for single certificates"
 },
 {
  "id": "icf-17",
  "file": "Icf",
  "definition": "append_certificate_chains",
  "old": "let chain := chain_1 ++ chain_2 in",
  "new": "let chain := chain_2 ++ chain_1 in",
  "edit": "wrong order",
  "claim": "C43",
  "breaks": "the extended chain is accepted"
 },
 {
  "id": "icf-18",
  "file": "Icf",
  "definition": "append_certificate_chains",
  "old": "let* r := chain_verify P sodium_supports last_body chain_2 in\n      match r with\n      | inr _ => fail",
  "new": "let* r := chain_verify P sodium_supports last_body chain_2 in\n      match r with\n      | inr _ => Ok (f, true)",
  "edit": "failed verification reported as success",
  "claim": "C43",
  "breaks": "the appended certificate is issued by the last one"
 },
 {
  "id": "icf-19",
  "file": "Icf",
  "definition": "append_certificate_chains",
  "old": "let* r := chain_verify P sodium_supports last_body chain_2 in",
  "new": "let* r := verify_loop P sodium_supports last_body chain_2 in",
  "edit": "the end-entity checks are dropped (repairs the depth limit)",
  "claim": "C43",
  "breaks": "success exactly for end-entity certificates; two levels at most"
 },
 {
  "id": "icf-20",
  "file": "Icf",
  "definition": "append_certificate_chains",
  "old": "read_all body_read (env_body (last chain_1 {| env_signature := []; env_body := [] |}))",
  "new": "read_all body_read (env_body (hd {| env_signature := []; env_body := [] |} chain_1))",
  "edit": "verified against the first certificate",
  "claim": "C43",
  "breaks": "the appended certificate is issued by the last one"
 },
 {
  "id": "icf-21",
  "file": "Icf",
  "definition": "append_certificate_chains",
  "old": "if max_certificates <? length chain then fail",
  "new": "if 7 <? length chain then fail",
  "edit": "limit off by one",
  "claim": "C43",
  "breaks": "chains have at most six certificates"
 },
 {
  "id": "icf-22",
  "file": "Icf",
  "definition": "append_certificate_chains",
  "old": "Ok (file_write k f output {|",
  "new": "Ok (file_write k f path_1 {|",
  "edit": "the first file is overwritten",
  "claim": "C43",
  "breaks": "only outputs change"
 },
 {
  "id": "icf-23",
  "file": "Icf",
  "definition": "sign_ed25519",
  "old": "if length key <? 64 then UB",
  "new": "if length key <? 32 then UB",
  "edit": "key length",
  "claim": "C43",
  "breaks": "short keys are read out of bounds"
 },
 {
  "id": "icf-24",
  "file": "Icf",
  "definition": "calc_signature",
  "old": "| ce_ed25519_private_key => let* s",
  "new": "| ce_x25519_private_key | ce_ed25519_private_key => let* s",
  "edit": "an X25519 key is accepted for signing",
  "claim": "C43",
  "breaks": "creation succeeds only with Ed25519 secret keys; defined behaviour"
 },
 {
  "id": "icf-25",
  "file": "Icf",
  "definition": "get_public_key_type",
  "old": "| ce_ed25519_public_key => if negb (length (cf_payload file) =? 32) then None else Some pk_Ed25519",
  "new": "| ce_ed25519_public_key => Some pk_Ed25519",
  "edit": "length not checked",
  "claim": "C43",
  "breaks": "certificates carry 32-byte keys"
 },
 {
  "id": "icf-26",
  "file": "Icf",
  "definition": "get_public_key_type",
  "old": "| ce_x25519_public_key => if negb (length (cf_payload file) =? 32) then None else Some pk_X25519",
  "new": "| ce_x25519_public_key => if negb (length (cf_payload file) =? 32) then None else Some pk_Ed25519",
  "edit": "wrong key type",
  "claim": "C43",
  "breaks": "the certificate carries the type of the key"
 },
 {
  "id": "icf-27",
  "file": "Icf",
  "definition": "create_certificate",
  "old": "cb_valid_after := fst times; cb_valid_before := snd times",
  "new": "cb_valid_after := snd times; cb_valid_before := fst times",
  "edit": "times swapped",
  "claim": "C43",
  "breaks": "the given times"
 },
 {
  "id": "icf-28",
  "file": "Icf",
  "definition": "create_certificate",
  "old": "cb_signing_level := signing_level",
  "new": "cb_signing_level := 0%N",
  "edit": "level ignored",
  "claim": "C43",
  "breaks": "the given level"
 },
 {
  "id": "icf-29",
  "file": "Icf",
  "definition": "create_certificate",
  "old": "cb_public_key := cf_payload public_key_entry",
  "new": "cb_public_key := cf_payload private_key_entry",
  "edit": "the secret key is published",
  "claim": "C43",
  "breaks": "the key of the public key file"
 },
 {
  "id": "icf-30",
  "file": "Icf",
  "definition": "create_certificate",
  "old": "let* s := calc_signature G body_bytes private_key_entry in",
  "new": "let* s := calc_signature G (cf_payload public_key_entry) private_key_entry in",
  "edit": "only the key is signed",
  "claim": "C43",
  "breaks": "the certificate verifies"
 },
 {
  "id": "icf-31",
  "file": "Icf",
  "definition": "create_certificate",
  "old": "firstn (N.to_nat (u16 (N.of_nat (length body_bytes)))) body_bytes",
  "new": "firstn (N.to_nat (u8 (N.of_nat (4 * length body_bytes) + 50))) body_bytes",
  "edit": "body truncated",
  "claim": "C43",
  "breaks": "the certificate verifies"
 },
 {
  "id": "icf-32",
  "file": "Icf",
  "definition": "create_certificate",
  "old": "file_write k f certificate_path {|",
  "new": "file_write k f public_path {|",
  "edit": "written over the public key",
  "claim": "C43",
  "breaks": "only outputs change"
 },
 {
  "id": "icf-33",
  "file": "Icf",
  "definition": "create_certificate",
  "old": "if ok then Ok (f1, print_contents f1 certificate_path) else Ok (f1, false)",
  "new": "Ok (f1, print_contents f1 certificate_path)",
  "edit": "a failed write is not reported",
  "claim": "C43",
  "breaks": "a failing command reports an error"
 },
 {
  "id": "icf-34",
  "file": "Icf",
  "definition": "run_command",
  "old": "create_certificate G k f c pub priv times level",
  "new": "create_certificate G k f c priv pub times level",
  "edit": "arguments swapped",
  "claim": "C43",
  "breaks": "end to end"
 }
]