[
 {
  "id": "prt-1",
  "file": "Print",
  "definition": "Print.hex_bytes",
  "old": "[b] => [hex_digit (b / 16)%N; hex_digit (b mod 16)%N]",
  "new": "[b] => if (b <? 16)%N then [hex_digit b] else [hex_digit (b / 16)%N; hex_digit (b mod 16)%N]",
  "edit": "no padding (std::setw forgotten) for the last byte of a line",
  "claim": "bytes are not two digits each",
  "breaks": "C54"
 },
 {
  "id": "prt-2",
  "file": "Print",
  "definition": "Print.hex_bytes",
  "old": "| b :: rest => [hex_digit (b / 16)%N; hex_digit (b mod 16)%N; 58%N]",
  "new": "| b :: rest => [hex_digit (b mod 16)%N; hex_digit (b / 16)%N; 58%N]",
  "edit": "digits of a byte swapped",
  "claim": "the bytes shown are others",
  "breaks": "C54"
 },
 {
  "id": "prt-3",
  "file": "Print",
  "definition": "Print.hex_lines",
  "old": "newline ++ hex_lines f indentation (skipn 16 data)",
  "new": "newline ++ hex_lines f indentation (skipn 17 data)",
  "edit": "one byte skipped at every end of line",
  "claim": "bytes of the file are not shown",
  "breaks": "C54"
 },
 {
  "id": "prt-4",
  "file": "Print",
  "definition": "Print.body_items",
  "old": "Number \"valid_after\" (cb_valid_after b); Number \"valid_before\" (cb_valid_before b)",
  "new": "Number \"valid_after\" (cb_valid_before b); Number \"valid_before\" (cb_valid_after b)",
  "edit": "times swapped",
  "claim": "the times shown are not those of the certificate",
  "breaks": "C54"
 },
 {
  "id": "prt-5",
  "file": "Print",
  "definition": "Print.body_items",
  "old": "[Number \"valid_after\" (cb_valid_after b); Number \"valid_before\" (cb_valid_before b); Number \"signing_level\" (cb_signing_level b);",
  "new": "[Number \"valid_after\" (cb_valid_after b); Number \"valid_before\" (cb_valid_before b);",
  "edit": "signing level not printed",
  "claim": "a field escapes the reader",
  "breaks": "C54"
 },
 {
  "id": "prt-6",
  "file": "Print",
  "definition": "Print.key_type_name",
  "old": "pk_X25519 => \"X25519\"",
  "new": "pk_X25519 => \"Ed25519\"",
  "edit": "copy and paste error in to_string",
  "claim": "two key types look the same",
  "breaks": "C54"
 },
 {
  "id": "prt-7",
  "file": "Print",
  "definition": "Print.entry_name",
  "old": "ce_x25519_private_key => \"x25519_private_key\"",
  "new": "ce_x25519_private_key => \"x25519_public_key\"",
  "edit": "copy and paste error in to_string",
  "claim": "a private key is shown as a public key",
  "breaks": "C54"
 },
 {
  "id": "prt-8",
  "file": "Print",
  "definition": "Print.fields_items",
  "old": "++ fields_items items (i + 1)%N rest",
  "new": "++ fields_items items i rest",
  "edit": "index of the field not incremented",
  "claim": "the extensions are numbered wrongly",
  "breaks": "C54"
 },
 {
  "id": "prt-9",
  "file": "Print",
  "definition": "Print.request_items",
  "old": "spec_items (rq_spec m) ++ constraints_items (rq_constraints m) ++",
  "new": "spec_items (rq_spec m) ++",
  "edit": "constraints not printed",
  "claim": "the log does not determine the message",
  "breaks": "C54"
 },
 {
  "id": "prt-10",
  "file": "Print",
  "definition": "Print.error_name",
  "old": "he_key_not_found => \"key_not_found\"",
  "new": "he_key_not_found => \"unknown\"",
  "edit": "missing case in to_string",
  "claim": "two errors look the same in the log",
  "breaks": "C54"
 },
 {
  "id": "prt-11",
  "file": "Print",
  "definition": "Print.print_certificates",
  "old": "| inr _ => (head, false)",
  "new": "| inr _ => (head, true)",
  "edit": "a malformed body ends the chain silently",
  "claim": "an incomplete text is taken for a complete one",
  "breaks": "C54",
  "nth": 0
 },
 {
  "id": "prt-12",
  "file": "Print",
  "definition": "Print.console_item",
  "old": "(length == \" ++ dec (N.of_nat (List.length data))",
  "new": "(length == \" ++ dec (N.of_nat (List.length data) / 16)",
  "edit": "number of lines instead of the length",
  "claim": "the length shown is wrong",
  "breaks": "C54"
 },
 {
  "id": "prt-13",
  "file": "Print",
  "definition": "Print.display",
  "old": "console 2 [Bytes \"key-data\" (cf_payload file)]",
  "new": "console 2 [Bytes \"key-data\" (firstn 32 (cf_payload file))]",
  "edit": "only 32 bytes of a key are shown",
  "claim": "bytes of the file are not shown",
  "breaks": "C54"
 },
 {
  "id": "prt-14",
  "file": "Print",
  "definition": "Print.hex_lines",
  "old": "line_prefix indentation ++ hex_bytes (firstn 16 data)",
  "new": "line_prefix indentation ++ hex_bytes (firstn 15 data)",
  "edit": "last byte of every full line not shown",
  "claim": "bytes of the file are not shown",
  "breaks": "C54"
 }
]