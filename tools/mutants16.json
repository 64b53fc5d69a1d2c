[
 {
  "id": "W1",
  "file": "Emulator",
  "definition": "write_ports",
  "old": "let (l, ok) := write_ports n (S idx) devs' f in (Wrote idx b :: l, ok)",
  "new": "([Wrote idx b], true)",
  "edit": "only the first port is written to",
  "claim": "all ports get every key",
  "breaks": "C51"
 },
 {
  "id": "W2",
  "file": "Emulator",
  "definition": "write_ports",
  "old": "([Wrote idx (firstn k b)], false)",
  "new": "let (l, ok) := write_ports n (S idx) devs' f in (Wrote idx (firstn k b) :: l, ok)",
  "edit": "the failure of a device is ignored",
  "claim": "the program ends with an error when a device fails",
  "breaks": "C51"
 },
 {
  "id": "W3",
  "file": "Emulator",
  "definition": "random_loop",
  "old": "if (i <? count)%N then\n    match ds with",
  "new": "if (i <=? count)%N then\n    match ds with",
  "edit": "one frame too many",
  "claim": "every intended key exactly once",
  "breaks": "C51"
 },
 {
  "id": "W4",
  "file": "Emulator",
  "definition": "random_loop",
  "old": "random_loop devs count delay (S n) (u64 (i + 1)) ds'",
  "new": "random_loop devs count delay (S n) i ds'",
  "edit": "the identifier is not incremented",
  "claim": "identifiers increase",
  "breaks": "C51"
 },
 {
  "id": "W5",
  "file": "Emulator",
  "definition": "write_random_frames",
  "old": "if (rate =? 0)%N then ([], Exit (-1))\n         else if",
  "new": "if",
  "edit": "a rate of zero is accepted",
  "claim": "unusable arguments are refused",
  "breaks": "C51"
 },
 {
  "id": "W6",
  "file": "Emulator",
  "definition": "add_bit",
  "old": "N.of_nat (7 - bit)",
  "new": "N.of_nat bit",
  "edit": "bits of a byte in the wrong order",
  "claim": "the key of a line is the one it spells",
  "breaks": "C51"
 },
 {
  "id": "W7",
  "file": "Emulator",
  "definition": "add_bit",
  "old": "else if (c =? 48)%N then Some s\n      else None",
  "new": "else Some s",
  "edit": "other characters count as zero",
  "claim": "lines with other characters end the program",
  "breaks": "C51"
 },
 {
  "id": "W8",
  "file": "Emulator",
  "definition": "line_key",
  "old": "if length line =? 256",
  "new": "if 256 <=? length line",
  "edit": "longer lines are accepted",
  "claim": "lines of the wrong length end the program",
  "breaks": "C51"
 },
 {
  "id": "W9",
  "file": "Emulator",
  "definition": "add_bit",
  "old": "byte * 8 + bit",
  "new": "byte * 7 + bit",
  "edit": "the bytes overlap",
  "claim": "the key of a line is the one it spells",
  "breaks": "C51"
 },
 {
  "id": "W10",
  "file": "Emulator",
  "definition": "stdin_loop",
  "old": "stdin_loop devs (S n) (u64 (key_id + 1)) lines'",
  "new": "stdin_loop devs (S n) key_id lines'",
  "edit": "the identifier is not incremented",
  "claim": "identifiers increase",
  "breaks": "C51"
 },
 {
  "id": "W11",
  "file": "Emulator",
  "definition": "stdin_loop",
  "old": "| None => ([], Exit (-1))",
  "new": "| None => stdin_loop devs n key_id lines'",
  "edit": "bad lines are skipped",
  "claim": "the program ends at the first bad line",
  "breaks": "C51"
 },
 {
  "id": "W12",
  "file": "Emulator",
  "definition": "next_event",
  "old": "Z.of_N (modulo - to_ms now mod modulo)",
  "new": "Z.of_N (to_ms now mod modulo)",
  "edit": "waits for the elapsed part of the period",
  "claim": "the frame is sent when its millisecond has come",
  "breaks": "C51"
 },
 {
  "id": "W13",
  "file": "Emulator",
  "definition": "next_event",
  "old": "modulo - to_ms now mod modulo",
  "new": "modulo",
  "edit": "waits a whole period",
  "claim": "identifiers are multiples of the period",
  "breaks": "C51"
 },
 {
  "id": "W14",
  "file": "Emulator",
  "definition": "time_loop",
  "old": "q_key := hash (be_bytes 8 key_id)",
  "new": "q_key := hash (be_bytes 8 (to_ms t))",
  "edit": "the key is derived from the time of the wake-up",
  "claim": "proxies fed by different emulators agree",
  "breaks": "C51"
 },
 {
  "id": "W15",
  "file": "Emulator",
  "definition": "time_loop",
  "old": "(SleptUntil next :: w ++ Printed f :: l, st)",
  "new": "(w ++ Printed f :: SleptUntil next :: l, st)",
  "edit": "the frame is sent before waiting",
  "claim": "a time-based frame is sent when its millisecond has come",
  "breaks": "C51"
 },
 {
  "id": "W16",
  "file": "Emulator",
  "definition": "write_time_based_frames",
  "old": "(modulo <? 100)%N",
  "new": "(modulo <? 0)%N",
  "edit": "any modulo is accepted",
  "claim": "unusable arguments are refused",
  "breaks": "C51"
 },
 {
  "id": "W17",
  "file": "Emulator",
  "definition": "write_time_based_frames",
  "old": "else if negb (open_all devs) then ([], Exit (-1))\n         else time_loop",
  "new": "else time_loop",
  "edit": "ports are not opened before writing",
  "claim": "a device that cannot be opened: nothing is written",
  "breaks": "C51"
 },
 {
  "id": "W18",
  "file": "Emulator",
  "definition": "emulator_main",
  "old": "write_time_based_frames hash devs (get_frame_count o) (u32 m) (in_clock x)",
  "new": "write_time_based_frames hash devs (u32 m) (get_frame_count o) (in_clock x)",
  "edit": "count and modulo are swapped",
  "claim": "one key per period",
  "breaks": "C51"
 },
 {
  "id": "W19",
  "file": "Emulator",
  "definition": "read_frames",
  "old": "map Printed fs",
  "new": "map Printed (rev fs)",
  "edit": "the frames are printed in reverse",
  "claim": "a reader prints the keys in order",
  "breaks": "C51"
 },
 {
  "id": "W20",
  "file": "Emulator",
  "definition": "get_frame_count",
  "old": "2 ^ 64 - 1",
  "new": "0",
  "edit": "no frames by default",
  "claim": "every intended key",
  "breaks": "C51"
 },
 {
  "id": "W21",
  "file": "Emulator",
  "definition": "random_loop",
  "old": "[Slept (delay - elapsed)]",
  "new": "[Slept delay]",
  "edit": "only the period is waited",
  "claim": "the pause is the period plus the time of the writing",
  "breaks": "C51"
 },
 {
  "id": "W22",
  "file": "Emulator",
  "definition": "time_loop",
  "old": "let key_id := to_ms next in",
  "new": "let key_id := to_ms t in",
  "edit": "the identifier is the time before waiting",
  "claim": "identifiers are multiples of the period",
  "breaks": "C51"
 },
 {
  "id": "W23",
  "file": "Emulator",
  "definition": "get_key_rate",
  "old": "None => 1 end.",
  "new": "None => 0 end.",
  "edit": "the default rate is zero",
  "claim": "the emulator works without a rate",
  "breaks": "C51"
 }
]