[
 {
  "id": "prg-1",
  "file": "Program",
  "definition": "Program.extract",
  "old": "if (max <? v)%N then",
  "new": "if (max <=? v)%N then",
  "edit": "the maximum itself is refused",
  "claim": "65535 days typed are the days (boundary)",
  "breaks": "C55"
 },
 {
  "id": "prg-2",
  "file": "Program",
  "definition": "Program.level_loop",
  "old": "if (level' <=? 6)%N then",
  "new": "if (level' <? 6)%N then",
  "edit": "wrong boundary in the loop for the level",
  "claim": "level 6 typed is accepted",
  "breaks": "C55"
 },
 {
  "id": "prg-3",
  "file": "Program",
  "definition": "Program.level_loop",
  "old": "if (level' <=? 6)%N then",
  "new": "if (level' <=? 7)%N then",
  "edit": "wrong boundary in the loop for the level",
  "claim": "7 typed is refused",
  "breaks": "C55"
 },
 {
  "id": "prg-4",
  "file": "Program",
  "definition": "Program.run_cert",
  "old": "days_to_times false now d in\n      let '(level",
  "new": "days_to_times false now (d + 1) in\n      let '(level",
  "edit": "one day too many",
  "claim": "the days entered are the days of the certificate",
  "breaks": "C55"
 },
 {
  "id": "prg-5",
  "file": "Program",
  "definition": "Program.run_cert",
  "old": "ask_level i1",
  "new": "ask_level i",
  "edit": "the level is read from the start of the input again",
  "claim": "the second number typed is the level",
  "breaks": "C55"
 },
 {
  "id": "prg-6",
  "file": "Program",
  "definition": "Program.run_cert",
  "old": "create_certificate G k f cert public private times",
  "new": "create_certificate G k f cert private public times",
  "edit": "key files swapped",
  "claim": "the files are used in the order they are given",
  "breaks": "C55"
 },
 {
  "id": "prg-7",
  "file": "Program",
  "definition": "Program.run",
  "old": "| [p; q; o] => let* r := append_certificate_chains P k f p q o in",
  "new": "| [p; q; o] => let* r := append_certificate_chains P k f q p o in",
  "edit": "chains appended in the other order",
  "claim": "the files are used in the order they are given",
  "breaks": "C55"
 },
 {
  "id": "prg-8",
  "file": "Program",
  "definition": "Program.run",
  "old": "else if ar_shared a then\n        match ar_pos a with\n        | [p] =>",
  "new": "else if ar_shared a then\n        match ar_pos a with\n        | p :: _ =>",
  "edit": "further files ignored",
  "claim": "with a wrong number of files nothing is done",
  "breaks": "C55"
 },
 {
  "id": "prg-9",
  "file": "Program",
  "definition": "Program.show_files",
  "old": "else (t, false)",
  "new": "else let (t', ok') := show_files name f rest in (t ++ t', ok')",
  "edit": "errors while showing are ignored",
  "claim": "an error is reported when a file cannot be shown",
  "breaks": "C55"
 },
 {
  "id": "prg-10",
  "file": "Program",
  "definition": "Program.show_files",
  "old": "in (t ++ t', ok') else",
  "new": "in (t' ++ t, ok') else",
  "edit": "files shown in reverse order",
  "claim": "files are shown in their order",
  "breaks": "C55"
 },
 {
  "id": "prg-11",
  "file": "Program",
  "definition": "Program.run",
  "old": "let r := gen_ed25519_key_pair G k f p q random in",
  "new": "let r := gen_ed25519_key_pair G k f q p random in",
  "edit": "private and public key files swapped",
  "claim": "the private key goes to the first file",
  "breaks": "C55"
 },
 {
  "id": "prg-12",
  "file": "Program",
  "definition": "Program.run",
  "old": "if ar_help a then nothing\n      else if ar_show a",
  "new": "if ar_show a",
  "edit": "help is not looked at first",
  "claim": "with --help nothing is done",
  "breaks": "C55"
 },
 {
  "id": "prg-13",
  "file": "Program",
  "definition": "Program.take_digits",
  "old": "(10 * acc + (c - 48))%N",
  "new": "(16 * acc + (c - 48))%N",
  "edit": "digits in base 16",
  "claim": "the number typed is the level",
  "breaks": "C55"
 },
 {
  "id": "prg-14",
  "file": "Program",
  "definition": "Program.run_cert",
  "old": "(l mod 256)%N",
  "new": "(l mod 128)%N",
  "edit": "level cut to 7 bits",
  "claim": "the level given is the level of the certificate",
  "breaks": "C55"
 },
 {
  "id": "prg-15",
  "file": "Program",
  "definition": "Program.is_space",
  "old": "(9 <=? c) && (c <=? 13) || (c =? 32)",
  "new": "(9 <=? c) && (c <? 13) || (c =? 32)",
  "edit": "carriage return is not a blank",
  "claim": "a number after a carriage return is entered",
  "breaks": "C55"
 },
 {
  "id": "prg-16",
  "file": "Program",
  "definition": "Program.run_cert",
  "old": "| Some l => (option_map Some l, [])",
  "new": "| Some l => (Some (Some match l with Some v => v | None => 0%N end), [])",
  "edit": "a level that cannot be converted is taken for 0",
  "claim": "nothing is done with a value that cannot be converted",
  "breaks": "C55"
 }
]