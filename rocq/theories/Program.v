(** * Program: model of the command line of the certificate tool

    cpp/exe/icftool/{main,Program,UserInput}.cpp, on top of the actions of [Icf.v] and the text of
    [Print.v].  The command line is given as argagg parses it (argagg is not part of the repository):
    which options are given, the values of --days and --level (or that their conversion throws), and the
    positional arguments.  What is written to std::cerr is not modelled. *)
From Verif Require Import Base Codec Link LinkLayer Primitives Session Handshake Icf Print.
From Coq Require Import Ascii String.
Local Notation length := List.length.

(** Program.h:8-18, Program.cpp:10-22.  A value: not given, or given and what option_result::as yields, None if it throws. *)
Record arguments := {
  ar_help : bool; ar_show : bool; ar_shared : bool; ar_x25519 : bool; ar_ed25519 : bool; ar_cert : bool; ar_append : bool;
  ar_days : option (option N); ar_level : option (option N);
  ar_pos : list N  (** paths; see [Icf.files] *) }.

(** ** std::cin >> x for an unsigned type with maximum [max] (libstdc++, num_get::_M_extract_int in base 10)

    The stream: what is still to be read, and whether failbit is set. *)
Record input := { in_text : text; in_failed : bool }.
Definition is_space (c : N) : bool := ((9 <=? c) && (c <=? 13) || (c =? 32))%N.
Definition is_digit (c : N) : bool := ((48 <=? c) && (c <=? 57))%N.
Fixpoint skip_space (t : text) : text :=
  match t with c :: r => if is_space c then skip_space r else t | [] => [] end.
(** the value of the digits at the beginning, how many they are, and the rest *)
Fixpoint take_digits (acc : N) (count : nat) (t : text) : N * nat * text :=
  match t with
  | c :: r => if is_digit c then take_digits (10 * acc + (c - 48))%N (S count) r else (acc, count, t)
  | [] => (acc, count, [])
  end.
(** The value afterwards ([x] before) and the stream.  When failbit is set or the end of the input is
    reached, the sentry prevents the extraction and the value stays; when there is no number it becomes 0;
    when the number is too large it becomes the maximum.  A minus sign negates the unsigned value. *)
Definition extract (max x : N) (i : input) : N * input :=
  if in_failed i then (x, i)
  else match skip_space (in_text i) with
       | [] => (x, {| in_text := []; in_failed := true |})
       | c :: r =>
           let signed := ((c =? 43) || (c =? 45))%N in
           let '(v, count, rest) := take_digits 0 0 (if signed then r else c :: r) in
           if count =? 0 then (0%N, {| in_text := rest; in_failed := true |})
           else if (max <? v)%N then (max, {| in_text := rest; in_failed := true |})
           else ((if (c =? 45)%N then (max + 1 - v) mod (max + 1) else v)%N, {| in_text := rest; in_failed := false |})
       end.

(** UserInput.cpp:8-14 get_validity_times_from_user: the days *)
Definition ask_days (i : input) : N * input := extract 65535 0 i.
(** UserInput.cpp:16-26 get_signing_level_from_user, the loop; None when it does not end: after a failed
    extraction that left a number above 6 no further extraction changes anything.  [fuel]: every other
    extraction reads at least one character. *)
Fixpoint level_loop (fuel : nat) (level : N) (i : input) : option (N * input) :=
  match fuel with
  | O => None
  | S f =>
      let (level', i') := extract 4294967295 level i in
      if (level' <=? 6)%N then Some (level', i')
      else if in_failed i' then None
      else level_loop f level' i'
  end.
Definition ask_level (i : input) : option (N * input) := level_loop (S (length (in_text i))) 256 i.

(** ** The program *)
Inductive ending :=
| Finished
| Failed   (** an exception: its text is written to std::cerr *)
| Hangs.   (** the program does not end *)
(** The files, what was written to std::cout, and how it ended *)
Record result := { rs_files : files; rs_text : text; rs_end : ending }.
Definition ends (ok : bool) : ending := if ok then Finished else Failed.

Definition endl (s : string) : text := str s ++ newline.
(** Actions.cpp:217-221: the message of Actions::write *)
Definition wrote (name : N -> text) (k : disk) (f : files) (p : N) (t : ContainerEntryType) (data : list N) : text :=
  if snd (actions_write k f p t data) then str "wrote: " ++ name p ++ newline else [].
(** The messages of the actions: Actions.cpp:57, 67, 79 *)
Definition shared_text (name : N -> text) (k : disk) (f : files) (p : N) (random : list N) : text :=
  endl "creating shared secret..." ++ wrote name k f p ce_shared_secret (firstn 32 random).
Definition pair_text (title : string) (name : N -> text) (k : disk) (f : files) (private_path public_path : N)
  (t1 t2 : ContainerEntryType) (d1 d2 : list N) : text :=
  endl title ++ wrote name k f private_path t1 d1 ++
  (let (f1, ok1) := actions_write k f private_path t1 d1 in if ok1 then wrote name k f1 public_path t2 d2 else []).

(** Program.cpp:33-39: the files in their order, until one throws *)
Fixpoint show_files (name : N -> text) (f : files) (l : list N) : text * bool :=
  match l with
  | [] => ([], true)
  | p :: rest =>
      let (t, ok) := display f (name p) p in
      if ok then let (t', ok') := show_files name f rest in (t ++ t', ok') else (t, false)
  end.

(** Program.cpp:68-92: the days, then the times (UserInput.cpp:28-34, undefined when the product of ints
    overflows), then the level.  [now]: the system clock.  When create_certificate throws nothing of it has
    been written to std::cout, unless the new certificate cannot be shown completely (which [C54_created]
    excludes); the text is then not modelled. *)
Definition run_cert (G : signer) (k : disk) (name : N -> text) (f : files) (now : N) (a : arguments) (cert public private : N) (i : input) : outcome result :=
  let '(days, t1, i1) := match ar_days a with
    | Some d => (d, [], i)
    | None => let (d, i1) := ask_days i in (Some d, endl "How many days (from now) should the certificate remain valid?", i1)
    end in
  match days with
  | None => Ok {| rs_files := f; rs_text := t1; rs_end := Failed |}
  | Some d =>
      let* times := days_to_times false now d in
      let '(level, t2) := match ar_level a with
        | Some l => (option_map Some l, [])
        | None => (Some (option_map fst (ask_level i1)), endl "Enter the certificate signing level (0 == endpoint certificate, max == 6):")
        end in
      match level with
      | None => Ok {| rs_files := f; rs_text := t1 ++ t2; rs_end := Failed |}
      | Some None => Ok {| rs_files := f; rs_text := t1 ++ t2; rs_end := Hangs |}
      | Some (Some l) =>
          let* r := create_certificate G k f cert public private times (l mod 256)%N in
          Ok {| rs_files := fst r; rs_text := t1 ++ t2 ++ (if snd r then fst (display (fst r) (name cert) cert) else []); rs_end := ends (snd r) |}
      end
  end.

(** Program.cpp:25-104 run; main.cpp:7-20.  None: the command line could not be parsed (an exception). *)
Definition run (P : prims) (G : signer) (k : disk) (name : N -> text) (f : files) (now : N) (random : list N) (args : option arguments) (i : input) : outcome result :=
  let failed := Ok {| rs_files := f; rs_text := []; rs_end := Failed |} in
  let nothing := Ok {| rs_files := f; rs_text := []; rs_end := Finished |} in
  match args with
  | None => failed
  | Some a =>
      if ar_help a then nothing
      else if ar_show a then let (t, ok) := show_files name f (ar_pos a) in Ok {| rs_files := f; rs_text := t; rs_end := ends ok |}
      else if ar_shared a then
        match ar_pos a with
        | [p] => let r := gen_shared_secret k f p random in
                 Ok {| rs_files := fst r; rs_text := shared_text name k f p random; rs_end := ends (snd r) |}
        | _ => failed
        end
      else if ar_x25519 a then
        match ar_pos a with
        | [p; q] => let r := gen_x25519_key_pair P k f p q random in
                    Ok {| rs_files := fst r; rs_end := ends (snd r);
                          rs_text := pair_text "generating x25519 key pair..." name k f p q ce_x25519_private_key ce_x25519_public_key random (p_dh_public P random) |}
        | _ => failed
        end
      else if ar_ed25519 a then
        match ar_pos a with
        | [p; q] => let r := gen_ed25519_key_pair G k f p q random in
                    Ok {| rs_files := fst r; rs_end := ends (snd r);
                          rs_text := pair_text "generating Ed25519 key pair" name k f p q ce_ed25519_private_key ce_ed25519_public_key (sg_secret G random) (sg_public G random) |}
        | _ => failed
        end
      else if ar_cert a then
        match ar_pos a with
        | [cert; public; private] => run_cert G k name f now a cert public private i
        | _ => failed
        end
      else if ar_append a then
        match ar_pos a with
        | [p; q; o] => let* r := append_certificate_chains P k f p q o in
                       Ok {| rs_files := fst r; rs_text := []; rs_end := ends (snd r) |}
        | _ => failed
        end
      else nothing
  end.
(** main.cpp:12-19: the exit status, if it ends *)
Definition exit_status (r : result) : option N := match rs_end r with Hangs => None | _ => Some 0%N end.
