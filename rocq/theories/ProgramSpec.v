(** * ProgramSpec: what a command line of the certificate tool asks for

    Nothing of the model of the program is used here but the types of [Program.v] (arguments, results). *)
From Verif Require Import Base Codec Link LinkLayer Primitives Session Handshake Icf IcfSpec Print PrintSpec Program.
Local Open Scope N_scope.
Local Notation length := List.length.

(** ** Numbers that are typed *)
Definition space (c : N) : Prop := c = 32 \/ 9 <= c <= 13.
Definition digit (c : N) : Prop := 48 <= c <= 57.
(** Decimal digits, the value, leading zeros allowed *)
Definition number_text (t : text) (v : N) : Prop := t <> [] /\ Forall digit t /\ fold_left (fun a c => 10 * a + (c - 48)) t 0 = v.
(** The next thing typed is the number [v]; [rest] follows. *)
Definition entered (typed : text) (v : N) (rest : text) : Prop :=
  exists blanks t, typed = blanks ++ t ++ rest /\ Forall space blanks /\ number_text t v /\ ~ (exists c r, rest = c :: r /\ digit c).
(** Numbers are typed, the first one up to 6 is [level]. *)
Inductive level_entered (typed : text) (level : N) : Prop :=
| accepted rest : entered typed level rest -> level <= 6 -> level_entered typed level
| refused v rest : entered typed v rest -> 6 < v < 2 ^ 32 -> level_entered rest level -> level_entered typed level.
(** Only numbers above 6 are typed, until nothing more comes or a number of 2^32 or more. *)
Inductive unanswered (typed : text) : Prop :=
| no_more : Forall space typed -> unanswered typed
| too_large v rest : entered typed v rest -> 2 ^ 32 <= v -> unanswered typed
| refused_before v rest : entered typed v rest -> 6 < v < 2 ^ 32 -> unanswered rest -> unanswered typed.
(** What is typed next is not a number. *)
Definition not_a_number (typed : text) : Prop :=
  exists blanks c r, typed = blanks ++ c :: r /\ Forall space blanks /\ ~ space c /\ ~ digit c /\ c <> 43 /\ c <> 45.
(** Only blanks follow. *)
Definition at_end (typed : text) : Prop := Forall space typed.

(** ** Command lines *)
Inductive action := AHelp | AShow | AShared | AX25519 | AEd25519 | ACert | AAppend.
Definition given (a : arguments) (o : action) : bool :=
  match o with
  | AHelp => ar_help a | AShow => ar_show a | AShared => ar_shared a | AX25519 => ar_x25519 a | AEd25519 => ar_ed25519 a
  | ACert => ar_cert a | AAppend => ar_append a
  end.
(** Of the options that are given the first one in this order counts. *)
Definition order : list action := [AHelp; AShow; AShared; AX25519; AEd25519; ACert; AAppend].
Definition asks_for (a : arguments) (o : action) : Prop :=
  exists before after, order = before ++ o :: after /\ given a o = true /\ Forall (fun x => given a x = false) before.
Definition asks_for_nothing (a : arguments) : Prop := Forall (fun x => given a x = false) order \/ asks_for a AHelp.

Definition days_value (a : arguments) (typed : text) (d : N) (rest : text) : Prop :=
  (ar_days a = Some (Some d) /\ rest = typed) \/ (ar_days a = None /\ entered typed d rest /\ d < 2 ^ 16).
Definition level_value (a : arguments) (typed : text) (l : N) : Prop :=
  ar_level a = Some (Some l) \/ (ar_level a = None /\ level_entered typed l).
(** The command a command line and what is typed ask for *)
Inductive requested (a : arguments) (typed : text) (now : N) (random : list N) : command -> Prop :=
| rq_shared p : asks_for a AShared -> ar_pos a = [p] -> requested a typed now random (GenShared p random)
| rq_x25519 p q : asks_for a AX25519 -> ar_pos a = [p; q] -> requested a typed now random (GenX25519 p q random)
| rq_ed25519 p q : asks_for a AEd25519 -> ar_pos a = [p; q] -> requested a typed now random (GenEd25519 p q random)
| rq_cert c pub priv d l rest : asks_for a ACert -> ar_pos a = [c; pub; priv] -> days_value a typed d rest -> level_value a rest l ->
    requested a typed now random (Certify c pub priv now d l)
| rq_append p q o : asks_for a AAppend -> ar_pos a = [p; q; o] -> requested a typed now random (Append p q o).
(** The files a command line may change *)
Definition may_change (a : arguments) (p : N) : Prop :=
  (asks_for a AShared /\ ar_pos a = [p]) \/
  (exists q, (asks_for a AX25519 \/ asks_for a AEd25519) /\ (ar_pos a = [p; q] \/ ar_pos a = [q; p])) \/
  (exists q r, asks_for a ACert /\ ar_pos a = [p; q; r]) \/
  (exists q r, asks_for a AAppend /\ ar_pos a = [q; r; p]).
(** Values of the options are of the types uint16_t and uint8_t. *)
Definition values_ok (a : arguments) : Prop :=
  (forall d, ar_days a = Some (Some d) -> d < 2 ^ 16) /\ (forall l, ar_level a = Some (Some l) -> l < 2 ^ 8).

(** Nothing is typed when the program starts to read. *)
Definition typing (t : text) : input := {| in_text := t; in_failed := false |}.
(** The text [t] shows all the files in their order, with these contents. *)
Inductive shows_all (f : files) (name : N -> text) : list N -> text -> Prop :=
| shows_none : shows_all f name [] []
| shows_next p d c l t u : readable f p d -> holds d c -> shows (name p) c t -> shows_all f name l u -> shows_all f name (p :: l) (t ++ u).
