(** * Icf: model of the certificate tool (cpp/exe/icftool) *)
From Verif Require Import Base Codec Link LinkLayer Primitives Session Handshake.

(** ** The signing half of Ed25519, which the rest of the development does not use

    crypto_sign_keypair (Backend.cpp:127-137) as a function of the random seed, and
    crypto_sign_detached (Backend.cpp:139-145). *)
Record signer := {
  sg_public : list N -> list N;
  sg_secret : list N -> list N;
  sg_sign : list N -> list N -> list N   (** secret key, message *)
}.

(** ** Files *)

(** The contents of the files by path.  A path is a number: the tool only passes paths on. *)
Definition files := N -> option (list N).
Definition set_file (f : files) (p : N) (d : list N) : files := fun q => if N.eqb q p then Some d else f q.

(** What happens when a file is opened for writing and written: everything is stored, it cannot
    be opened, or only the first [n] bytes arrive. *)
Inductive fate := Stored | NotOpened | Truncated (n : nat).
Definition disk := N -> fate.

(** SecureFile.cpp:8-34 read, with the default limit of SecureFile.h:19; None when it throws.
    An error while reading an open file is not modelled. *)
Definition file_read (f : files) (p : N) : option (list N) :=
  match f p with
  | None => None
  | Some data => if length data <=? 0 then None else if 4096 <? length data then None else Some data
  end.

(** SerializationUtils.h:14-29 to_any_buffer; None when it throws *)
Definition to_buffer {A} (size : A -> nat) (write : A -> writer) (value : A) : option (list N) :=
  match write value (size value) with
  | WErr => None
  | WOk bytes => if length bytes <? size value then None else Some bytes
  end.

(** SecureFile.h:29-41 write: the files afterwards, false when it throws.  std::ofstream truncates
    the file when it is opened. *)
Definition file_put (k : disk) (f : files) (p : N) (data : list N) : files * bool :=
  match k p with
  | NotOpened => (f, false)
  | Stored => (set_file f p data, true)
  | Truncated n => (set_file f p (firstn n data), false)
  end.
(** SecureFile.h:21-26 write of an item (here always a ContainerFile) *)
Definition file_write (k : disk) (f : files) (p : N) (item : ContainerFile) : files * bool :=
  match to_buffer container_size container_write item with
  | None => (f, false)
  | Some bytes => file_put k f p bytes
  end.
(** Actions.cpp:217-221 Actions::write *)
Definition actions_write (k : disk) (f : files) (p : N) (t : ContainerEntryType) (data : list N) : files * bool :=
  file_write k f p {| cf_type := t; cf_payload := data |}.

(** ** Validity times *)

(** A product of two [int]s: undefined when it does not fit (32 bits).  With [wrap] it is what a
    compiler with two's complement arithmetic (-fwrapv) computes. *)
Definition int_mul (wrap : bool) (a b : Z) : outcome Z :=
  let v := (a * b)%Z in
  if ((-2147483648 <=? v) && (v <=? 2147483647))%Z then Ok v
  else if wrap then Ok ((v + 2147483648) mod 4294967296 - 2147483648)%Z
  else UB.

(** UserInput.cpp:28-34 days_to_times: [days] (uint16_t) is promoted to int; the sum is a
    uint64_t.  [now] is the clock in milliseconds. *)
Definition days_to_times (wrap : bool) (now days : N) : outcome (N * N) :=
  let* a := int_mul wrap (Z.of_N days) 86400 in
  let* b := int_mul wrap a 1000 in
  Ok (now, Z.to_N ((Z.of_N now + b) mod 2 ^ 64)).

(** ** Actions *)

(** Actions.cpp:208-215 with parse_or_throw (18-27): expect_certificate_chain of a parsed file *)
Definition expect_certificate_chain (file : ContainerFile) : option (list CertificateEnvelope) :=
  if negb (entry_eqb (cf_type file) ce_certificate_chain) then None
  else match read_all chain_read (cf_payload file) with inl c => Some c | inr _ => None end.
(** Actions.cpp:18-27 parse_or_throw<ContainerFile> of a file *)
Definition read_container (f : files) (p : N) : option ContainerFile :=
  match file_read f p with
  | None => None
  | Some data => match read_all container_read data with inl c => Some c | inr _ => None end
  end.

(** Actions.cpp:223-250 print_certificate_chain, whether it finishes *)
Definition print_certificate_chain (data : list N) : bool :=
  match read_all chain_read data with
  | inr _ => false
  | inl chain => forallb (fun e => match read_all body_read (env_body e) with inl _ => true | inr _ => false end) chain
  end.
(** Actions.cpp:29-53 print_contents, whether it finishes *)
Definition print_contents (f : files) (p : N) : bool :=
  match read_container f p with
  | None => false
  | Some file => if entry_eqb (cf_type file) ce_certificate_chain then print_certificate_chain (cf_payload file) else true
  end.

(** Actions.cpp:55-63 gen_shared_secert; [random] is what the generator yields *)
Definition gen_shared_secret (k : disk) (f : files) (p : N) (random : list N) : files * bool :=
  actions_write k f p ce_shared_secret (firstn 32 random).

(** Actions.cpp:65-75 gen_x25519_key_pair, Backend.cpp:105-115 *)
Definition gen_x25519_key_pair (P : prims) (k : disk) (f : files) (private_path public_path : N) (random : list N) : files * bool :=
  let '(f1, ok1) := actions_write k f private_path ce_x25519_private_key random in
  if ok1 then actions_write k f1 public_path ce_x25519_public_key (p_dh_public P random) else (f1, false).

(** Actions.cpp:77-87 gen_ed25519_key_pair, Backend.cpp:127-137 *)
Definition gen_ed25519_key_pair (G : signer) (k : disk) (f : files) (private_path public_path : N) (random : list N) : files * bool :=
  let '(f1, ok1) := actions_write k f private_path ce_ed25519_private_key (sg_secret G random) in
  if ok1 then actions_write k f1 public_path ce_ed25519_public_key (sg_public G random) else (f1, false).

(** Actions.cpp:89-134 append_certificate_chains *)
Definition append_certificate_chains (P : prims) (k : disk) (f : files) (path_1 path_2 output : N) : outcome (files * bool) :=
  let fail := Ok (f, false) in
  match read_container f path_1 with None => fail | Some file_1 =>
  match expect_certificate_chain file_1 with None => fail | Some chain_1 =>
  match read_container f path_2 with None => fail | Some file_2 =>
  match expect_certificate_chain file_2 with None => fail | Some chain_2 =>
  if is_empty chain_1 then fail
  else if negb (length chain_2 =? 1) then fail
  else match read_all body_read (env_body (last chain_1 {| env_signature := []; env_body := [] |})) with
  | inr _ => fail
  | inl last_body =>
      let* r := chain_verify P sodium_supports last_body chain_2 in
      match r with
      | inr _ => fail
      | inl _ =>
          let chain := chain_1 ++ chain_2 in
          if max_certificates <? length chain then fail
          else match to_buffer chain_size chain_write chain with
               | None => fail
               | Some chain_bytes => Ok (file_write k f output {| cf_type := ce_certificate_chain; cf_payload := chain_bytes |})
               end
      end
  end end end end end.

(** Backend.cpp:139-145 sign_ed25519: crypto_sign_detached reads 64 bytes of the key whatever its
    length. *)
Definition sign_ed25519 (G : signer) (data key : list N) : outcome (list N) :=
  if length key <? 64 then UB else Ok (sg_sign G (firstn 64 key) data).
(** Actions.cpp:177-190 calc_signature; None when it throws *)
Definition calc_signature (G : signer) (data : list N) (private_key_entry : ContainerFile) : outcome (option (list N)) :=
  match cf_type private_key_entry with
  | ce_ed25519_private_key => let* s := sign_ed25519 G data (cf_payload private_key_entry) in Ok (Some s)
  | _ => Ok None
  end.
(** Actions.cpp:192-206 get_public_key_type; None when it throws *)
Definition get_public_key_type (file : ContainerFile) : option PublicKeyType :=
  match cf_type file with
  | ce_ed25519_public_key => if negb (length (cf_payload file) =? 32) then None else Some pk_Ed25519
  | ce_x25519_public_key => if negb (length (cf_payload file) =? 32) then None else Some pk_X25519
  | _ => None
  end.

(** Actions.cpp:136-175 create_certificate *)
Definition create_certificate (G : signer) (k : disk) (f : files) (certificate_path public_path private_path : N)
  (times : N * N) (signing_level : N) : outcome (files * bool) :=
  let fail := Ok (f, false) in
  match read_container f private_path with None => fail | Some private_key_entry =>
  match read_container f public_path with None => fail | Some public_key_entry =>
  match get_public_key_type public_key_entry with None => fail | Some key_type =>
  let body := {| cb_valid_after := fst times; cb_valid_before := snd times; cb_signing_level := signing_level;
                 cb_key_type := key_type; cb_public_key := cf_payload public_key_entry; cb_extensions := [] |} in
  match to_buffer body_size body_write body with None => fail | Some body_bytes =>
  let* s := calc_signature G body_bytes private_key_entry in
  match s with None => fail | Some signature =>
  let envelope := {| env_signature := signature; env_body := firstn (N.to_nat (u16 (N.of_nat (length body_bytes)))) body_bytes |} in
  match to_buffer chain_size chain_write [envelope] with None => fail | Some chain_bytes =>
  let '(f1, ok) := file_write k f certificate_path {| cf_type := ce_certificate_chain; cf_payload := chain_bytes |} in
  if ok then Ok (f1, print_contents f1 certificate_path) else Ok (f1, false)
  end end end end end end.

(** ** Commands: Program.cpp:25-118 run, after the command line has been parsed.  The values the
    user types are uint16_t (days) and uint8_t (level). *)
Inductive command :=
| Show (path : N)
| GenShared (path : N) (random : list N)
| GenX25519 (private_path public_path : N) (random : list N)
| GenEd25519 (private_path public_path : N) (random : list N)
| Certify (certificate_path public_path private_path : N) (now days level : N)
| Append (path_1 path_2 output : N).

Definition run_command (P : prims) (G : signer) (k : disk) (f : files) (c : command) : outcome (files * bool) :=
  match c with
  | Show p => Ok (f, print_contents f p)
  | GenShared p r => Ok (gen_shared_secret k f p r)
  | GenX25519 a b r => Ok (gen_x25519_key_pair P k f a b r)
  | GenEd25519 a b r => Ok (gen_ed25519_key_pair G k f a b r)
  | Certify c pub priv now days level =>
      let* times := days_to_times false now days in
      create_certificate G k f c pub priv times level
  | Append a b o => append_certificate_chains P k f a b o
  end.

(** Successive runs of the tool, each on its own disk conditions *)
Fixpoint run_commands (P : prims) (G : signer) (f : files) (l : list (disk * command)) : outcome files :=
  match l with
  | [] => Ok f
  | (k, c) :: rest => let* r := run_command P G k f c in run_commands P G (fst r) rest
  end.
