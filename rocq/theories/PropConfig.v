(** * C47: the proxy's configuration *)
From Coq Require String Ascii.
From Verif Require Import Base BaseFacts Codec CodecSpec CodecFacts Link LinkSpec LinkLayer Primitives Session SessionFacts SessionMain Handshake HandshakeSpec HandshakeFacts HandshakePair
  Endpoint PairSpec Stack StackSpec Icf IcfSpec IcfFacts Qix QixSpec Config ConfigSpec ConfigFacts ConfigUse PropHandshake PropIcf PropQix.
Import String.StringSyntax.
#[local] Open Scope string_scope.
#[local] Open Scope nat_scope.

(** ** Reading *)

(** Exactly the files that describe sources and sessions are accepted, and the sessions are the
    described ones, for every library of conversions, machine and content of the disk. *)
Theorem C47_accepted : forall L M f root plans, library_ok L -> files_ok f ->
  ((exists r, read L M f root = ret (r, plans)) <-> exists ids, says L M f root ids plans).
Proof. intros. apply read_iff; assumption. Qed.
Print Assumptions C47_accepted.

(** A file describes one list of sessions. *)
Theorem C47_unambiguous : forall L M f root ids ids' plans plans', library_ok L -> files_ok f ->
  says L M f root ids plans -> says L M f root ids' plans' -> plans = plans'.
Proof.
  intros L M f root ids ids' ps ps' OL F H H'. destruct (proj2 (read_iff L M f root ps OL F) (ex_intro _ ids H)) as (r & R).
  destruct (proj2 (read_iff L M f root ps' OL F) (ex_intro _ ids' H')) as (r' & R'). rewrite R in R'. apply ret_inj in R'. congruence.
Qed.
Print Assumptions C47_unambiguous.

(** Reading ends with a result or with an exception, if every duration in the file fits into 64 bits; *)
Theorem C47_defined_partial : forall L M f root, library_ok L -> durations_fit L root -> exists o, read L M f root = Ok o.
Proof. exact d_read. Qed.
Print Assumptions C47_defined_partial.

(** After reading, the sources are the described ones, with the described numbers of subscribers, and
    the key stores bound at them are those of the sessions. *)
Theorem C47_registry : forall L M f root r plans, library_ok L -> files_ok f -> read L M f root = ret (r, plans) ->
  exists ids, says L M f root ids plans /\
  (forall id n, In (id, n) ids <-> exists s, find_source r id = Some s /\ src_subscribers s = n) /\
  (forall id s sub, find_source r id = Some s -> (In sub (map sub_id (src_stores s)) <-> In (id, sub) (concat (map store_of plans)))).
Proof.
  intros L M f root r ps OL F H. unfold read in H. apply rbind_iff in H as (so & H1 & H). apply rbind_iff in H as ([r1 js] & H2 & H). apply rbind_iff in H as (se & H3 & H).
  apply require_iff in H1, H3. destruct so as [| |so|]; try discriminate. destruct se as [| |se|]; try discriminate. cbn [foreach] in H2, H.
  apply (sources_read L M OL _ _ _ _ _ reg_nil) in H2 as (ids & I & S & D). cbn in I, D. destruct (sessions_read L f OL F _ _ _ _ _ _ I H) as (T & I2 & D2 & Inc). cbn in I2, D2.
  exists ids. split; [split; [eauto|split; [eauto|split; [apply D; constructor|split; [apply D2; constructor|exact Inc]]]]|]. split; [apply I2|].
  intros id s sub E. rewrite <- (proj2 I2 id s sub E), existsb_exists, in_map_iff. split; intros (x & A & B); exists x; [split; [exact B|apply N.eqb_eq, A]|split; [apply N.eqb_eq, B|exact A]].
Qed.
Print Assumptions C47_registry.

(** ** The stacks *)

(** A stack created for a session is what the theorems about endpoints and stacks require: the
    limits fit the message fields, what it presents can be encoded, the algorithms are supported; over TCP it
    has the link layer, with 16-bit addresses. *)
Theorem C47_stack : forall L M f root r plans p P S C, library_ok L -> files_ok f -> read L M f root = ret (r, plans) -> In p plans ->
  create_stack P S (pl_factory p) = ret C ->
  conf_typed C /\ (e_max_payload (c_env C) < 65536)%N /\ c_via_stack C = true /\
  match c_role C with
  | Initiator c => limits_ok (ic_limits c) /\ initiator_ok (ic_handshake c) /\ initiator_constructible S (ic_handshake c) = true
  | Responder h => responder_ok h
  end /\
  match fa_addresses (pl_factory p) with
  | Some a => stack_of C a /\ (a_source a < 65536)%N /\ (a_destination a < 65536)%N
  | None => e_kind (c_env C) = FRaw /\ exists a b c d, pl_transport p = Udp a b c d
  end.
Proof. intros L M f root r ps p P S C OL F H I K. destruct (read_session _ _ _ _ _ _ _ OL F H I) as (n & Sn). eapply usable_stack; eauto. Qed.
Print Assumptions C47_stack.

(** Its role, its credentials and its settings are the configured ones. *)
Theorem C47_settings : forall P S fac C, create_stack P S fac = ret C ->
  e_prims (c_env C) = P /\ c_supports C = S /\ e_kind (c_env C) = match fa_addresses fac with Some a => FLink a | None => FRaw end /\
  match fa_role fac, c_role C with
  | FInitiator g suite c, Initiator i =>
      ic_limits i = ig_limits g /\ ic_nonce_trigger i = ig_nonce_trigger g /\ e_ttl_pad_ms (c_env C) = ig_ttl_pad_ms g /\ c_payload_size C = N.to_nat (ig_max_payload g) /\
      match c, ic_handshake i with
      | CSecret k, ISharedSecret s k' => s = suite /\ k = k'
      | CQkd _, IQkd s => s = suite
      | CPreshared _ p re, IPublicKey s p' h => s = suite /\ p = p' /\ h = Preshared re
      | CCertificates _ p an ch, IPublicKey s p' h => s = suite /\ p = p' /\ make_industrial P S an ch = Ok (Some h)
      | _, _ => False
      end
  | FResponder g c, Responder h =>
      e_ttl_pad_ms (c_env C) = rg_ttl_pad_ms g /\ c_payload_size C = N.to_nat (rg_max_payload g) /\
      match c, h with
      | CSecret k, RSharedSecret k' => k = k'
      | CQkd _, RQkd => True
      | CPreshared _ p re, RPublicKey p' h => p = p' /\ h = Preshared re
      | CCertificates _ p an ch, RPublicKey p' h => p = p' /\ make_industrial P S an ch = Ok (Some h)
      | _, _ => False
      end
  | _, _ => False
  end.
Proof.
  intros P S [a role] C H. cbn [fa_addresses fa_role]. destruct role as [g suite c|g c].
  - apply create_initiator in H as (h & hs & H1 & H2 & H3 & Hr & (E & Hs & Hp & _)). rewrite E, Hr. cbn. repeat split; auto.
    pose proof (handler_some P S c h suite H1 hs H2) as Y. destruct c; [subst hs; auto|subst hs; auto| |]; destruct Y as (gd & -> & ->); cbn [make_handler] in H1.
    + apply ret_inj in H1. injection H1 as <-. auto.
    + apply rbind_iff in H1 as (x & H1 & X). apply ret_inj in X. injection X as ->. auto.
  - apply create_responder in H as (h & hs & H1 & H2 & Hr & (E & Hs & Hp & _)). rewrite E, Hr. cbn. repeat split; auto.
    pose proof (handler_some_r P S c h H1 hs H2) as Y. destruct c; [subst hs; auto|subst hs; auto| |]; destruct Y as (gd & -> & ->); cbn [make_handler] in H1.
    + apply ret_inj in H1. injection H1 as <-. auto.
    + apply rbind_iff in H1 as (x & H1 & X). apply ret_inj in X. injection X as ->. auto.
Qed.
Print Assumptions C47_settings.

(** Two files whose credentials suit each other yield stacks whose handshake completes, whatever the
    random numbers, with matching session keys and with the algorithm and the limits of the
    initiator's file. *)
Theorem C47_pair : forall P S L1 M1 f1 root1 r1 plans1 p1 g suite ci C1 L2 M2 f2 root2 r2 plans2 p2 g2 cr C2 ia ans t0 t1 t2,
  prims_ok P -> sup_ed25519 S = true -> (forall x y, dh_defined P x y) ->
  library_ok L1 -> files_ok f1 -> read L1 M1 f1 root1 = ret (r1, plans1) -> In p1 plans1 ->
  library_ok L2 -> files_ok f2 -> read L2 M2 f2 root2 = ret (r2, plans2) -> In p2 plans2 ->
  fa_role (pl_factory p1) = FInitiator g suite ci -> create_stack P S (pl_factory p1) = ret C1 -> short_chain ci ->
  fa_role (pl_factory p2) = FResponder g2 cr -> create_stack P S (pl_factory p2) = ret C2 -> short_chain cr ->
  ianswers_ok ia -> answers_ok ans -> suits P (qkd_ready ia ans) ci cr -> (t0 <= t2)%Z ->
  exists hi hr request reply si sr, c_role C1 = Initiator {| ic_handshake := hi; ic_limits := ig_limits g; ic_nonce_trigger := ig_nonce_trigger g |} /\ c_role C2 = Responder hr /\
    exchange (c_env C1) (c_env C2) S S hi hr (ig_limits g) ia ans t0 t1 t2 request reply si sr /\ matching si sr /\
    s_crypto_mode sr = sp_crypto_mode suite /\ p_max_nonce (s_param sr) = l_max_nonce (ig_limits g) /\ p_max_time (s_param sr) = (Z.of_N (l_max_time_ms (ig_limits g)) * 1000000)%Z.
Proof.
  intros. destruct (read_session L1 M1 f1 root1 r1 plans1 p1) as (n1 & S1); auto. destruct (read_session L2 M2 f2 root2 r2 plans2 p2) as (n2 & S2); auto.
  eapply (pair_works P S L1 f1 n1 p1 g suite ci C1 L2 f2 n2 p2 g2 cr C2); eauto.
Qed.
Print Assumptions C47_pair.

(** The files the tool writes are the ones the proxy reads. *)
Theorem C47_tool_keys : forall P G k L f random n key path, prims_ok P -> signer_ok P G -> works k -> length random = 32 -> bytes_ok random -> text n key path ->
  (exists f', run_command P G k f (GenShared (file_at L path) random) = Ok (f', true) /\ key_in L f' n key ce_shared_secret random) /\
  (forall other, other <> file_at L path ->
     (exists f', run_command P G k f (GenX25519 (file_at L path) other random) = Ok (f', true) /\ key_in L f' n key ce_x25519_private_key random) /\
     (exists f', run_command P G k f (GenX25519 other (file_at L path) random) = Ok (f', true) /\ key_in L f' n key ce_x25519_public_key (p_dh_public P random))).
Proof.
  intros P G k L f random n key path HP HG W Lr B T.
  assert (K : forall f' t d, length d = 32 -> f' (file_at L path) = Some (file_of t d) -> key_in L f' n key t d).
  { intros f' t d Ld E. exists path. split; [exact T|]. split; [|exact Ld]. split; [exact E|]. unfold file_of, wire_container, wire_seq. cbn [cf_payload cf_type]. rewrite !app_length, Ld, (der_small (N.of_nat 32)) by reflexivity. cbn [length]. lia. }
  split.
  - cbn [run_command]. unfold gen_shared_secret. rewrite firstn_all2 by lia. rewrite write_ok, put_works; auto; [|apply (seq_ok_len _ 32); auto; reflexivity].
    eexists. split; [reflexivity|]. apply K; [exact Lr|apply set_same].
  - intros other Ne. destruct (ok_dh_public P HP random) as [L2 B2]. split.
    + destruct (C43_keys P G k f (file_at L path) other random HP HG W Lr B) as ((f' & R & E & _) & _); [auto|]. exists f'. split; [exact R|]. apply K; auto.
    + destruct (C43_keys P G k f other (file_at L path) random HP HG W Lr B) as ((f' & R & _ & E) & _); [auto|]. exists f'. split; [exact R|]. apply K; auto.
Qed.
Print Assumptions C47_tool_keys.

(** ** Starting *)

(** The proxy runs exactly when the file is accepted, has a session, the addresses are addresses, the
    listening sockets can be bound and the stacks of the UDP sessions can be created. *)
Definition starts (P : prims) (S : supports) (L : library) (M : machine) (p : session_plan) (c : option econf) : Prop :=
  match pl_transport p, c with
  | Tcp _ listen connect, None => is_address L (ip_address listen) = true /\ is_address L (ip_address connect) = true /\ binds M (ip_address listen) (ip_port listen) = true
  | Udp a b d e, Some C => Forall (fun x => is_address L (ip_address x) = true) [a; b; d; e] /\ Forall (fun x => binds M (ip_address x) (ip_port x) = true) [a; d] /\
      create_stack P S (pl_factory p) = ret C
  | _, _ => False
  end.
Lemma starts_iff P S L M p c : construct L M p = true /\ start P S M p = ret c <-> starts P S L M p c.
Proof.
  unfold construct, start, starts, usable, bindable. destruct (pl_transport p) as [mx l c0|a b d e].
  - rewrite !andb_true_iff. split; [intros [((A & B) & C) H]; apply ret_inj in H; subst c; auto|]. destruct c; [tauto|]. intros (A & B & C). auto.
  - rewrite !andb_true_iff. split.
    + intros [(((A1 & A2) & A3) & A4) H]. destruct (_ && _) eqn:E; [|discriminate]. apply andb_true_iff in E as [E1 E2]. apply rbind_iff in H as (C & H & X). apply ret_inj in X. subst c. repeat constructor; auto.
    + destruct c as [C|]; [|tauto]. intros (A & B & H). inversion A as [|? ? A1 A']; subst. inversion A' as [|? ? A2 A'']; subst. inversion A'' as [|? ? A3 A4]; subst. inversion A4; subst.
      inversion B as [|? ? B1 B']; subst. inversion B' as [|? ? B2 _]; subst. split; [auto|]. rewrite B1, B2. cbn. rewrite H. reflexivity.
Qed.
Lemma start_all_iff P S M l cs : start_all P S M l = ret cs <-> Forall2 (fun p c => start P S M p = ret c) l cs.
Proof.
  revert cs. induction l as [|p l IH]; intros cs; cbn [start_all].
  - split; [intros H; apply ret_inj in H; subst; constructor|intros H; inversion H; reflexivity].
  - split.
    + intros H. apply rbind_iff in H as (c & H1 & H). apply rbind_iff in H as (r & H2 & H). apply ret_inj in H. subst cs. constructor; [exact H1|apply IH, H2].
    + intros H. inversion H as [|? c ? r H1 H2]; subst. apply (bind_ret _ _ _ _ H1). apply IH in H2. apply (bind_ret _ _ _ _ H2). reflexivity.
Qed.
Lemma launch_tail P S L M (r : registry) ps r' st :
  (if forallb (construct L M) ps then rbind (start_all P S M ps) (fun cs => ret (r, combine ps cs)) else throw) = ret (r', st) <->
  r' = r /\ map fst st = ps /\ Forall (fun x => starts P S L M (fst x) (snd x)) st.
Proof.
  split.
  - intros H. destruct (forallb (construct L M) ps) eqn:K; [|discriminate]. apply rbind_iff in H as (cs & H & X). apply ret_inj in X. injection X as -> <-. apply start_all_iff in H.
    split; [reflexivity|]. rewrite forallb_forall in K. induction H as [|p c ps cs H1 H IH]; [split; [reflexivity|constructor]|]. destruct IH as [I1 I2]; [intros x Hx; apply K; right; exact Hx|].
    cbn. rewrite I1. split; [reflexivity|]. constructor; [cbn; apply starts_iff; split; [apply K; left; reflexivity|exact H1]|exact I2].
  - intros (-> & <- & F). assert (X : forallb (construct L M) (map fst st) = true /\ Forall2 (fun p c => start P S M p = ret c) (map fst st) (map snd st)).
    { induction F as [|[p c] st H F IH]; [split; [reflexivity|constructor]|]. apply starts_iff in H as [H1 H2]. destruct IH as [I1 I2]. cbn in *. rewrite H1. split; [exact I1|constructor; assumption]. }
    destruct X as [X1 X2]. rewrite X1. apply start_all_iff in X2. apply (bind_ret _ _ _ _ X2). clear. f_equal. f_equal. f_equal. induction st as [|[p c] st IH]; [reflexivity|]. cbn. rewrite IH. reflexivity.
Qed.
Theorem C47_launch : forall P S L M f root r started, launch P S L M f root = ret (r, started) <->
  read L M f root = ret (r, map fst started) /\ started <> [] /\ Forall (fun x => starts P S L M (fst x) (snd x)) started.
Proof.
  intros P S L M f root r st. unfold launch. split.
  - intros H. apply rbind_iff in H as ([r1 ps] & H1 & H). destruct ps as [|p0 ps0]; [discriminate|]. apply launch_tail in H as (-> & E & F). rewrite E. split; [exact H1|]. split; [|exact F]. intros ->. discriminate.
  - intros (H & Ne & F). rewrite H. cbn [rbind]. destruct st as [|x st]; [destruct Ne; reflexivity|]. apply (proj2 (launch_tail P S L M r (map fst (x :: st)) r (x :: st))). auto.
Qed.
Print Assumptions C47_launch.

(** Starting ends with a running proxy or with an exception, if the durations fit and no session uses
    certificates (whose check is undefined for short keys, C36). *)
Theorem C47_launch_defined_partial : forall P S L M f root, library_ok L -> durations_fit L root ->
  (forall r plans p, read L M f root = ret (r, plans) -> In p plans -> credentials_mode (role_credentials (fa_role (pl_factory p))) <> hm_industrial_certificates) ->
  exists o, launch P S L M f root = Ok o.
Proof.
  intros P S L M f root OL D NC. unfold launch. apply defined_bind; [apply d_read; assumption|]. intros [r ps] H. specialize (NC r ps).
  assert (K : forall p, In p ps -> defined (start P S M p)).
  { intros p Hp. specialize (NC p H Hp). unfold start. destruct (pl_transport p); [apply defined_ret|]. destruct (_ && _); [|apply defined_throw]. apply defined_bind; [|intros; apply defined_ret].
    unfold create_stack. assert (X : defined (make_handler P S (role_credentials (fa_role (pl_factory p))))).
    { destruct (role_credentials (fa_role (pl_factory p))); cbn [make_handler]; try apply defined_ret. destruct NC. reflexivity. }
    destruct (fa_role (pl_factory p)) as [g suite c|g c]; (apply defined_bind; [exact X|]); intros h _.
    - destruct (make_initiator suite c h); [|apply defined_throw]. destruct (initiator_constructible S i); [apply defined_ret|apply defined_throw].
    - destruct (make_responder c h); [apply defined_ret|apply defined_throw]. }
  destruct ps as [|p ps]; [apply defined_throw|]. destruct (forallb _ _); [|apply defined_throw]. apply defined_bind; [|intros; apply defined_ret].
  clear - K. induction (p :: ps) as [|q l IH]; cbn [start_all]; [apply defined_ret|]. apply defined_bind; [apply K; left; reflexivity|]. intros c _. apply defined_bind; [|intros; apply defined_ret]. apply IH. intros x Hx. apply K. right. exact Hx.
Qed.
Print Assumptions C47_launch_defined_partial.

(** ** Examples: the files of /repo/config/proxy *)
Fixpoint digits (s : string) (acc : Z) : option Z :=
  match s with
  | String.EmptyString => Some acc
  | String.String c s' => let d := (Z.of_N (Ascii.N_of_ascii c) - 48)%Z in if ((0 <=? d) && (d <=? 9))%Z then digits s' (acc * 10 + d)%Z else None
  end.
Definition in64 (o : option Z) : option Z := match o with Some z => if ((min_i64 <=? z) && (z <=? max_i64))%Z then Some z else None | None => None end.
Definition decimal (s : string) : option Z :=
  match s with
  | String.EmptyString => None
  | String.String c s' => in64 (if Ascii.eqb c (Ascii.ascii_of_N 45) then match s' with String.EmptyString => None | _ => option_map Z.opp (digits s' 0) end else digits s 0)
  end.
Definition ex_L : library := {|
  as_int64 := decimal; as_bool s := if String.eqb s "true" then Some true else if String.eqb s "false" then Some false else None;
  is_address _ := true; file_at s := N.of_nat (String.length s) |}.
Definition ex_M : machine := {| opens _ := true; binds _ _ := true |}.
Lemma ex_library : library_ok ex_L.
Proof.
  intros s z H. assert (X : in64 (Some z) = Some z).
  { cbn in H. unfold decimal in H. destruct s as [|c s]; [discriminate|]. destruct (if Ascii.eqb c _ then _ else _) as [y|]; [|discriminate].
    cbn [in64] in *. destruct (_ && _)%Z eqn:E; [|discriminate]. injection H as ->. rewrite E. reflexivity. }
  cbn [in64] in X. destruct (_ && _)%Z eqn:E; [|discriminate]. apply andb_true_iff in E as [E1 E2]. apply Z.leb_le in E1, E2. unfold fits64, min_i64, max_i64 in *. lia.
Qed.

Definition s_ (x : string) : node := NScalar x.
Definition ex_duration (v u : string) : node := NMap [("value", s_ v); ("unit", s_ u)].
Definition ex_endpoint (port : string) : node := NMap [("address", s_ "127.0.0.1"); ("port", s_ port)].
Definition ex_tcp (listen connect : string) : node :=
  NMap [("type", s_ "tcp"); ("max_sessions", s_ "1"); ("listen", ex_endpoint listen); ("connect", ex_endpoint connect)].
Definition ex_link (local remote : string) : node := NMap [("enabled", s_ "true"); ("address", NMap [("local", s_ local); ("remote", s_ remote)])].
Definition ex_file (sources : list node) (link transport : node) (mode : string) (session handshake : list (string * node)) : node :=
  NMap [("qkd_sources", NSeq sources);
        ("sessions", NSeq [NMap [("id", s_ "session1"); ("levels", s_ "iwemf"); ("link_layer", link);
                                 ("security", NMap [("mode", s_ mode); ("session", NMap session); ("handshake", NMap handshake)]);
                                 ("transport", transport)]])].
Definition ex_common : list (string * node) := [("max_payload_size", s_ "4096"); ("ttl_pad", ex_duration "10" "seconds")].
Definition ex_session : list (string * node) := ex_common ++
  [("max_nonce_value", s_ "32768"); ("nonce_renegotiation_trigger_value", s_ "32700");
   ("max_session_duration", ex_duration "1" "hours"); ("session_time_renegotiation_trigger", ex_duration "59" "minutes")].
Definition ex_timeouts : list (string * node) := [("response_timeout", ex_duration "2" "seconds"); ("retry_timeout", ex_duration "5" "seconds")].
Definition ex_algorithms (m : string) : string * node := ("algorithms", NMap [("session_crypto_mode", s_ m)]).
Definition ex_secret : list (string * node) := [("type", s_ "shared_secret"); ("shared_secret_key_path", s_ "./shared_secret.icf")].
(** config/proxy/shared_secret/tcp/initiator.yml and responder.yml *)
Definition ex_initiator : node :=
  ex_file [] (ex_link "10" "1") (ex_tcp "20000" "20001") "initiator" ex_session (ex_algorithms "hmac_sha256_16" :: ex_timeouts ++ ex_secret).
Definition ex_responder : node := ex_file [] (ex_link "1" "10") (ex_tcp "20001" "20002") "responder" ex_common ex_secret.
(** The disk holds the secret (the path has 19 letters), the pairs of keys and a file that is no certificate. *)
Definition ex_disk : files := fun p =>
  if (p =? 19)%N then Some (file_of ce_shared_secret (repeat 7%N 32))
  else if (p =? 2)%N then Some (file_of ce_x25519_public_key (p_dh_public toy hx_static_i))
  else if (p =? 3)%N then Some (file_of ce_x25519_private_key hx_static_i)
  else if (p =? 4)%N then Some (file_of ce_x25519_public_key (p_dh_public toy hx_static_r))
  else if (p =? 5)%N then Some (file_of ce_x25519_private_key hx_static_r)
  else if (p =? 6)%N then Some [1%N; 2%N; 3%N] else None.
Lemma bytes_dec l : forallb (fun b => (b <? 256)%N) l = true -> bytes_ok l.
Proof. intros H. apply Forall_forall. intros x Hx. rewrite forallb_forall in H. apply N.ltb_lt, H, Hx. Qed.
Lemma ex_files : files_ok ex_disk.
Proof.
  intros p d. unfold ex_disk. repeat (match goal with |- context [(p =? ?x)%N] => destruct (p =? x)%N end);
    try discriminate; intros [= <-]; apply bytes_dec; vm_compute; reflexivity.
Qed.
Definition ex_stack_i : initiator_config := {| ig_response_timeout := 2000000000; ig_retry_timeout := 5000000000; ig_time_trigger_ms := 3540000; ig_nonce_trigger := 32700;
  ig_limits := {| l_max_nonce := 32768; l_max_time_ms := 3600000 |}; ig_max_payload := 4096; ig_ttl_pad_ms := 10000 |}.
Definition ex_plan (local remote : N) (listen connect : N) (r : frole) : session_plan :=
  {| pl_id := "session1"; pl_levels := "iwemf"; pl_factory := {| fa_addresses := Some {| a_destination := remote; a_source := local |}; fa_role := r |};
     pl_transport := Tcp 1 {| ip_address := "127.0.0.1"; ip_port := listen |} {| ip_address := "127.0.0.1"; ip_port := connect |} |}.
Definition ex_plan_i := ex_plan 10 1 20000 20001 (FInitiator ex_stack_i (suite_of hmac_sha256_16) (CSecret (repeat 7%N 32))).
Definition ex_plan_r := ex_plan 1 10 20001 20002 (FResponder {| rg_max_payload := 4096; rg_ttl_pad_ms := 10000 |} (CSecret (repeat 7%N 32))).
Lemma creates (r : res econf) : match r with Ok (Some _) => true | _ => false end = true -> exists C, r = ret C.
Proof. destruct r as [[C|]| |]; try discriminate. intros _. exists C. reflexivity. Qed.
(** The two files are accepted, and the proxy starts with each. *)
Example C47_instance : read ex_L ex_M ex_disk ex_initiator = ret ([], [ex_plan_i]) /\ read ex_L ex_M ex_disk ex_responder = ret ([], [ex_plan_r]) /\
  launch toy sodium_supports ex_L ex_M ex_disk ex_initiator = ret ([], [(ex_plan_i, None)]) /\
  (exists C, on_connected toy sodium_supports ex_plan_i = ret C) /\ (exists C, on_connected toy sodium_supports ex_plan_r = ret C) /\
  (exists ids, says ex_L ex_M ex_disk ex_initiator ids [ex_plan_i]).
Proof.
  assert (R : read ex_L ex_M ex_disk ex_initiator = ret ([], [ex_plan_i])) by (vm_compute; reflexivity).
  split; [exact R|]. split; [vm_compute; reflexivity|]. split; [vm_compute; reflexivity|]. split; [apply creates; vm_compute; reflexivity|]. split; [apply creates; vm_compute; reflexivity|].
  apply (C47_accepted ex_L ex_M ex_disk); [exact ex_library|exact ex_files|eauto].
Qed.
Lemma toy_dh x y : dh_defined toy x y. Proof. unfold dh_defined, toy. cbn [p_dh]. eexists. reflexivity. Qed.
(** Their credentials suit each other: the handshake completes. *)
Example C47_pair_instance : exists C1 C2 hi hr request reply si sr,
  create_stack toy sodium_supports (pl_factory ex_plan_i) = ret C1 /\ create_stack toy sodium_supports (pl_factory ex_plan_r) = ret C2 /\
  exchange (c_env C1) (c_env C2) sodium_supports sodium_supports hi hr (ig_limits ex_stack_i)
    {| ia_random := repeat 1%N 32; ia_key := None |} {| ans_random := repeat 2%N 32; ans_lookup := fun _ => None |} 5 6 7 request reply si sr /\ matching si sr.
Proof.
  destruct C47_instance as (R1 & R2 & _ & (C1 & K1) & (C2 & K2) & _).
  destruct (C47_pair toy sodium_supports ex_L ex_M ex_disk ex_initiator [] [ex_plan_i] ex_plan_i ex_stack_i (suite_of hmac_sha256_16) (CSecret (repeat 7%N 32)) C1
    ex_L ex_M ex_disk ex_responder [] [ex_plan_r] ex_plan_r {| rg_max_payload := 4096; rg_ttl_pad_ms := 10000 |} (CSecret (repeat 7%N 32)) C2
    {| ia_random := repeat 1%N 32; ia_key := None |} {| ans_random := repeat 2%N 32; ans_lookup := fun _ => None |} 5 6 7)
    as (hi & hr & rq & rp & si & sr & _ & _ & X & Y & _); try exact R1; try exact R2; try (left; reflexivity); try reflexivity; try exact K1; try exact K2;
    try exact ex_library; try exact ex_files; try exact I; try exact toy_dh; try apply toy_ok; try lia; try (split; [reflexivity|apply bytes_dec; reflexivity]).
  exists C1, C2, hi, hr, rq, rp, si, sr. auto.
Qed.
(** What is refused: an unknown mode, TCP without the link layer, a nonce limit of 17 bits, a secret in place of a
    private key, a second store for one subscriber, no session. *)
Definition ex_qkd (cache : string) (subscriber : string) : list (string * node) :=
  [("type", s_ "qkd"); ("key_source_id", s_ "source1"); ("subscriber_id", s_ subscriber); ("max_key_cache_size", s_ cache)].
Definition ex_source (subscribers : string) (baud : string * node) : node :=
  NMap [("qkd_source_id", s_ "source1"); ("type", s_ "qix"); ("num_subscribers", s_ subscribers);
        ("metrics", NMap [("bin_size", s_ "10"); ("update_period", ex_duration "5" "seconds")]);
        ("serial", NMap [("device", s_ "/dev/pts/2"); baud; ("data_bits", s_ "8"); ("flow_control", s_ "none"); ("stop_bits", s_ "one")])].
Definition ex_preshared : list (string * node) :=
  [("type", s_ "preshared_public_key"); ("local_public_key_path", s_ "12"); ("local_private_key_path", s_ "123"); ("remote_public_key_path", s_ "1234")].
Definition set_sessions (root : node) (g : list node -> list node) : node :=
  match root with NMap [(a, x); (b, NSeq l)] => NMap [(a, x); (b, NSeq (g l))] | _ => root end.
Example C47_refused : forallb (fun root => match read ex_L ex_M ex_disk root with Ok None => true | _ => false end)
  [ex_file [] (ex_link "1" "10") (ex_tcp "20001" "20002") "observer" ex_common ex_secret;
   ex_file [] (NMap [("enabled", s_ "false")]) (ex_tcp "20001" "20002") "responder" ex_common ex_secret;
   ex_file [] (ex_link "65536" "10") (ex_tcp "20001" "20002") "responder" ex_common ex_secret;
   ex_file [] (ex_link "10" "1") (ex_tcp "20000" "20001") "initiator" [("max_nonce_value", s_ "65536")] (ex_algorithms "hmac_sha256_16" :: ex_secret);
   ex_file [] (ex_link "10" "1") (ex_tcp "20000" "20001") "responder" [] [("type", s_ "shared_secret"); ("shared_secret_key_path", s_ "123")];
   set_sessions (ex_file [ex_source "1" ("baud_rate", s_ "9600")] (ex_link "10" "1") (ex_tcp "20000" "20001") "responder" [] (ex_qkd "10" "0")) (fun l => l ++ l);
   ex_file [] (ex_link "10" "1") (ex_tcp "20000" "20001") "responder" [] (ex_qkd "10" "0")] = true /\
  (exists x, read ex_L ex_M ex_disk (ex_file [ex_source "1" ("baud_rate", s_ "9600")] (ex_link "10" "1") (ex_tcp "20000" "20001") "responder" [] (ex_qkd "10" "0")) = ret x) /\
  launch toy sodium_supports ex_L ex_M ex_disk (set_sessions ex_responder (fun _ => [])) = throw.
Proof. split; [vm_compute; reflexivity|]. split; [eexists; vm_compute; reflexivity|vm_compute; reflexivity]. Qed.

(** ** What the reader lets pass *)

(** The value of a duration is not checked before it is converted to nanoseconds: a large one is
    undefined behaviour (a signed overflow). *)
Theorem C47_overflow_refuted : (forall L d ns, library_ok L -> says_duration L d ns -> ~ fits64 ns -> get_duration_value L d = UB) /\
  exists L M f root, library_ok L /\ files_ok f /\ read L M f root = UB.
Proof.
  split.
  - intros L d ns OL (s & z & u & k & T & A & U & K & -> & F) N. unfold get_duration_value.
    apply require_iff in T. rewrite T. unfold ret. cbn [rbind]. rewrite (proj2 (extract_iff L min_i64 max_i64 (NScalar s) z)); [|exists s; unfold fits64, min_i64, max_i64 in *; repeat split; auto; lia].
    unfold ret. cbn [rbind]. rewrite (proj2 (time_unit_iff d k)) by eauto. unfold ret. cbn [rbind]. unfold to_duration. destruct (_ && _)%Z eqn:E; [|reflexivity].
    destruct N. apply andb_true_iff in E as [E1 E2]. apply Z.leb_le in E1, E2. unfold fits64, min_i64, max_i64 in *. lia.
  - exists ex_L, ex_M, ex_disk, (ex_file [] (ex_link "1" "10") (ex_tcp "20001" "20002") "responder" [("ttl_pad", ex_duration "2562048" "hours")] ex_secret).
    split; [exact ex_library|]. split; [exact ex_files|vm_compute; reflexivity].
Qed.
Print Assumptions C47_overflow_refuted.

(** With certificates the requested algorithm is not used: the session is always only authenticated. *)
Definition ex_certificates : list (string * node) :=
  [("type", s_ "certificate"); ("local_public_key_path", s_ "12"); ("local_private_key_path", s_ "123"); ("authority_cert_path", s_ "123456"); ("local_cert_path", s_ "123456")].
Theorem C47_certificate_algorithm_refuted :
  (forall L M f root r plans p g suite a b c d, library_ok L -> files_ok f -> read L M f root = ret (r, plans) -> In p plans ->
     fa_role (pl_factory p) = FInitiator g suite (CCertificates a b c d) -> sp_crypto_mode suite = hmac_sha256_16) /\
  exists L M f sessions r p h, library_ok L /\ files_ok f /\ read L M f (NMap [("qkd_sources", NSeq []); ("sessions", NSeq [sessions])]) = ret (r, [p]) /\
    (exists s, has sessions "security" s /\ has s "handshake" h) /\ says_algorithm h aes_256_gcm /\
    exists g suite a b c d, fa_role (pl_factory p) = FInitiator g suite (CCertificates a b c d) /\ sp_crypto_mode suite = hmac_sha256_16.
Proof.
  split.
  - intros L M f root r ps p g suite a b c d OL F H I E. destruct (read_session _ _ _ _ _ _ _ OL F H I) as (n & _ & _ & _ & (_ & sec & _ & hh & ss & _ & _ & X) & _). rewrite E in X.
    destruct X as (_ & _ & _ & m & -> & X). cbn in X. destruct X as [-> _]. reflexivity.
  - set (root := ex_file [] (ex_link "10" "1") (ex_tcp "20000" "20001") "initiator" [] (ex_algorithms "aes_256_gcm" :: ex_certificates)).
    assert (X : exists p g suite a b c d, read ex_L ex_M ex_disk root = ret ([], [p]) /\ fa_role (pl_factory p) = FInitiator g suite (CCertificates a b c d) /\ sp_crypto_mode suite = hmac_sha256_16).
    { do 7 eexists. split; [vm_compute; reflexivity|]. cbn [pl_factory fa_role]. split; reflexivity. }
    destruct X as (p & g & suite & a & b & c & d & X1 & X2 & X3). exists ex_L, ex_M, ex_disk. eexists. exists [], p. eexists.
    split; [exact ex_library|]. split; [exact ex_files|]. split; [exact X1|]. split; [|split].
    + eexists. split; apply lookup_key_iff; reflexivity.
    + eexists. split; apply lookup_key_iff; reflexivity.
    + do 6 eexists. split; [exact X2|exact X3].
Qed.
Print Assumptions C47_certificate_algorithm_refuted.

(** The settings [max_session_duration] and [session_time_renegotiation_trigger] of the example files are not
    read: whatever they say, a session lasts an hour. *)
Theorem C47_session_time_refuted : forall L f h s g, library_ok L -> files_ok f -> initiator_settings L h s g ->
  lacks s "max_session_time_ms" -> lacks s "session_time_renegotiation_trigger_ms" -> l_max_time_ms (ig_limits g) = 3600000%N /\ ig_time_trigger_ms g = 3540000%N.
Proof.
  intros L f h s g _ _ (_ & _ & _ & A & _ & B & _) N1 N2. split.
  - destruct A as [(x & z & T & _)|[_ E]]; [destruct (has_not_lacks _ _ _ T N1)|exact E].
  - destruct B as [[(d & T & _) _]|[_ E]]; [destruct (has_not_lacks _ _ _ T N2)|exact E].
Qed.
Print Assumptions C47_session_time_refuted.
Example C47_session_time_instance : exists p g suite c,
  read ex_L ex_M ex_disk (ex_file [] (ex_link "10" "1") (ex_tcp "20000" "20001") "initiator"
    [("max_session_duration", ex_duration "5" "minutes"); ("session_time_renegotiation_trigger", ex_duration "4" "minutes")] (ex_algorithms "aes_256_gcm" :: ex_secret)) = ret ([], [p]) /\
  fa_role (pl_factory p) = FInitiator g suite c /\ l_max_time_ms (ig_limits g) = 3600000%N.
Proof. do 4 eexists. split; [vm_compute; reflexivity|split; reflexivity]. Qed.

(** The example files set [baud]; the port is opened with 9600 whatever it says. *)
Theorem C47_baud_refuted : exists L M f root x, library_ok L /\ files_ok f /\ read L M f root = ret x /\
  (exists l n c, has root "qkd_sources" (NSeq l) /\ In n l /\ has n "serial" c /\ text c "baud" "115200") /\ (forall s, opens M s = true -> se_baud s = 9600%Z).
Proof.
  exists ex_L, {| opens s := (se_baud s =? 9600)%Z; binds _ _ := true |}, ex_disk.
  exists (ex_file [ex_source "1" ("baud", s_ "115200")] (ex_link "10" "1") (ex_tcp "20000" "20001") "responder" [] (ex_qkd "10" "0")).
  eexists. split; [exact ex_library|]. split; [exact ex_files|]. split; [vm_compute; reflexivity|]. split; [|intros s; apply Z.eqb_eq].
  do 3 eexists. split; [apply lookup_key_iff; reflexivity|]. split; [left; reflexivity|]. split; apply lookup_key_iff; reflexivity.
Qed.
Print Assumptions C47_baud_refuted.

(** A renegotiation trigger above the limit is accepted: the session ends before it is renegotiated. *)
Theorem C47_trigger_refuted : exists L M f root r p g suite c, library_ok L /\ files_ok f /\ read L M f root = ret (r, [p]) /\
  fa_role (pl_factory p) = FInitiator g suite c /\ (l_max_nonce (ig_limits g) < ig_nonce_trigger g)%N /\ (l_max_time_ms (ig_limits g) < ig_time_trigger_ms g)%N /\
  (ig_response_timeout g < 0)%Z.
Proof.
  exists ex_L, ex_M, ex_disk, (ex_file [] (ex_link "10" "1") (ex_tcp "20000" "20001") "initiator"
    [("max_nonce_value", s_ "100"); ("max_session_time_ms", s_ "60000")] (ex_algorithms "aes_256_gcm" :: ("response_timeout", ex_duration "-2" "seconds") :: ex_secret)).
  do 5 eexists. split; [exact ex_library|]. split; [exact ex_files|]. split; [vm_compute; reflexivity|]. cbn. split; [reflexivity|]. repeat split; vm_compute; reflexivity.
Qed.
Print Assumptions C47_trigger_refuted.

(** A session shorter than the time added to messages is accepted: nothing can be sent in it. *)
Theorem C47_pad_refuted : (forall E s now clear f rest s', (p_max_time (s_param s) < ms (e_ttl_pad_ms E))%Z -> format_session_auth E s now clear <> Ok (inl f, rest, s') /\ format_session_data E s now clear <> Ok (inl f, rest, s')) /\
  exists L M f root r p g suite c, library_ok L /\ files_ok f /\ read L M f root = ret (r, [p]) /\
    fa_role (pl_factory p) = FInitiator g suite c /\ (l_max_time_ms (ig_limits g) < ig_ttl_pad_ms g)%N.
Proof.
  split.
  - intros E s now clear f rest s' H. assert (X : format_no_nonce_check E s now clear <> Ok (inl f, rest, s')).
    { unfold format_no_nonce_check. destruct (negb _); [discriminate|]. destruct (Z.ltb_spec now (p_start (s_param s))); [discriminate|]. destruct (_ <? _)%Z; [discriminate|].
      destruct (Z.ltb_spec (p_max_time (s_param s) - (now - p_start (s_param s))) (ms (e_ttl_pad_ms E))); [discriminate|lia]. }
    unfold format_session_auth, format_session_data. split; [destruct (negb _)|destruct (_ <=? _)%N]; try discriminate; exact X.
  - exists ex_L, ex_M, ex_disk, (ex_file [] (ex_link "10" "1") (ex_tcp "20000" "20001") "initiator" [("max_session_time_ms", s_ "5000")] (ex_algorithms "aes_256_gcm" :: ex_secret)).
    do 5 eexists. split; [exact ex_library|]. split; [exact ex_files|]. split; [vm_compute; reflexivity|]. cbn. split; [reflexivity|vm_compute; reflexivity].
Qed.
Print Assumptions C47_pad_refuted.

(** [max_payload_size] is documented as the limit of sent and received payloads; it does not limit what is sent, and
    a larger message that arrives is decrypted past the end of the buffer. *)
Theorem C47_payload_refuted : (forall P S fac C, create_stack P S fac = ret C -> e_max_payload (c_env C) = 4092%N) /\
  (forall C s msg now, s_valid s = true -> s_crypto_mode s = aes_256_gcm -> length (k_rx (s_keys s)) = 32 -> c_payload_size C < length (sd_user_data msg) ->
     validate_session_data (c_env C) s msg now (c_payload_size C) = UB) /\
  exists L M f root r p C, library_ok L /\ files_ok f /\ read L M f root = ret (r, [p]) /\ create_stack toy sodium_supports (pl_factory p) = ret C /\ c_payload_size C = 100.
Proof.
  split; [|split].
  - intros P S [a [g suite c|g c]] C H; [apply create_initiator in H as (? & ? & _ & _ & _ & _ & E & _)|apply create_responder in H as (? & ? & _ & _ & _ & E & _)]; rewrite E; reflexivity.
  - intros C s msg now V G K Len. unfold validate_session_data, validate_with, mode_read. rewrite V, G, K. cbn [negb Nat.eqb aead_decrypt symmetric_key_length]. destruct (Nat.ltb_spec (c_payload_size C) (length (sd_user_data msg))); [|lia].
    rewrite Bool.orb_true_r. reflexivity.
  - exists ex_L, ex_M, ex_disk, (ex_file [] (ex_link "10" "1") (ex_tcp "20000" "20001") "initiator" [("max_payload_size", s_ "100")] (ex_algorithms "aes_256_gcm" :: ex_secret)).
    assert (X : exists p, read ex_L ex_M ex_disk (ex_file [] (ex_link "10" "1") (ex_tcp "20000" "20001") "initiator" [("max_payload_size", s_ "100")] (ex_algorithms "aes_256_gcm" :: ex_secret)) = ret ([], [p]) /\
      match fa_role (pl_factory p) with FInitiator g _ _ => ig_max_payload g = 100%N | _ => False end /\ match create_stack toy sodium_supports (pl_factory p) with Ok (Some _) => true | _ => false end = true).
    { eexists. split; [vm_compute; reflexivity|]. split; vm_compute; reflexivity. }
    destruct X as (p & X1 & X2 & X3). destruct (creates _ X3) as (C & X4). exists [], p, C. split; [exact ex_library|]. split; [exact ex_files|]. split; [exact X1|]. split; [exact X4|].
    pose proof (C47_settings _ _ _ _ X4) as (_ & _ & _ & Y). destruct (fa_role (pl_factory p)) as [g ? ?|]; [|contradiction]. destruct (c_role C); [|contradiction]. destruct Y as (_ & _ & _ & Y & _). rewrite Y, X2. reflexivity.
Qed.
Print Assumptions C47_payload_refuted.

(** A subscriber number that the source never serves is accepted: the session never gets a key. *)
Theorem C47_subscriber_refuted : exists L M f root r p src, library_ok L /\ files_ok f /\ read L M f root = ret (r, [p]) /\ find_source r "source1" = Some src /\
  store_of p = [("source1", 5%N)] /\ forall os s h x id k, takes_only os -> do_sops src os = Ok (s, h) -> In x h -> shanded x <> Some (5%N, id, k).
Proof.
  exists ex_L, ex_M, ex_disk, (ex_file [ex_source "1" ("baud_rate", s_ "9600")] (ex_link "10" "1") (ex_tcp "20000" "20001") "responder" [] (ex_qkd "10" "5")).
  do 3 eexists. split; [exact ex_library|]. split; [exact ex_files|]. split; [vm_compute; reflexivity|]. split; [reflexivity|]. split; [reflexivity|].
  intros os s h x id k T E I. assert (X : do_sops (new_source 1) (Bind 5 10 :: os) = Ok (s, (Bind 5 10, Bound) :: h)).
  { cbn [do_sops do_sop]. unfold bind_key_store. cbn [new_source src_subscribers src_stores existsb obind]. rewrite E. reflexivity. }
  apply (proj2 (C42_starved_refuted 1 10 os s _ 5 ltac:(reflexivity) ltac:(discriminate) T ltac:(lia) X)). right. exact I.
Qed.
Print Assumptions C47_subscriber_refuted.

(** A source without subscribers is accepted: its first key divides by zero. *)
Theorem C47_no_subscribers_refuted : exists L M f root x src, library_ok L /\ files_ok f /\ read L M f root = ret x /\ find_source (fst x) "source1" = Some src /\
  forall fr, well_formed fr -> do_sops src [Frame fr] = UB.
Proof.
  exists ex_L, ex_M, ex_disk, (ex_file [ex_source "0" ("baud_rate", s_ "9600")] (ex_link "1" "10") (ex_tcp "20001" "20002") "responder" ex_common ex_secret).
  do 2 eexists. split; [exact ex_library|]. split; [exact ex_files|]. split; [vm_compute; reflexivity|]. split; [reflexivity|]. exact C42_defined_refuted.
Qed.
Print Assumptions C47_no_subscribers_refuted.

(** The certificate files of a TCP session are not looked at when the proxy starts: it starts with files that hold no
    certificates, and the first connection ends the process. *)
Theorem C47_late_refuted : exists L M f root r p, library_ok L /\ files_ok f /\ launch toy sodium_supports L M f root = ret (r, [(p, None)]) /\
  on_connected toy sodium_supports p = throw.
Proof.
  exists ex_L, ex_M, ex_disk, (ex_file [] (ex_link "10" "1") (ex_tcp "20000" "20001") "initiator" [] (ex_algorithms "hmac_sha256_16" :: ex_certificates)).
  do 2 eexists. split; [exact ex_library|]. split; [exact ex_files|]. split; [vm_compute; reflexivity|vm_compute; reflexivity].
Qed.
Print Assumptions C47_late_refuted.

(** The local public key need not belong to the private key (here it is the other side's). *)
Theorem C47_key_pair_refuted : exists L M f root r p g suite a b c, library_ok L /\ files_ok f /\ read L M f root = ret (r, [p]) /\
  fa_role (pl_factory p) = FInitiator g suite (CPreshared a b c) /\ a <> p_dh_public toy b.
Proof.
  exists ex_L, ex_M, ex_disk, (ex_file [] (ex_link "10" "1") (ex_tcp "20000" "20001") "initiator" []
    (ex_algorithms "hmac_sha256_16" :: [("type", s_ "preshared_public_key"); ("local_public_key_path", s_ "1234"); ("local_private_key_path", s_ "123"); ("remote_public_key_path", s_ "1234")])).
  do 7 eexists. split; [exact ex_library|]. split; [exact ex_files|]. split; [vm_compute; reflexivity|]. split; [reflexivity|]. intros E. apply (f_equal (hd 0%N)) in E. vm_compute in E. discriminate.
Qed.
Print Assumptions C47_key_pair_refuted.

(** A certificate chain that fits into a file need not fit into a message: then no handshake is ever sent. *)
Definition long_body : CertificateBody := plain_body 0 100 0 pk_X25519 (repeat 1%N 3960).
Definition short_root : CertificateBody := plain_body 0 100 1 pk_Ed25519 (sg_public toy_signer [1%N]).
Lemma long_body_length : length (wire_body long_body) = 3982.
Proof.
  unfold wire_body, wire_seq, wire_items, long_body, plain_body. cbn [cb_valid_after cb_valid_before cb_signing_level cb_key_type cb_public_key cb_extensions map concat length].
  rewrite !app_length, !be_bytes_length, repeat_length, (der_three (N.of_nat 3960)) by lia. reflexivity.
Qed.
Theorem C47_chain_refuted : exists anchor_file file h, (exists e, anchor_file = chain_file [e]) /\ length file <= 4096 /\ make_industrial toy sodium_supports anchor_file file = Ok (Some h) /\ initiator_ok (IPublicKey (suite_of hmac_sha256_16) [] h) /\
  forall E suite s l ia i0 e d i1, e_max_payload E = 4092%N -> limits_ok l -> ianswers_ok ia ->
    initialize_new_handshake toy (IPublicKey suite s h) ia i0 = (Some (e, d), i1) -> frame_write2 E (request_write (make_request (IPublicKey suite s h) l e d)) = None.
Proof.
  assert (KL : seq_ok (repeat 1%N 3960)) by (apply (seq_ok_len _ 3960); [apply repeat_length|reflexivity|apply Forall_forall; intros x Hx; apply repeat_spec in Hx; subst x; reflexivity]).
  assert (BL : body_ok long_body) by (apply plain_body_ok; auto; reflexivity).
  destruct (sok_public toy toy_signer toy_signer_ok [1%N]) as [PL PB].
  destruct (signed_small toy toy_signer (sg_secret toy_signer [1%N]) 0 100 1 pk_Ed25519 (sg_public toy_signer [1%N]) toy_signer_ok) as [BR SR]; auto; try reflexivity.
  set (root := signed toy_signer (sg_secret toy_signer [1%N]) short_root). set (mine := signed toy_signer (sg_secret toy_signer [1%N]) long_body).
  destruct (sok_sign toy toy_signer toy_signer_ok (sg_secret toy_signer [1%N]) (wire_body long_body)) as [SL SB].
  assert (EO : envelope_ok mine).
  { split; cbn [mine signed env_signature env_body]; [apply (seq_ok_len _ 64); auto; reflexivity|]. apply (seq_ok_len _ 3982); [apply long_body_length|reflexivity|apply wire_body_bytes, BL]. }
  assert (CL : length (wire_chain [mine]) = 4051).
  { unfold wire_chain, wire_items. cbn [map concat length]. unfold wire_envelope, wire_seq. rewrite !app_length. cbn [mine signed env_signature env_body]. rewrite SL, long_body_length, (der_small (N.of_nat 64)), (der_three (N.of_nat 3982)) by lia. reflexivity. }
  assert (CO : chain_ok [mine]) by (split; [constructor; [exact EO|constructor]|cbn; lia]).
  assert (CQ : seq_ok (wire_chain [mine])) by (apply (seq_ok_len _ 4051); [exact CL|reflexivity|apply wire_chain_bytes, CO]).
  assert (RL : 32 <= length (cb_public_key short_root)) by (cbn [short_root plain_body cb_public_key]; rewrite PL; lia).
  assert (MI : make_industrial toy sodium_supports (chain_file [root]) (chain_file [mine]) = Ok (Some (Industrial short_root (wire_chain [mine])))).
  { unfold make_industrial. rewrite (anchor_of_file root short_root SR BR eq_refl). rewrite (proj2 (presented_iff toy sodium_supports short_root [mine] eq_refl CO CQ (verify_one_defined _ _ _ _ RL))); [reflexivity|].
    exists long_body. apply single_certifies. split; [|split; reflexivity]. apply (C43_issued toy toy_signer [1%N] short_root long_body); auto using toy_signer_ok; try reflexivity. split; [reflexivity|]. repeat split; cbn; lia. }
  exists (chain_file [root]), (chain_file [mine]), (Industrial short_root (wire_chain [mine])). split; [eauto|]. split; [|split; [exact MI|split; [exact CQ|]]].
  - unfold chain_file, file_of, wire_container, wire_seq. cbn [cf_payload cf_type]. rewrite !app_length, CL, (der_three (N.of_nat 4051)) by lia. cbn [length]. lia.
  - clearbody mine root. intros E suite s l ia i0 e d i1 ME LO IA X.
    pose proof (make_request_ok toy (IPublicKey suite s (Industrial short_root (wire_chain [mine]))) l ia i0 e d i1 toy_ok CQ LO IA X) as RQ. rewrite (frame_write2_fits E _ _ (wlaw_request _ RQ)) by (rewrite ME; reflexivity).
    cbn [initialize_new_handshake cert_data] in X. pose proof (proj1 (ok_dh_public _ toy_ok (ia_random ia))) as KE. set (K := p_dh_public toy (ia_random ia)) in *. clearbody K. injection X as <- <- <-. match goal with |- (if ?b then _ else _) = _ => destruct b eqn:H; [|reflexivity] end. apply N.leb_le in H.
    exfalso. rewrite ME in H. unfold wire_request, wire_seq, wire_version, wire_spec, wire_constraints, make_request in H. cbn [rq_version rq_spec rq_constraints rq_mode rq_mode_ephemeral rq_mode_data] in H.
    rewrite !app_length, !be_bytes_length, CL, KE, (der_three (N.of_nat 4051)) in H by lia. rewrite (der_small (N.of_nat 32)) in H by lia. cbn [length] in H. lia.
Qed.
Print Assumptions C47_chain_refuted.
