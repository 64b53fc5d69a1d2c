(** * EndpointRuns: a concrete environment, for the examples and counterexamples

    [drive] produces the labels of a well-behaved lower layer with a queue of messages and of an
    application that makes the calls [script i] inside the notification [i].  Nothing here is used
    in a proof about all runs. *)
From Verif Require Import Base Codec Link LinkLayer Primitives Session SessionSpec Handshake Endpoint EndpointSpec.

Definition dr_ia : ianswers := {| ia_random := repeat 3%N 32; ia_key := Some (77%N, repeat 9%N 32) |}.
Definition dr_ans : answers := {| ans_random := repeat 4%N 32; ans_lookup := fun id => if (id =? 77)%N then Some (repeat 9%N 32) else None |}.

Definition no_calls (i : instr) : list call := [].
Definition input_for (script : instr -> list call) (now : Z) (s : endpoint) (i : instr) (queue : list (list N)) : input :=
  {| in_now := now; in_now2 := now; in_ready := negb (ep_busy s);
     in_message := match i, queue with ITryRead, m :: _ => if ep_open s then m else [] | _, _ => [] end;
     in_started := true; in_calls := match i with IUpOpen | IUpClose | IUpTxReady | IUpRxReady => script i | _ => [] end;
     in_answers := dr_ans; in_ianswers := dr_ia; in_scratch := ep_buffer s |}.
Definition received (e : list event) : bool := existsb (fun x => match x with EvRecv _ => true | _ => false end) e.

(** Run until no call is in progress *)
Fixpoint finish (C : econf) (script : instr -> list call) (now : Z) (fuel : nat) (k : config) (queue : list (list N))
  : list label * config * list event :=
  match fuel, snd k with
  | S fuel', i :: _ =>
      let inp := input_for script now (fst k) i queue in
      match step C k (Run inp) with
      | Ok (k', e) =>
          let '(ls, k'', e'') := finish C script now fuel' k' (if received e then tl queue else queue) in
          (Run inp :: ls, k'', e ++ e'')
      | _ => ([Run inp], k, [])
      end
  | _, _ => ([], k, [])
  end.

(** One external event with its consequences *)
Record happening := { h_event : external; h_time : Z; h_queue : list (list N); h_script : instr -> list call }.
Definition happen (e : external) (now : Z) : happening := {| h_event := e; h_time := now; h_queue := []; h_script := no_calls |}.
Definition arrive (m : list N) (now : Z) : happening := {| h_event := Enter LowerRxReady; h_time := now; h_queue := [m]; h_script := no_calls |}.
Fixpoint drive (C : econf) (k : config) (hs : list happening) : list label * config * list event :=
  match hs with
  | [] => ([], k, [])
  | h :: hs' =>
      let k0 := match step C k (Ext (h_event h)) with Ok (k0, _) => k0 | _ => k end in
      let '(l1, k1, e1) := finish C (h_script h) (h_time h) 60 k0 (h_queue h) in
      let '(l2, k2, e2) := drive C k1 hs' in
      (Ext (h_event h) :: l1 ++ l2, k2, e1 ++ e2)
  end.
Definition labels_of (r : list label * config * list event) : list label := fst (fst r).
Definition config_of (r : list label * config * list event) : config := snd (fst r).
Definition events_of (r : list label * config * list event) : list event := snd r.
(** The frames given to the lower layer *)
Definition frames_of (t : list event) : list (list N) := flat_map (fun e => match e with EvTx _ f => [f] | _ => [] end) t.

(** A pair of endpoints with a shared secret, frames without link layer *)
Definition dr_env : senv := {| e_prims := toy; e_kind := FRaw; e_max_payload := 4092; e_ttl_pad_ms := 10000 |}.
Definition dr_suite (c : SessionCryptoMode) : CryptoSpec :=
  {| sp_ephemeral := he_none; sp_hash := hash_sha256; sp_kdf := kdf_hkdf_sha256; sp_nonce_mode := greater_than_last_rx; sp_crypto_mode := c |}.
Definition dr_limits : limits := {| l_max_nonce := 1000; l_max_time_ms := 60000 |}.
Definition dr_i (c : SessionCryptoMode) (trigger : N) (via : bool) : econf :=
  {| c_env := dr_env; c_supports := sodium_supports;
     c_role := Initiator {| ic_handshake := ISharedSecret (dr_suite c) (repeat 7%N 32); ic_limits := dr_limits; ic_nonce_trigger := trigger |};
     c_payload_size := 4096; c_via_stack := via |}.
Definition dr_r (via : bool) : econf :=
  {| c_env := dr_env; c_supports := sodium_supports; c_role := Responder (RSharedSecret (repeat 7%N 32)); c_payload_size := 4096; c_via_stack := via |}.
Definition fresh (C : econf) : config := (new_endpoint C, []).

Definition sec (n : Z) : Z := (n * 1000000000)%Z.

(** The messages of the handshake between the two and the sessions they derive *)
Definition make_request (c : SessionCryptoMode) : list N :=
  hd [] (frames_of (events_of (drive (dr_i c 900 false) (fresh (dr_i c 900 false)) [happen (Enter LowerOpen) 1]))).
Definition dr_request_hmac : list N := Eval vm_compute in make_request hmac_sha256_16.
Definition dr_request_gcm : list N := Eval vm_compute in make_request aes_256_gcm.
Definition dr_request (c : SessionCryptoMode) : list N := match c with hmac_sha256_16 => dr_request_hmac | aes_256_gcm => dr_request_gcm end.
Definition dr_r_events (c : SessionCryptoMode) : list event :=
  events_of (drive (dr_r false) (fresh (dr_r false)) [happen (Enter LowerOpen) 1; arrive (dr_request c) 2]).
Definition make_reply (c : SessionCryptoMode) : list N := hd [] (frames_of (dr_r_events c)).
Definition dr_reply_hmac : list N := Eval vm_compute in make_reply hmac_sha256_16.
Definition dr_reply_gcm : list N := Eval vm_compute in make_reply aes_256_gcm.
Definition dr_reply (c : SessionCryptoMode) : list N := match c with hmac_sha256_16 => dr_reply_hmac | aes_256_gcm => dr_reply_gcm end.
Definition make_session_r (c : SessionCryptoMode) : session :=
  match last_derived (dr_r_events c) None with Some s => s | None => new_session end.
Definition dr_session_r_hmac : session := Eval vm_compute in make_session_r hmac_sha256_16.
Definition dr_session_r_gcm : session := Eval vm_compute in make_session_r aes_256_gcm.
Definition dr_session_r (c : SessionCryptoMode) : session := match c with hmac_sha256_16 => dr_session_r_hmac | aes_256_gcm => dr_session_r_gcm end.
Definition make_session_i (c : SessionCryptoMode) : session :=
  match last_derived (events_of (drive (dr_i c 900 false) (fresh (dr_i c 900 false))
    [happen (Enter LowerOpen) 1; happen (Enter LowerTxReady) 1; arrive (dr_reply c) 3])) None with Some s => s | None => new_session end.
Definition dr_session_i_hmac : session := Eval vm_compute in make_session_i hmac_sha256_16.
Definition dr_session_i_gcm : session := Eval vm_compute in make_session_i aes_256_gcm.
Definition dr_session_i (c : SessionCryptoMode) : session := match c with hmac_sha256_16 => dr_session_i_hmac | aes_256_gcm => dr_session_i_gcm end.
(** The message with the given nonce and data that the owner of the session sends *)
Definition dr_message (s : session) (nonce : N) (data : list N) : list N :=
  match format_no_nonce_check dr_env (set_tx_nonce s nonce) 4 data with Ok (inl frame, _, _) => frame | _ => [] end.

(** The environment conditions, decided *)
Definition implb_prop (a b : bool) : implb a b = true -> a = true -> b = true. Proof. destruct a, b; auto. Qed.
Definition is_nil (l : list N) : bool := match l with [] => true | _ => false end.
Definition lower_okb (k : config) (l : label) : bool :=
  match l with
  | Run inp => Bool.eqb (in_ready inp) (negb (ep_busy (fst k))) && implb (negb (ep_busy (fst k))) (in_started inp) &&
               implb (negb (ep_open (fst k))) (is_nil (in_message inp))
  | _ => true
  end.
Definition calm_openb (k : config) (l : label) : bool :=
  match l with
  | Run inp => forallb app_or_close (in_calls inp) && implb (existsb opening (snd k)) (forallb is_start_tx (in_calls inp))
  | _ => true
  end.
Definition calmb (k : config) (l : label) : bool :=
  calm_openb k l &&
  match l with
  | Run inp => implb (existsb completing (snd k))
                 (forallb app_call (in_calls inp) &&
                  match snd k with ITryRead :: _ => implb (in_ready inp) (is_nil (in_message inp)) | _ => true end)
  | _ => true
  end.
Fixpoint alongb (q : config -> label -> bool) (C : econf) (k : config) (ls : list label) : bool :=
  match ls with
  | [] => true
  | l :: ls' => q k l && match step C k l with Ok (k', _) => alongb q C k' ls' | _ => true end
  end.
Lemma alongb_ok (q : config -> label -> bool) (Q : config -> label -> Prop) C : (forall k l, q k l = true -> Q k l) ->
  forall ls k, alongb q C k ls = true -> along Q C k ls.
Proof.
  intros HQ. induction ls as [|l ls IH]; intros k H; cbn in *; auto. apply Bool.andb_true_iff in H. destruct H as [H1 H2].
  split; auto. destruct (step C k l) as [[k' ?]| |]; auto.
Qed.
Lemma is_nil_ok l : is_nil l = true -> l = []. Proof. destruct l; [reflexivity|discriminate]. Qed.
Lemma lower_okb_ok k l : lower_okb k l = true -> lower_ok k l.
Proof.
  destruct l as [|inp]; cbn; auto. rewrite !Bool.andb_true_iff. intros [[H1 H2] H3]. apply Bool.eqb_prop in H1. split; [exact H1|].
  split; intros H; rewrite H in *; cbn in *; auto. apply is_nil_ok. exact H3.
Qed.
Lemma calm_openb_ok k l : calm_openb k l = true -> calm_open k l.
Proof. destruct l as [|inp]; cbn; auto. rewrite Bool.andb_true_iff. intros [H1 H2]. split; auto. apply implb_prop. exact H2. Qed.
Lemma calmb_ok k l : calmb k l = true -> calm k l.
Proof.
  unfold calmb, calm. rewrite Bool.andb_true_iff. intros [H1 H2]. split; [apply calm_openb_ok; exact H1|].
  destruct l as [|inp]; auto. intros Hc. rewrite Hc in H2. cbn in H2. apply Bool.andb_true_iff in H2. destruct H2 as [H2 H3]. split; auto.
  destruct (snd k) as [|i r]; [discriminate|]. intros Ei Er. injection Ei as ->. rewrite Er in H3. apply is_nil_ok. exact H3.
Qed.
Lemma lower_quiet k l : lower_ok k l -> quiet_when_closed k l.
Proof. destruct l; cbn; auto. tauto. Qed.

(** A check of a concrete run *)
Lemma run_check C ls (f : config -> list event -> bool) :
  match run C (new_endpoint C, []) ls with Ok (k, t) => f k t | _ => false end = true ->
  exists k t, run C (new_endpoint C, []) ls = Ok (k, t) /\ f k t = true.
Proof. destruct (run C (new_endpoint C, []) ls) as [[k t]| |]; intros H; try discriminate. eauto. Qed.
Definition quiescentb (k : config) : bool := match snd k with [] => true | _ => false end.
Lemma quiescentb_ok k : quiescentb k = true -> quiescent k.
Proof. unfold quiescentb, quiescent. destruct (snd k); [reflexivity|discriminate]. Qed.
Definition accepted (p : list N) (e : event) : bool :=
  match e with EvAuthOk _ _ q | EvDataOk _ _ q => bytes_eqb p q | _ => false end.
Definition is_read (p : list N) (e : event) : bool := match e with EvRead q => bytes_eqb p q | _ => false end.
Definition has_payload (s : endpoint) : bool := match ep_payload s with Some _ => true | None => false end.

(** What follows the first event with a property *)
Fixpoint after (p : event -> bool) (t : list event) : list event :=
  match t with [] => [] | e :: t' => if p e then t' else after p t' end.
Lemma after_split p t : existsb p t = true -> exists t0 e, t = t0 ++ e :: after p t /\ p e = true.
Proof.
  induction t as [|e t IH]; cbn; [discriminate|]. destruct (p e) eqn:E; cbn.
  - intros _. exists [], e. auto.
  - intros H. destruct (IH H) as (t0 & e' & Et & E'). exists (e :: t0), e'. split; [cbn; f_equal; exact Et|exact E'].
Qed.
Lemma absent (p : event -> bool) t e : existsb p t = false -> p e = true -> ~ In e t.
Proof. intros H He Hi. rewrite (proj2 (existsb_exists p t)) in H; [discriminate|eauto]. Qed.
Lemma present (p : event -> bool) t : existsb p t = true -> exists e, In e t /\ p e = true.
Proof. apply existsb_exists. Qed.

(** Events with given properties, in this order *)
Fixpoint sequence (ps : list (event -> bool)) (t : list event) : bool :=
  match ps with [] => true | p :: ps' => existsb p t && sequence ps' (after p t) end.
Lemma subseq_drop {A} (a : list A) : forall l l', subseq l l' -> subseq l (a ++ l').
Proof. induction a as [|x a IH]; intros l l' H; cbn; auto. apply subseq_skip. auto. Qed.
Lemma sequence_ok ps : forall t, sequence ps t = true -> exists es, Forall2 (fun p e => p e = true) ps es /\ subseq es t.
Proof.
  induction ps as [|p ps IH]; intros t H; cbn in H.
  - exists []. split; constructor.
  - apply Bool.andb_true_iff in H. destruct H as [H1 H2]. destruct (IH _ H2) as (es & F & S).
    destruct (after_split p t H1) as (t0 & e & Et & Ep). exists (e :: es). split; [constructor; auto|].
    rewrite Et. apply subseq_drop. apply subseq_take. exact S.
Qed.
