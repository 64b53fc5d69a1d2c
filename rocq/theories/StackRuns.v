(** * StackRuns: a concrete environment for complete stacks, for the examples and counterexamples

    As EndpointRuns.v: a well-behaved transport and an application that makes the calls [script i]
    inside the notification [i].  Nothing here is used in a proof about all runs. *)
From Verif Require Import Base Codec Link LinkLayer Primitives Session SessionSpec Handshake Endpoint EndpointSpec EndpointRuns Stack StackSpec.

Fixpoint sfinish (C : econf) (script : instr -> list call) (now : Z) (fuel : nat) (k : sconfig) : list slabel * sconfig * list event :=
  match fuel, snd k with
  | S fuel', i :: _ =>
      let inp := input_for script now (st_crypto (fst k)) i [] in
      match stack_step C k (SLab (Run inp)) with
      | Ok (k', e) => let '(ls, k'', e'') := sfinish C script now fuel' k' in (SLab (Run inp) :: ls, k'', e ++ e'')
      | _ => ([SLab (Run inp)], k, [])
      end
  | _, _ => ([], k, [])
  end.
(** Bytes arrive, then something happens *)
Definition shappening := (list (list N) * happening)%type.
Definition sarrive (chunks : list (list N)) (now : Z) : shappening := (chunks, happen (Enter LowerRxReady) now).
Definition shappen (e : external) (now : Z) : shappening := ([], happen e now).
Fixpoint sdrive (C : econf) (k : sconfig) (hs : list shappening) : list slabel * sconfig * list event :=
  match hs with
  | [] => ([], k, [])
  | (chunks, h) :: hs' =>
      let k0 := (fold_left (fun s ch => {| st_open := st_open s; st_link := arrive_link (st_link s) ch; st_crypto := st_crypto s |}) chunks (fst k), snd k) in
      let k1 := match stack_step C k0 (SLab (Ext (h_event h))) with Ok (k1, _) => k1 | _ => k0 end in
      let '(l1, k2, e1) := sfinish C (h_script h) (h_time h) 60 k1 in
      let '(l2, k3, e2) := sdrive C k2 hs' in
      (map SArrive chunks ++ SLab (Ext (h_event h)) :: l1 ++ l2, k3, e1 ++ e2)
  end.
Definition slabels_of (r : list slabel * sconfig * list event) : list slabel := fst (fst r).
Definition sevents_of (r : list slabel * sconfig * list event) : list event := snd r.

(** A pair of stacks with a shared secret *)
Definition ds_a : addresses := {| a_destination := 10; a_source := 1 |}.
Definition ds_b : addresses := {| a_destination := 1; a_source := 10 |}.
Definition ds_suite : CryptoSpec :=
  {| sp_ephemeral := he_none; sp_hash := hash_sha256; sp_kdf := kdf_hkdf_sha256; sp_nonce_mode := strict_increment; sp_crypto_mode := hmac_sha256_16 |}.
Definition ds_i : econf := stack_conf ds_a toy 10000 sodium_supports
  (Initiator {| ic_handshake := ISharedSecret ds_suite (repeat 7%N 32); ic_limits := dr_limits; ic_nonce_trigger := 900 |}) 4096.
Definition ds_r : econf := stack_conf ds_b toy 10000 sodium_supports (Responder (RSharedSecret (repeat 7%N 32))) 4096.
Definition sfresh (C : econf) (a : addresses) : sconfig := (new_stack C a, []).
Definition sframe_no (C : econf) (a : addresses) (hs : list shappening) (n : nat) : list N := nth n (frames_of (sevents_of (sdrive C (sfresh C a) hs))) [].

Definition ds_request : list N := Eval vm_compute in sframe_no ds_i ds_a [shappen (Enter LowerOpen) 1] 0.
Definition ds_b1 : list shappening := [shappen (Enter LowerOpen) 1; sarrive [ds_request] 2; shappen (Enter LowerTxReady) 2].
Definition ds_reply : list N := Eval vm_compute in sframe_no ds_r ds_b ds_b1 0.
Definition ds_a1 : list shappening := [shappen (Enter LowerOpen) 1; shappen (Enter LowerTxReady) 1; sarrive [ds_reply] 3; shappen (Enter LowerTxReady) 3].
Definition ds_auth : list N := Eval vm_compute in sframe_no ds_i ds_a ds_a1 1.
Definition ds_b2 : list shappening := ds_b1 ++ [sarrive [ds_auth] 4; shappen (Enter LowerTxReady) 4].
Definition ds_answer : list N := Eval vm_compute in sframe_no ds_r ds_b ds_b2 1.
Definition ds_a2 : list shappening :=
  ds_a1 ++ [sarrive [ds_answer] 5; shappen (Enter (StartTx [1; 2; 3]%N)) 6; shappen (Enter LowerTxReady) 6; shappen (Enter (StartTx [4; 5]%N)) 7; shappen (Enter LowerTxReady) 7].
Definition ds_data0 : list N := Eval vm_compute in sframe_no ds_i ds_a ds_a2 2.
Definition ds_data1 : list N := Eval vm_compute in sframe_no ds_i ds_a ds_a2 3.

(** The conditions, decided *)
Fixpoint salongb (q : config -> label -> bool) (C : econf) (k : sconfig) (ls : list slabel) : bool :=
  match ls with
  | [] => true
  | l :: ls' => match l with SLab l0 => q (st_crypto (fst k), snd k) l0 | SArrive _ => true end &&
                match stack_step C k l with Ok (k', _) => salongb q C k' ls' | _ => true end
  end.
Lemma salongb_ok (q : config -> label -> bool) (Q : config -> label -> Prop) C : (forall k l, q k l = true -> Q k l) ->
  forall ls k, salongb q C k ls = true -> salong Q C k ls.
Proof.
  intros HQ. induction ls as [|l ls IH]; intros k H; cbn in *; auto. apply Bool.andb_true_iff in H. destruct H as [H1 H2].
  split; [destruct l; auto|]. destruct (stack_step C k l) as [[k' ?]| |]; auto.
Qed.
