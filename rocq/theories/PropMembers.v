(** Property C91: member functions that cannot be called. *)
From Verif Require Import MembersLemmas.
Local Open Scope string_scope.

(** C91: a program that uses functions offered by ReceiveBuffer, EnvelopeReceiveBuffer and Receiver compiles (as far as
    existence, constness and access of member functions go) exactly if it uses none of those listed in [unusable]: element
    access of a const buffer, data(), bufferEnsureSpace(), and at() where exceptions are enabled. *)
Theorem C91_members :
  forall exceptions asserts prog, Forall (offered (the_classes exceptions asserts)) prog ->
  (well_formed (the_classes exceptions asserts) prog
   <-> Forall (fun u => ~ In (u_class u, u_name u, u_const u) (unusable exceptions)) prog).
Proof. exact members_lemma. Qed.
Print Assumptions C91_members.
(** All functions of Receiver are usable, on const receivers those declared const. *)
Theorem C91_receiver :
  forall exceptions asserts prog, Forall (offered (the_classes exceptions asserts)) prog ->
  Forall (fun u => u_class u = "Receiver") prog -> well_formed (the_classes exceptions asserts) prog.
Proof. exact receiver_lemma. Qed.
Print Assumptions C91_receiver.
(** Expected: what a class offers can be used.  Not so, in any build, for an element of a const buffer. *)
Theorem C91_const_element_refuted :
  forall exceptions asserts, let u := MUse "" "ReceiveBuffer" "[]" true in
  offered (the_classes exceptions asserts) u /\ ~ well_formed (the_classes exceptions asserts) [u].
Proof. exact const_lemma. Qed.
Print Assumptions C91_const_element_refuted.
(** None of the three Arduino classes compiles where Print does not derive from Stream (as in Arduino's core, where Stream
    derives from Print) and no template ReceiveAdapter was declared by others; the two classes for VRPN do. *)
Theorem C91_arduino_refuted :
  forall known derives, ~ In "ReceiveAdapter" known -> derives "Print" "Stream" = false ->
  Forall (fun p => plain_compiles known derives p = false) [arduino_i2c; arduino_serial; arduino_receive].
Proof. exact arduino_lemma. Qed.
Print Assumptions C91_arduino_refuted.
Theorem C91_vrpn :
  forall known derives, incl base_templates known -> (forall x, derives x x = true) ->
  Forall (fun p => plain_compiles known derives p = true) [vrpn_serial; vrpn_receive].
Proof. exact vrpn_lemma. Qed.
Print Assumptions C91_vrpn.

(** A polling loop; a buffer read through a const reference; at() with and without exceptions.  The first use leads through
    the envelope into the buffer.  In Arduino's core Stream derives from Print and TwoWire from Stream. *)
Definition polling_loop : list muse :=
  [MUse "" "Receiver" "Receiver()" false; MUse "" "Receiver" "setHandler" false; MUse "" "Receiver" "receiveFrom" false;
   MUse "" "Receiver" "processMessages" false; MUse "" "Receiver" "getLastMessageId" true].
Definition core (d b : string) : bool :=
  String.eqb d b || existsb (eq2 (d, b)) [("Stream", "Print"); ("TwoWire", "Stream"); ("TwoWire", "Print")].
Example C91_case :
  (forall e a, Forall (offered (the_classes e a)) polling_loop)
  /\ (forall e a, instantiated (the_classes e a) polling_loop (MUse "ReceiveBuffer" "ReceiveBuffer" "adjusted_index" false))
  /\ (forall a, well_formed (the_classes false a) [MUse "" "ReceiveBuffer" "at" false]
             /\ ~ well_formed (the_classes true a) [MUse "" "ReceiveBuffer" "at" false])
  /\ (forall e a, ~ well_formed (the_classes e a) (polling_loop ++ [MUse "" "EnvelopeReceiveBuffer" "bufferFront" true]))
  /\ ~ In "ReceiveAdapter" base_templates /\ core "Print" "Stream" = false /\ core "TwoWire" "Print" = true.
Proof.
  assert (forall e a u, existsb (fun f => f_public f && String.eqb (f_name f) (u_name u)
             && (String.eqb (f_class f) (u_class u) || String.eqb (u_class u) "ReceiveBuffer" && String.eqb (f_class f) "vector_simulator")
             && (negb (u_const u) || f_const f || f_static f)) (cs_funs (the_classes e a)) = true ->
           u_from u = "" -> In (u_class u) ["ReceiveBuffer"; "EnvelopeReceiveBuffer"; "Receiver"] -> offered (the_classes e a) u) as Ho.
  { intros e a u H H1 H2. split; [exact H1|]. split; [exact H2|]. apply existsb_exists in H. destruct H as (f & Hf & H).
    apply andb_true_iff in H. destruct H as (H & H3). apply andb_true_iff in H. destruct H as (H & H4). apply andb_true_iff in H. destruct H as (H5 & H6).
    exists f. split; [exact Hf|]. split; [exact H5|]. split; [apply String.eqb_eq, H6|]. split.
    - apply orb_true_iff in H4. destruct H4 as [H4|H4]; [left; apply String.eqb_eq, H4|right].
      apply andb_true_iff in H4. destruct H4 as (H7 & H8). split; apply String.eqb_eq; assumption.
    - intros Hk. rewrite Hk in H3. cbn [negb orb] in H3. apply orb_true_iff, H3. }
  assert (forall e a, Forall (offered (the_classes e a)) polling_loop) as Hp.
  { intros e a. apply Forall_forall. intros u Hu. cbn [In polling_loop] in Hu.
    repeat (destruct Hu as [<-|Hu]); try contradiction Hu.
    all: apply Ho; [destruct e, a; vm_compute; reflexivity|reflexivity|cbn; tauto]. }
  split; [exact Hp|]. split.
  - intros e a. apply (closure_instantiated _ _ 9 polling_loop); [intros u Hu; apply inst_program, Hu|].
    apply memb_in. destruct e, a; vm_compute; reflexivity.
  - split; [|split; [|split; [|split; vm_compute; reflexivity]]].
    + intros a. split; [apply good_wf|apply bad_not_wf]; destruct a; vm_compute; reflexivity.
    + intros e a W. apply C91_members in W.
      * apply Forall_app in W. destruct W as (_ & W). apply Forall_inv in W. apply W. destruct e; cbn; tauto.
      * apply Forall_app. split; [apply Hp|]. constructor; [|constructor].
        apply Ho; [destruct e, a; vm_compute; reflexivity|reflexivity|cbn; tauto].
    + cbn. intuition discriminate.
Qed.
