(** Lemmas about the use of member functions. *)
From Verif Require Export SpecMembers.
Local Open Scope string_scope.

Definition muse_eq_dec (u v : muse) : {u = v} + {u <> v}.
Proof. decide equality; (apply bool_dec || apply string_dec). Defined.
Definition memb (u : muse) (l : list muse) : bool := if in_dec muse_eq_dec u l then true else false.
Lemma memb_in u l : memb u l = true -> In u l.
Proof. unfold memb. destruct in_dec; [auto|discriminate]. Qed.

Definition body_uses (cs : classes) (u : muse) : list muse := match selected cs u with Some f => uses_of f | None => [] end.
Fixpoint closure (n : nat) (cs : classes) (l : list muse) : list muse :=
  match n with O => l | S n => closure n cs (nodup muse_eq_dec (l ++ flat_map (body_uses cs) l)) end.

Lemma closure_instantiated cs prog : forall n l, (forall u, In u l -> instantiated cs prog u) ->
  forall u, In u (closure n cs l) -> instantiated cs prog u.
Proof.
  induction n as [|n IH]; intros l Hl u Hu; cbn [closure] in Hu; [auto|]. apply (IH _) in Hu; [exact Hu|].
  intros v Hv. apply nodup_In, in_app_or in Hv. destruct Hv as [Hv|Hv]; [auto|].
  apply in_flat_map in Hv. destruct Hv as (x & Hx & Hv). unfold body_uses in Hv.
  destruct (selected cs x) as [f|] eqn:E; [|destruct Hv]. exact (inst_body cs prog x f v (Hl x Hx) E Hv).
Qed.

Definition some {A} (o : option A) : bool := match o with Some _ => true | None => false end.
Definition good (cs : classes) (u : muse) : bool :=
  let s := closure 9 cs [u] in
  memb u s && forallb (fun v => some (selected cs v)) s && forallb (fun v => forallb (fun x => memb x s) (body_uses cs v)) s.
Definition bad (cs : classes) (u : muse) : bool := existsb (fun v => negb (some (selected cs v))) (closure 9 cs [u]).

Lemma good_wf cs u : good cs u = true -> well_formed cs [u].
Proof.
  unfold good. intros H. apply andb_true_iff in H. destruct H as (H & H3). apply andb_true_iff in H. destruct H as (H1 & H2).
  rewrite forallb_forall in H2, H3.
  assert (forall v, instantiated cs [u] v -> In v (closure 9 cs [u])) as Hc.
  { induction 1 as [v Hv|v f x _ IH E Hx].
    - destruct Hv as [<-|[]]. apply memb_in, H1.
    - specialize (H3 v IH). rewrite forallb_forall in H3. apply memb_in, H3. unfold body_uses. rewrite E. exact Hx. }
  intros v Hv. specialize (H2 v (Hc v Hv)). destruct (selected cs v) as [f|]; [eauto|discriminate].
Qed.
Lemma bad_not_wf cs u : bad cs u = true -> ~ well_formed cs [u].
Proof.
  unfold bad. intros H W. apply existsb_exists in H. destruct H as (v & Hv & H).
  destruct (W v) as (f & E).
  - apply (closure_instantiated cs [u] 9 [u]); [|exact Hv]. intros x Hx. apply inst_program, Hx.
  - rewrite E in H. discriminate.
Qed.

Lemma inst_one cs prog v : instantiated cs prog v <-> exists u, In u prog /\ instantiated cs [u] v.
Proof.
  split.
  - induction 1 as [v Hv|v f x _ (u & Hu & IH) E Hx].
    + exists v. split; [exact Hv|]. apply inst_program. left. reflexivity.
    + exists u. split; [exact Hu|]. exact (inst_body cs [u] v f x IH E Hx).
  - intros (u & Hu & H). induction H as [v Hv|v f x _ IH E Hx].
    + destruct Hv as [<-|[]]. apply inst_program, Hu.
    + exact (inst_body cs prog v f x IH E Hx).
Qed.
Lemma wf_each cs prog : well_formed cs prog <-> Forall (fun u => well_formed cs [u]) prog.
Proof.
  rewrite Forall_forall. split.
  - intros W u Hu v Hv. apply W, inst_one. eauto.
  - intros W v Hv. apply inst_one in Hv. destruct Hv as (u & Hu & Hv). exact (W u Hu v Hv).
Qed.

(** All uses offered. *)
Definition uses_offered (cs : classes) : list muse :=
  flat_map (fun cl => flat_map (fun f =>
    if f_public f && (String.eqb (f_class f) cl || String.eqb cl RB && String.eqb (f_class f) SIM)
    then MUse "" cl (f_name f) false :: (if f_const f || f_static f then [MUse "" cl (f_name f) true] else [])
    else []) (cs_funs cs)) [RB; ERB; REC].
Lemma offered_listed cs u : offered cs u -> In u (uses_offered cs).
Proof.
  destruct u as [from cl name k]. intros (Hf & Hc & f & Hin & Hp & Hn & Hcl & Hk).
  cbn [u_from u_class u_name u_const] in *. subst from name. unfold uses_offered.
  apply in_flat_map. exists cl. split; [exact Hc|]. apply in_flat_map. exists f. split; [exact Hin|].
  rewrite Hp. assert (String.eqb (f_class f) cl || String.eqb cl RB && String.eqb (f_class f) SIM = true) as ->.
  { destruct Hcl as [->|(-> & ->)]; [rewrite String.eqb_refl; reflexivity|reflexivity]. }
  cbn [andb]. destruct k; [|left; reflexivity]. right. destruct (Hk eq_refl) as [->| ->]; [|rewrite orb_true_r]; left; reflexivity.
Qed.
Definition triple_eq_dec (x y : string * string * bool) : {x = y} + {x <> y}.
Proof. repeat decide equality. Defined.
Definition is_unusable (e : bool) (u : muse) : bool :=
  if in_dec triple_eq_dec (u_class u, u_name u, u_const u) (unusable e) then true else false.
Lemma all_checked : forall e a,
  forallb (fun u => if is_unusable e u then bad (the_classes e a) u else good (the_classes e a) u) (uses_offered (the_classes e a)) = true.
Proof. intros [] []; vm_compute; reflexivity. Qed.

Lemma members_lemma e a prog : Forall (offered (the_classes e a)) prog ->
  (well_formed (the_classes e a) prog <-> Forall (fun u => ~ In (u_class u, u_name u, u_const u) (unusable e)) prog).
Proof.
  intros Ho. rewrite wf_each. rewrite !Forall_forall in *.
  assert (forall u, In u prog -> (well_formed (the_classes e a) [u] <-> ~ In (u_class u, u_name u, u_const u) (unusable e))) as H.
  { intros u Hu. pose proof (all_checked e a) as Hall. rewrite forallb_forall in Hall.
    specialize (Hall u (offered_listed _ _ (Ho u Hu))). unfold is_unusable in Hall. destruct in_dec as [Hi|Hi].
    - pose proof (bad_not_wf _ _ Hall). tauto.
    - pose proof (good_wf _ _ Hall). tauto. }
  split; intros W u Hu; apply H; auto.
Qed.

Lemma receiver_lemma e a prog : Forall (offered (the_classes e a)) prog -> Forall (fun u => u_class u = "Receiver") prog ->
  well_formed (the_classes e a) prog.
Proof.
  intros Ho Hr. apply members_lemma; [exact Ho|]. rewrite Forall_forall in *. intros u Hu Hi. rewrite (Hr u Hu) in Hi.
  destruct e; cbn in Hi; intuition congruence.
Qed.

Lemma const_lemma e a : let u := MUse "" "ReceiveBuffer" "[]" true in offered (the_classes e a) u /\ ~ well_formed (the_classes e a) [u].
Proof.
  split.
  - split; [reflexivity|]. split; [left; reflexivity|].
    eexists (MFun RB "[]" false true true _). split.
    + apply in_or_app. right. apply in_or_app. left. do 9 right. left. reflexivity.
    + repeat split; try reflexivity; left; reflexivity.
  - apply bad_not_wf. destruct e, a; vm_compute; reflexivity.
Qed.

Lemma arduino_lemma known derives : ~ In "ReceiveAdapter" known -> derives "Print" "Stream" = false ->
  Forall (fun p => plain_compiles known derives p = false) [arduino_i2c; arduino_serial; arduino_receive].
Proof.
  intros Hk Hd. repeat constructor; unfold plain_compiles; cbn [p_base p_ctor p_name p_takes p_keeps arduino_i2c arduino_serial arduino_receive].
  - rewrite andb_false_r. reflexivity.
  - rewrite Hd, andb_false_r. reflexivity.
  - assert (existsb (String.eqb "ReceiveAdapter") known = false) as ->; [|reflexivity].
    apply not_true_is_false. intros H. apply existsb_exists in H. destruct H as (x & Hx & H). apply String.eqb_eq in H. subst x. auto.
Qed.
Lemma vrpn_lemma known derives : incl base_templates known -> (forall x, derives x x = true) ->
  Forall (fun p => plain_compiles known derives p = true) [vrpn_serial; vrpn_receive].
Proof.
  intros Hk Hd. repeat constructor; unfold plain_compiles; cbn [p_base p_ctor p_name p_takes p_keeps vrpn_serial vrpn_receive];
    rewrite Hd, andb_true_r; apply andb_true_iff; (split; [|reflexivity]); apply existsb_exists; eexists; (split; [apply Hk|apply String.eqb_refl]); cbn; tauto.
Qed.
