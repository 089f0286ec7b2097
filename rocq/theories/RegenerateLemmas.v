(** Running the generation scripts. *)
From Coq Require Import Lia.
From Coq Require Import Permutation.
From Verif Require Export SpecRegenerate HeaderArities GeneratePreprocess.
From Coq Require Import List.
Local Open Scope string_scope.

Lemma put_same t n text : put t n text n = Some text.
Proof. unfold put. rewrite String.eqb_refl. reflexivity. Qed.
Lemma put_other t n text m : m <> n -> put t n text m = t m.
Proof. intros H. unfold put. destruct (String.eqb_spec m n); [contradiction | reflexivity]. Qed.

Lemma names_in l n : In n (names_of l) <-> exists nd, In nd l /\ query_outfile (snd nd) = Some n.
Proof.
  unfold names_of, build_rules. rewrite in_map_iff. split.
  - intros ((o & nd) & <- & H). apply in_flat_map in H as (x & Hx & H). destruct (query_outfile (snd x)) eqn:E; [|contradiction].
    destruct H as [H|[]]. injection H as <- <-. exists x. auto.
  - intros (nd & Hn & E). exists (n, nd). split; [reflexivity|]. apply in_flat_map. exists nd. rewrite E. split; [exact Hn | left; reflexivity].
Qed.

Lemma sound_cons lim nd l : sound lim (nd :: l) -> (exists o text, yields lim nd o text) /\ sound lim l
  /\ (forall o, query_outfile (snd nd) = Some o -> ~ In o (names_of l)).
Proof.
  intros (HF & HN). inversion HF as [|? ? H1 H2]; subst. cbn [map] in HN. inversion HN as [|? ? N1 N2]; subst.
  split; [exact H1|]. split; [split; assumption|]. intros o E HI. apply names_in in HI as (x & Hx & Ex). apply N1.
  rewrite E, <- Ex. apply in_map_iff. exists x. auto.
Qed.

Lemma yields_fun lim nd o text o' text' : yields lim nd o text -> yields lim nd o' text' -> o = o' /\ text = text'.
Proof. intros (A & B) (C & D). rewrite A in C. rewrite B in D. injection C as <-. injection D as <-. auto. Qed.

Lemma generate_lemma lim l : forall t, sound lim l -> exists t', generate_all lim l t = (t', true) /\ regenerated lim l t t'.
Proof.
  induction l as [|nd l IH]; intros t HS.
  - exists t. split; [reflexivity|]. split; [intros ? ? ? [] | reflexivity].
  - apply sound_cons in HS as ((o & text & HY) & HS & HN). pose proof HY as (HQ & HM).
    destruct (IH (put t o text) HS) as (t' & E & HR & HU). exists t'. cbn [generate_all]. unfold generate_one. rewrite HQ, HM.
    split; [exact E|]. split.
    + intros x o' text' [<-|Hx] Hx'.
      * destruct (yields_fun _ _ _ _ _ _ HY Hx') as (<- & <-). rewrite HU by (apply HN; exact HQ). apply put_same.
      * exact (HR x o' text' Hx Hx').
    + intros n Hn. assert (n <> o /\ ~ In n (names_of l)) as (N1 & N2).
      { split; [intros -> | intros H]; apply Hn, names_in; [exists nd; split; [left; reflexivity | exact HQ]|].
        apply names_in in H as (x & Hx & Ex). exists x. split; [right; exact Hx | exact Ex]. }
      rewrite HU by exact N2. apply put_other. exact N1.
Qed.

(** What is made of a list is determined. *)
Lemma regenerated_unique lim l t t1 t2 : Forall (fun nd => exists o text, yields lim nd o text) l ->
  regenerated lim l t t1 -> regenerated lim l t t2 -> forall n, t1 n = t2 n.
Proof.
  intros HS (A & B) (C & D) n. destruct (in_dec string_dec n (names_of l)) as [H|H].
  - apply names_in in H as (nd & Hn & Hq). rewrite Forall_forall in HS. destruct (HS nd Hn) as (o & text & HY).
    pose proof HY as (HQ & _). rewrite Hq in HQ. injection HQ as <-. rewrite (A nd n text Hn HY), (C nd n text Hn HY). reflexivity.
  - rewrite B, D by exact H. reflexivity.
Qed.

Lemma regenerated_perm lim l l' t t' : Permutation l l' -> regenerated lim l t t' -> regenerated lim l' t t'.
Proof.
  intros HP (A & B). split.
  - intros nd o text Hn. apply A. eapply Permutation_in; [apply Permutation_sym; exact HP | exact Hn].
  - intros n Hn. apply B. intros H. apply Hn. apply names_in in H as (nd & Hd & Hq). apply names_in. exists nd.
    split; [eapply Permutation_in; eassumption | exact Hq].
Qed.

Lemma order_lemma lim l l' t : sound lim l -> Permutation l l' ->
  exists t1 t2, generate_all lim l t = (t1, true) /\ generate_all lim l' t = (t2, true) /\ forall n, t1 n = t2 n.
Proof.
  intros HS HP. assert (sound lim l') as HS'.
  { destruct HS as (A & B). split; [eapply Permutation_Forall; eassumption|].
    eapply Permutation_NoDup; [apply Permutation_map; exact HP | exact B]. }
  destruct (generate_lemma lim l t HS) as (t1 & E1 & R1). destruct (generate_lemma lim l' t HS') as (t2 & E2 & R2).
  exists t1, t2. split; [exact E1|]. split; [exact E2|]. eapply regenerated_unique; [exact (proj1 HS') | | exact R2].
  eapply regenerated_perm; eassumption.
Qed.

(** A data file that fails. *)
Lemma failure_lemma lim l nd rest t : sound lim l ->
  query_outfile (snd nd) = None \/ made lim nd = None ->
  exists t1 t', regenerated lim l t t1 /\ generate_all lim (l ++ nd :: rest) t = (t', false)
    /\ (query_outfile (snd nd) = None -> forall n, t' n = t1 n)
    /\ (forall o, query_outfile (snd nd) = Some o -> t' o = Some "" /\ forall n, n <> o -> t' n = t1 n).
Proof.
  intros HS HF. destruct (generate_lemma lim l t HS) as (t1 & E & HR).
  assert (generate_all lim (l ++ nd :: rest) t = generate_all lim (nd :: rest) t1) as EQ.
  { clear HR HF. revert t E HS. induction l as [|x l IH]; intros t E HS; [injection E as <-; reflexivity|].
    cbn [app generate_all] in *. apply sound_cons in HS as (_ & HS & _). destruct (generate_one lim t x) as [t0 []]; [|discriminate].
    apply IH; assumption. }
  rewrite EQ. cbn [generate_all]. unfold generate_one. destruct (query_outfile (snd nd)) as [o|] eqn:HQ.
  - destruct HF as [HF|HF]; [discriminate|]. rewrite HF. exists t1, (put t1 o ""). split; [exact HR|]. split; [reflexivity|].
    split; [discriminate|]. intros o' E'. injection E' as <-. split; [apply put_same | intros n; apply put_other].
  - exists t1, t1. split; [exact HR|]. split; [reflexivity|]. split; [reflexivity|]. discriminate.
Qed.

(** Data files that name no output. *)
Lemma unnamed_lemma lim (nd1 nd2 : string * datafile) t text1 text2 :
  (exists g, snd nd1 None = Some g /\ gd_outfile g = None) -> made lim nd1 = Some text1 ->
  (exists g, snd nd2 None = Some g /\ gd_outfile g = None) -> made lim nd2 = Some text2 ->
  (exists t', generate_all lim [nd1] t = (t', true) /\ t' "nil" = Some text1 /\ forall n, n <> "nil" -> t' n = t n)
  /\ (exists t', generate_all lim [nd1; nd2] t = (t', true) /\ t' "nil" = Some text2 /\ forall n, n <> "nil" -> t' n = t n).
Proof.
  intros (g1 & E1 & O1) M1 (g2 & E2 & O2) M2.
  assert (query_outfile (snd nd1) = Some "nil") as Q1 by (unfold query_outfile; rewrite E1; cbn [lua_bind]; rewrite O1; reflexivity).
  assert (query_outfile (snd nd2) = Some "nil") as Q2 by (unfold query_outfile; rewrite E2; cbn [lua_bind]; rewrite O2; reflexivity).
  assert (forall u, generate_one lim u nd1 = (put u "nil" text1, true)) as G1 by (intros u; unfold generate_one; rewrite Q1, M1; reflexivity).
  assert (forall u, generate_one lim u nd2 = (put u "nil" text2, true)) as G2 by (intros u; unfold generate_one; rewrite Q2, M2; reflexivity).
  split; cbn [generate_all].
  - rewrite G1. eexists. split; [reflexivity|]. split; [apply put_same | intros n Hn; apply put_other, Hn].
  - rewrite G1, G2. eexists. split; [reflexivity|]. split; [apply put_same|]. intros n Hn. rewrite !put_other by exact Hn. reflexivity.
Qed.

(** The library's own data files. *)
Lemma library_yields lim : exists a b d,
  yields lim ("ArityConfig.gen.lua", config_data) "detail/constants/ArityConfig.h" a
  /\ config_header (l_smax lim) (l_rmax lim) "variadicGenerate.lua on input ArityConfig.gen.lua" = Some a
  /\ yields lim ("PartialHandlerBase.gen.lua", partial_data) "PartialHandlerBase.h" b
  /\ partial_header (l_rmin lim) (l_rmax lim) "variadicGenerate.lua on input PartialHandlerBase.gen.lua" = Some b
  /\ yields lim ("SendOverloads.gen.lua", send_data) "detail/operations/SendOverloads_Generated.h" d
  /\ send_header (l_smin lim) (l_smax lim) "variadicGenerate.lua on input SendOverloads.gen.lua" = Some d.
Proof.
  destruct (config_reads (l_smax lim) (l_rmax lim) "variadicGenerate.lua on input ArityConfig.gen.lua") as (a & A & _);
    [apply no_star; reflexivity|].
  destruct (generated_handlers (l_rmin lim) (l_rmax lim) "variadicGenerate.lua on input PartialHandlerBase.gen.lua") as (b & ? & B & _);
    [apply no_star; reflexivity|].
  destruct (generated_sends (l_smin lim) (l_smax lim) "variadicGenerate.lua on input SendOverloads.gen.lua") as (d & ? & D & _);
    [apply no_star; reflexivity|].
  exists a, b, d. unfold yields, made. cbn [snd fst config_data partial_data send_data lua_bind gd_main append].
  repeat (split; [first [assumption | split; [reflexivity | assumption]]|]). exact D.
Qed.
Lemma library_sound lim : sound lim data_files.
Proof.
  destruct (library_yields lim) as (a & b & d & A & _ & B & _ & D & _). split.
  - repeat apply Forall_cons; [..|apply Forall_nil]; eexists; eexists; eassumption.
  - repeat constructor; cbn; intuition discriminate.
Qed.

Lemma library_lemma lim t : exists t' a b d,
  generate_all lim data_files t = (t', true)
  /\ config_header (l_smax lim) (l_rmax lim) "variadicGenerate.lua on input ArityConfig.gen.lua" = Some a
  /\ partial_header (l_rmin lim) (l_rmax lim) "variadicGenerate.lua on input PartialHandlerBase.gen.lua" = Some b
  /\ send_header (l_smin lim) (l_smax lim) "variadicGenerate.lua on input SendOverloads.gen.lua" = Some d
  /\ t' "detail/constants/ArityConfig.h" = Some a /\ t' "PartialHandlerBase.h" = Some b
  /\ t' "detail/operations/SendOverloads_Generated.h" = Some d
  /\ forall n, ~ In n ["detail/constants/ArityConfig.h"; "PartialHandlerBase.h"; "detail/operations/SendOverloads_Generated.h"] -> t' n = t n.
Proof.
  destruct (library_yields lim) as (a & b & d & A & A' & B & B' & D & D').
  destruct (generate_lemma lim data_files t (library_sound lim)) as (t' & E & HR & HU). exists t', a, b, d.
  split; [exact E|]. split; [exact A'|]. split; [exact B'|]. split; [exact D'|].
  split; [eapply HR; [left; reflexivity | exact A]|]. split; [eapply HR; [right; left; reflexivity | exact B]|].
  split; [eapply HR; [right; right; left; reflexivity | exact D]|]. exact HU.
Qed.

Lemma checkout_lemma t : t "detail/constants/ArityConfig.h" = Some arity_config_h -> t "PartialHandlerBase.h" = Some partial_handler_base_h ->
  t "detail/operations/SendOverloads_Generated.h" = Some send_overloads_h ->
  exists t', generate_all library_limits data_files t = (t', true) /\ forall n, t' n = t n.
Proof.
  intros T1 T2 T3. destruct (library_lemma library_limits t) as (t' & a & b & d & E & A & B & D & H1 & H2 & H3 & HU).
  destruct checked_in as (C1 & C2 & C3). unfold send_source, partial_source, config_source in C1, C2, C3.
  cbn [library_limits l_smin l_smax l_rmin l_rmax] in *.
  rewrite C3 in A. rewrite C2 in B. rewrite C1 in D. exists t'. split; [exact E|]. intros n.
  destruct (in_dec string_dec n ["detail/constants/ArityConfig.h"; "PartialHandlerBase.h"; "detail/operations/SendOverloads_Generated.h"]) as [H|H];
    [|apply HU; exact H].
  destruct H as [<-|[<-|[<-|[]]]]; congruence.
Qed.

(** Builds. *)
Lemma build_rules_app a b : build_rules (a ++ b) = (build_rules a ++ build_rules b)%list.
Proof. apply flat_map_app. Qed.

Lemma outdated_ext src script b b' o name : st_tree b o = st_tree b' o -> st_time b o = st_time b' o ->
  outdated src script b o name = outdated src script b' o name.
Proof. intros E1 E2. unfold outdated. rewrite E1, E2. reflexivity. Qed.

Lemma build_lemma deletes lim src script now l : forall b, sound lim l -> unspoilt lim l src script b ->
  exists b', build_all deletes lim src script now (build_rules l) b = (b', true)
    /\ regenerated lim l (st_tree b) (st_tree b')
    /\ (forall n, ~ In n (names_of l) -> st_time b' n = st_time b n)
    /\ (forall nd o, In nd l -> query_outfile (snd nd) = Some o ->
          st_time b' o = if outdated src script b o (fst nd) then now else st_time b o).
Proof.
  induction l as [|nd l IH]; intros b HS HU.
  - exists b. split; [reflexivity|]. split; [split; [intros ? ? ? [] | reflexivity]|]. split; [reflexivity | intros ? ? []].
  - apply sound_cons in HS as ((o & text & HY) & HS & HN). pose proof HY as (HQ & HM).
    assert (build_rules (nd :: l) = (o, nd) :: build_rules l) as ER by (cbn [build_rules flat_map]; rewrite HQ; reflexivity).
    set (b1 := fst (build_one deletes lim src script now b (o, nd))).
    assert (build_one deletes lim src script now b (o, nd) = (b1, true)) as E1.
    { unfold b1, build_one. destruct (outdated src script b o (fst nd)); [rewrite HM|]; reflexivity. }
    assert (st_tree b1 o = Some text) as HO.
    { unfold b1, build_one. destruct (outdated src script b o (fst nd)) eqn:EO; [rewrite HM; apply put_same|].
      eapply HU; [left; reflexivity | exact HY | exact EO]. }
    assert (forall n, n <> o -> st_tree b1 n = st_tree b n /\ st_time b1 n = st_time b n) as HE.
    { intros n Hn. unfold b1, build_one. destruct (outdated src script b o (fst nd)); [|auto]. rewrite HM. cbn [fst st_tree st_time].
      rewrite put_other by exact Hn. destruct (String.eqb_spec n o); [contradiction | auto]. }
    assert (st_time b1 o = if outdated src script b o (fst nd) then now else st_time b o) as HT.
    { unfold b1, build_one. destruct (outdated src script b o (fst nd)); [|reflexivity]. rewrite HM. cbn [fst st_time].
      rewrite String.eqb_refl. reflexivity. }
    assert (forall x o', In x l -> query_outfile (snd x) = Some o' -> o' <> o) as HD.
    { intros x o' Hx Ex ->. apply (HN o HQ). apply names_in. exists x. auto. }
    destruct (IH b1 HS) as (b' & E & (HR & HRU) & HTU & HTO).
    { intros x o' text' Hx HY' Ho. pose proof (HD x o' Hx (proj1 HY')) as Hne. destruct (HE o' Hne) as (T1 & T2).
      rewrite T1. eapply HU; [right; exact Hx | exact HY' |]. rewrite <- Ho. symmetry. apply outdated_ext; assumption. }
    exists b'. rewrite ER. cbn [build_all]. rewrite E1. split; [exact E|].
    assert (forall n, ~ In n (names_of (nd :: l)) -> n <> o /\ ~ In n (names_of l)) as HNN.
    { intros n Hn. split; [intros -> | intros H]; apply Hn, names_in; [exists nd; split; [left; reflexivity | exact HQ]|].
      apply names_in in H as (x & Hx & Ex). exists x. split; [right; exact Hx | exact Ex]. }
    split; [split|split].
    + intros x o' text' [<-|Hx] Hx'.
      * destruct (yields_fun _ _ _ _ _ _ HY Hx') as (<- & <-). rewrite HRU by (apply HN; exact HQ). exact HO.
      * exact (HR x o' text' Hx Hx').
    + intros n Hn. destruct (HNN n Hn) as (N1 & N2). rewrite HRU by exact N2. apply HE. exact N1.
    + intros n Hn. destruct (HNN n Hn) as (N1 & N2). rewrite HTU by exact N2. apply HE. exact N1.
    + intros x o' [<-|Hx] Ex.
      * rewrite HQ in Ex. injection Ex as <-. rewrite HTU by (apply HN; exact HQ). exact HT.
      * rewrite (HTO x o' Hx Ex). pose proof (HD x o' Hx Ex) as Hne. destruct (HE o' Hne) as (T1 & T2).
        rewrite (outdated_ext src script b1 b o' (fst x) T1 T2), T2. reflexivity.
Qed.

(** A build directly after it does nothing. *)
Lemma build_settled deletes lim src script now rs : forall b,
  (forall o nd, In (o, nd) rs -> outdated src script b o (fst nd) = false) ->
  build_all deletes lim src script now rs b = (b, true).
Proof.
  induction rs as [|(o & nd) rs IH]; intros b H; [reflexivity|]. cbn [build_all build_one].
  rewrite (H o nd (or_introl eq_refl)). apply IH. intros o' nd' Hi. apply H. right. exact Hi.
Qed.
Lemma rule_in l o nd : In (o, nd) (build_rules l) <-> In nd l /\ query_outfile (snd nd) = Some o.
Proof.
  unfold build_rules. rewrite in_flat_map. split.
  - intros (x & Hx & H). destruct (query_outfile (snd x)) eqn:E; [|contradiction]. destruct H as [H|[]]. injection H as <- <-. auto.
  - intros (Hn & E). exists nd. rewrite E. split; [exact Hn | left; reflexivity].
Qed.

Lemma build_once_lemma deletes lim src script now l b : sound lim l -> unspoilt lim l src script b ->
  (script <= now)%Z -> (forall nd, In nd l -> (src (fst nd) <= now)%Z) ->
  exists b', build_all deletes lim src script now (build_rules l) b = (b', true)
    /\ regenerated lim l (st_tree b) (st_tree b')
    /\ forall deletes2 lim2 later, build_all deletes2 lim2 src script later (build_rules l) b' = (b', true).
Proof.
  intros HS HU Hs Hd. destruct (build_lemma deletes lim src script now l b HS HU) as (b' & E & HR & _ & HT).
  exists b'. split; [exact E|]. split; [exact HR|]. intros d2 lim2 later. apply build_settled. intros o nd Hi.
  apply rule_in in Hi as (Hn & HQ). destruct HS as (HF & _). rewrite Forall_forall in HF. destruct (HF nd Hn) as (o' & text & HY).
  pose proof HY as (HQ' & _). rewrite HQ in HQ'. injection HQ' as <-. unfold outdated. rewrite (proj1 HR nd o text Hn HY).
  rewrite (HT nd o Hn HQ). specialize (Hd nd Hn). destruct (outdated src script b o (fst nd)) eqn:EO.
  - apply Bool.orb_false_intro; apply Z.ltb_ge; lia.
  - unfold outdated in EO. destruct (st_tree b o); [exact EO | discriminate].
Qed.

Lemma agree_lemma deletes lim src script now l b : sound lim l -> unspoilt lim l src script b ->
  exists b' t', build_all deletes lim src script now (build_rules l) b = (b', true)
    /\ generate_all lim l (st_tree b) = (t', true) /\ forall n, st_tree b' n = t' n.
Proof.
  intros HS HU. destruct (build_lemma deletes lim src script now l b HS HU) as (b' & E & HR & _).
  destruct (generate_lemma lim l (st_tree b) HS) as (t' & E2 & HR2). exists b', t'. split; [exact E|]. split; [exact E2|].
  eapply regenerated_unique; [exact (proj1 HS) | exact HR | exact HR2].
Qed.

(** New limits in variadicGenerate.lua. *)
Lemma edited_lemma deletes lim src script now b : (forall n, st_time b n < script)%Z ->
  exists b' a p d, build_all deletes lim src script now (build_rules data_files) b = (b', true)
  /\ config_header (l_smax lim) (l_rmax lim) "variadicGenerate.lua on input ArityConfig.gen.lua" = Some a
  /\ partial_header (l_rmin lim) (l_rmax lim) "variadicGenerate.lua on input PartialHandlerBase.gen.lua" = Some p
  /\ send_header (l_smin lim) (l_smax lim) "variadicGenerate.lua on input SendOverloads.gen.lua" = Some d
  /\ st_tree b' "detail/constants/ArityConfig.h" = Some a /\ st_tree b' "PartialHandlerBase.h" = Some p
  /\ st_tree b' "detail/operations/SendOverloads_Generated.h" = Some d.
Proof.
  intros HO. assert (unspoilt lim data_files src script b) as HU.
  { intros nd o text _ _ H. exfalso. unfold outdated in H. destruct (st_tree b o); [|discriminate].
    apply Bool.orb_false_elim in H as (_ & H). apply Z.ltb_ge in H. specialize (HO o). lia. }
  destruct (agree_lemma deletes lim src script now data_files b (library_sound lim) HU) as (b' & t' & E & E2 & HA).
  destruct (library_lemma lim (st_tree b)) as (t2 & a & p & d & E3 & A & B & D & H1 & H2 & H3 & _).
  rewrite E2 in E3. injection E3 as <-. exists b', a, p, d. rewrite !HA. auto 10.
Qed.

(** What goes wrong. *)
Definition percent_data : datafile := fun _ =>
  Some (GenData (Some "PartialHandlerBase.h") (fun source => variadic ("/* 100% " ++ partial_prefix) partial_suffix partial_generate 0 9 source)).
Definition growing_data : datafile := fun g =>
  let* l := g in
  let most := (l_rmax l + 1)%nat in
  Some (GenData (Some "PartialHandlerBase.h") (fun source => variadic partial_prefix partial_suffix partial_generate 0 most source)).
Definition checkout : tree := fun n =>
  if String.eqb n "detail/constants/ArityConfig.h" then Some arity_config_h
  else if String.eqb n "PartialHandlerBase.h" then Some partial_handler_base_h
  else if String.eqb n "detail/operations/SendOverloads_Generated.h" then Some send_overloads_h
  else if String.eqb n "Receiver.h" then Some "..." else None.
Definition with_percent : list (string * datafile) :=
  [("ArityConfig.gen.lua", config_data); ("PartialHandlerBase.gen.lua", percent_data); ("SendOverloads.gen.lua", send_data)].

Lemma emptied_header : exists l t t' o,
  t o = Some partial_handler_base_h /\ generate_all library_limits l t = (t', false) /\ t' o = Some "".
Proof.
  exists with_percent, checkout. destruct (generate_all library_limits with_percent checkout) as [t' ok] eqn:E.
  exists t', "PartialHandlerBase.h". split; [reflexivity|].
  destruct (failure_lemma library_limits [("ArityConfig.gen.lua", config_data)] ("PartialHandlerBase.gen.lua", percent_data)
              [("SendOverloads.gen.lua", send_data)] checkout) as (t1 & t2 & _ & E2 & _ & H).
  - destruct (library_yields library_limits) as (a & _ & _ & A & _). split; [constructor; [eexists; eexists; exact A | constructor]|].
    repeat constructor. intros [].
  - right. vm_compute. reflexivity.
  - change (generate_all library_limits with_percent checkout = (t2, false)) in E2. rewrite E in E2. injection E2 as -> ->.
    split; [reflexivity|]. apply (H "PartialHandlerBase.h" eq_refl).
Qed.

Lemma stale_header : exists l src script b b1 b2 o,
  st_tree b o = Some partial_handler_base_h /\ (st_time b o < src "PartialHandlerBase.gen.lua")%Z
  /\ build_all false library_limits src script 10 (build_rules l) b = (b1, false)
  /\ build_all false library_limits src script 11 (build_rules l) b1 = (b2, true)
  /\ st_tree b2 o = Some "".
Proof.
  set (src := fun n => if String.eqb n "PartialHandlerBase.gen.lua" then 5%Z else 1%Z).
  set (b := Stamped checkout (fun _ => 3%Z)).
  set (b1 := Stamped (put checkout "PartialHandlerBase.h" "") (fun n => if String.eqb n "PartialHandlerBase.h" then 10%Z else 3%Z)).
  exists with_percent, src, 1%Z, b, b1, b1, "PartialHandlerBase.h".
  assert (made library_limits ("PartialHandlerBase.gen.lua", percent_data) = None) as HM by (vm_compute; reflexivity).
  change (build_rules with_percent) with
    [("detail/constants/ArityConfig.h", ("ArityConfig.gen.lua", config_data));
     ("PartialHandlerBase.h", ("PartialHandlerBase.gen.lua", percent_data));
     ("detail/operations/SendOverloads_Generated.h", ("SendOverloads.gen.lua", send_data))].
  split; [reflexivity|]. split; [reflexivity|]. split.
  - cbn [build_all]. unfold build_one at 1.
    change (outdated src 1 b "detail/constants/ArityConfig.h" (fst ("ArityConfig.gen.lua", config_data))) with false.
    cbv iota. unfold build_one at 1.
    change (outdated src 1 b "PartialHandlerBase.h" (fst ("PartialHandlerBase.gen.lua", percent_data))) with true.
    cbv iota. rewrite HM. reflexivity.
  - split; [|reflexivity]. apply build_settled. intros o nd H. repeat (destruct H as [H|H]; [injection H as <- <-; reflexivity|]). destruct H.
Qed.

Lemma skipped_header : exists d text,
  made library_limits ("PartialHandlerBase.gen.lua", d) = Some text
  /\ (exists fs, read_partial_header text = Some fs /\ List.length fs = 11%nat)
  /\ (forall name l t, generate_all library_limits ((name, d) :: l) t = (t, false))
  /\ forall name l, build_rules ((name, d) :: l) = build_rules l.
Proof.
  exists growing_data. destruct (generated_handlers 0 10 partial_source) as (text & fs & E & H & HF);
    [apply no_star; reflexivity|].
  exists text. split; [exact E|]. split; [exists fs; split; [exact H|]|].
  - assert (forall A B (R : A -> B -> Prop) l l', Forall2 R l l' -> List.length l = List.length l') as HL by (induction 1; cbn; congruence).
    rewrite <- (HL _ _ _ _ _ HF). reflexivity.
  - split; reflexivity.
Qed.
