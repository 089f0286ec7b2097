(** Lemmas about the build's check of the headers. *)
From Verif Require Export SpecHeaderTests.
From Verif Require Import IncludeLemmas.
From Verif Require Export RegenerateLemmas.
Local Open Scope string_scope.

Lemma listed_in l h : listed l h = true <-> In h l.
Proof.
  unfold listed. rewrite existsb_exists. split.
  - intros (x & Hx & E). apply String.eqb_eq in E. now subst.
  - intros H. exists h. split; [exact H | apply String.eqb_refl].
Qed.

Lemma ends_step c r : ends_in_h (String c r) = true -> (c = "."%char /\ r = "h") \/ ends_in_h r = true.
Proof.
  cbn [ends_in_h]. intros H.
  destruct c as [[] [] [] [] [] [] [] []]; auto.
  destruct r as [|d r]; auto. destruct d as [[] [] [] [] [] [] [] []]; auto. destruct r; auto.
Qed.

Lemma ends_cons c r : ends_in_h r = true -> ends_in_h (String c r) = true.
Proof.
  cbn [ends_in_h]. intros H.
  destruct c as [[] [] [] [] [] [] [] []]; auto.
  destruct r as [|d r]; auto. destruct d as [[] [] [] [] [] [] [] []]; auto. destruct r; auto.
Qed.

Lemma ends_spec s : ends_in_h s = true <-> exists b, s = b ++ ".h".
Proof.
  split.
  - induction s as [|c r IH]; [discriminate|]. intros H. apply ends_step in H. destruct H as [(-> & ->)|H].
    + exists "". reflexivity.
    + destruct (IH H) as (b & ->). exists (String c b). reflexivity.
  - intros (b & ->). induction b as [|c b IH]; [reflexivity|]. cbn [append]. now apply ends_cons.
Qed.

Lemma unknown_spec plain generated integration files h :
  In h (unknown_headers plain generated integration files)
  <-> In h files /\ (exists b, h = b ++ ".h") /\ ~ In h plain /\ ~ In h generated /\ ~ In h integration.
Proof.
  unfold unknown_headers, globbed. rewrite filter_In, filter_In, negb_true_iff, ends_spec.
  assert (HL : listed (plain ++ generated ++ integration)%list h = false <-> ~ In h (plain ++ generated ++ integration)%list).
  { rewrite <- listed_in. destruct (listed _ h); split; congruence. }
  rewrite HL, !in_app_iff. tauto.
Qed.

(** ** The names of the programs *)

Lemma without_h_step c r : (c = "."%char /\ exists r', r = String "h" r') \/ without_h (String c r) = String c (without_h r).
Proof.
  destruct c as [[] [] [] [] [] [] [] []]; auto.
  destruct r as [|d r]; auto. destruct d as [[] [] [] [] [] [] [] []]; auto. left. eauto.
Qed.

Lemma without_h_plain b : ~ has_h b -> without_h (b ++ ".h") = b.
Proof.
  induction b as [|c b IH]; intros H; [reflexivity|]. cbn [append].
  destruct (without_h_step c (b ++ ".h")) as [(-> & r' & E)|E].
  - destruct b as [|d b]; [discriminate|]. cbn in E. injection E as -> E. exfalso. apply H. exists "", b. reflexivity.
  - rewrite E, IH; [reflexivity|]. intros (x & y & ->). apply H. now exists (String c x), y.
Qed.

Lemma stem_plain h1 h2 : plain_name h1 -> plain_name h2 -> stem h1 = stem h2 -> h1 = h2.
Proof.
  intros (b1 & H1 & ->) (b2 & H2 & ->). unfold stem. rewrite !without_h_plain by assumption. cbn. intros E.
  repeat (injection E as E). now subst.
Qed.

Lemma tests_spec headers : forall l, NoDup (map stem headers) -> (forall h, In h headers -> ~ In (stem h) (map fst l)) ->
  header_tests l headers = Some (l ++ map (fun h => (stem h, test_source h)) headers)%list.
Proof.
  induction headers as [|h r IH]; intros l HN HD; [cbn; now rewrite app_nil_r|]. cbn [header_tests map].
  inversion HN as [|x y Hx Hy]; subst.
  destruct (listed (map fst l) (stem h)) eqn:E; [apply listed_in in E; exfalso; apply (HD h); [now left | exact E]|].
  rewrite IH; [now rewrite <- app_assoc | exact Hy|].
  intros g Hg. rewrite map_app, in_app_iff. intros [Hi|Hi]; [apply (HD g); [now right | exact Hi]|].
  destruct Hi as [Hi|[]]. cbn [fst] in Hi. apply Hx. rewrite Hi. now apply in_map.
Qed.

Lemma stems_distinct headers : Forall plain_name headers -> NoDup headers -> NoDup (map stem headers).
Proof.
  induction headers as [|h r IH]; intros HF HN; [constructor|]. inversion HF; inversion HN; subst. cbn. constructor; [|auto].
  intros Hi. apply in_map_iff in Hi. destruct Hi as (g & E & Hg). apply stem_plain in E; [subst; contradiction | | assumption].
  rewrite Forall_forall in *. auto.
Qed.

Lemma named_tests headers : Forall plain_name headers -> NoDup headers ->
  exists l, header_tests [] headers = Some l /\ length l = length headers /\ NoDup (map fst l)
    /\ forall h, In h headers -> exists name, In (name, test_source h) l.
Proof.
  intros HF HN. eexists. split; [apply tests_spec; [now apply stems_distinct | intros h _ []]|]. cbn [app].
  split; [now rewrite map_length|]. split; [rewrite map_map; now apply stems_distinct|].
  intros h Hh. exists (stem h). now apply (in_map (fun h => (stem h, test_source h))).
Qed.

Lemma source_text h : test_source h =
  linefeed ++ "#include <tuple-transmission/" ++ h ++ ">" ++ linefeed ++ linefeed
  ++ "int main(int /*argc*/, char* /*argv*/[]) {" ++ linefeed ++ String "009" "return 0;" ++ linefeed ++ "}" ++ linefeed.
Proof. reflexivity. Qed.

(** ** The library *)

Lemma library_listed : forall h, In h (map h_path library) /\ String.prefix "tuple-transmission/" h = true
  <-> exists p, h = "tuple-transmission/" ++ p /\ In p (plain_headers ++ generated_headers ++ integration_headers)%list.
Proof.
  intros h. split.
  - intros (Hi & Hp).
    assert (HC : forallb (fun h => negb (String.prefix "tuple-transmission/" h)
       || existsb (fun p => String.eqb h ("tuple-transmission/" ++ p)) (plain_headers ++ generated_headers ++ integration_headers)%list)
       (map h_path library) = true) by (vm_compute; reflexivity).
    rewrite forallb_forall in HC. specialize (HC h Hi). rewrite Hp in HC. cbn [negb orb] in HC.
    apply existsb_exists in HC. destruct HC as (p & Hp' & E). apply String.eqb_eq in E. exists p. split; assumption.
  - intros (p & -> & Hp). split.
    + assert (HC : forallb (fun p => listed (map h_path library) ("tuple-transmission/" ++ p))
         (plain_headers ++ generated_headers ++ integration_headers)%list = true) by (vm_compute; reflexivity).
      rewrite forallb_forall in HC. specialize (HC p Hp). now apply listed_in.
    + cbn. now destruct p.
Qed.

Lemma library_lists_distinct : NoDup (plain_headers ++ generated_headers ++ integration_headers)%list.
Proof. apply distinct_nodup. vm_compute. reflexivity. Qed.

Lemma tested_distinct : NoDup (tested_headers plain_headers generated_headers).
Proof. apply distinct_nodup. vm_compute. reflexivity. Qed.

Fixpoint shows_h (s : string) : bool :=
  match s with EmptyString => false | String _ r => String.prefix ".h" s || shows_h r end.

Lemma not_has_h b : shows_h b = false -> ~ has_h b.
Proof.
  intros H (x & y & ->). revert H. induction x as [|c x IH]; cbn [append]; [cbn; now destruct y|].
  cbn [shows_h]. intros H. apply orb_false_iff in H. now apply IH.
Qed.

Lemma library_plain : Forall plain_name (tested_headers plain_headers generated_headers).
Proof.
  apply Forall_forall. intros h Hh.
  assert (HC : forallb (fun h => String.eqb h (String.substring 0 (String.length h - 2) h ++ ".h")
     && negb (shows_h (String.substring 0 (String.length h - 2) h)))
     (tested_headers plain_headers generated_headers) = true) by (vm_compute; reflexivity).
  rewrite forallb_forall in HC. specialize (HC h Hh). apply andb_true_iff in HC. destruct HC as (H1 & H2).
  apply String.eqb_eq in H1. apply negb_true_iff in H2. exists (String.substring 0 (String.length h - 2) h).
  split; [now apply not_has_h | exact H1].
Qed.

Lemma library_sources : forall h, In h (tested_headers plain_headers generated_headers) ->
  includes_just (test_source h) ("tuple-transmission/" ++ h).
Proof.
  intros h Hh. exists 2%nat. revert h Hh. apply Forall_forall. repeat (constructor; [vm_compute; reflexivity|]). constructor.
Qed.

Definition reads (t h : string) : bool :=
  match read_unit [] [] [Angled ("tuple-transmission/" ++ t)] with
  | Some st => existsb (fun e => match e with Declarations p => String.eqb p h | _ => false end) (u_log st)
  | None => false
  end.

Lemma unit_anywhere dir p : read_unit dir [] [Angled p] = read_unit [] [] [Angled p].
Proof. reflexivity. Qed.

Lemma reads_spec t h : reads t h = true <-> read_by t h.
Proof.
  unfold reads, read_by. split.
  - intros H dir. rewrite unit_anywhere. destruct (read_unit [] [] _) as [st|]; [|discriminate]. exists st. split; [reflexivity|].
    apply existsb_exists in H. destruct H as ([p|] & Hp & E); [|discriminate]. apply String.eqb_eq in E. now subst.
  - intros H. destruct (H []) as (st & -> & Hi). apply existsb_exists. exists (Declarations h).
    split; [exact Hi | apply String.eqb_refl].
Qed.

Lemma library_coverage h : In h (map h_path library) ->
  ((exists t, In t (tested_headers plain_headers generated_headers) /\ read_by t h)
   <-> ~ In h ("tuple_transmission.h" :: map (fun p => "tuple-transmission/" ++ p) integration_headers)).
Proof.
  intros Hh.
  assert (HC : forallb (fun h => Bool.eqb (existsb (fun t => reads t h) (tested_headers plain_headers generated_headers))
     (negb (listed ("tuple_transmission.h" :: map (fun p => "tuple-transmission/" ++ p) integration_headers) h))) (map h_path library) = true)
    by (vm_compute; reflexivity).
  rewrite forallb_forall in HC. specialize (HC h Hh). apply Bool.eqb_prop in HC. split.
  - intros (t & Ht & R) Hi. apply listed_in in Hi. rewrite Hi in HC. apply reads_spec in R.
    assert (existsb (fun t => reads t h) (tested_headers plain_headers generated_headers) = true)
      by (apply existsb_exists; exists t; split; assumption). rewrite HC in H. discriminate.
  - intros Hn. destruct (listed _ h) eqn:E in HC; [apply listed_in in E; contradiction|].
    cbn [negb] in HC. apply existsb_exists in HC. destruct HC as (t & Ht & R). exists t. split; [exact Ht | now apply reads_spec].
Qed.

(** ** The order of the targets *)

Lemma rest_sees deletes lim src script now rs b ts : ~ In TRegenerate ts -> forall b' saw ok,
  build_targets deletes lim src script now rs b ts = (b', saw, ok) -> b' = b /\ forall h x, In (h, x) saw -> x = st_tree b h.
Proof.
  induction ts as [|t r IH]; intros Hn b' saw ok; cbn [build_targets].
  - intros [= <- <- <-]. split; [reflexivity | intros ? ? []].
  - destruct t as [| |h|]; cbn [build_target].
    + exfalso. apply Hn. now left.
    + destruct (build_targets _ _ _ _ _ _ b r) as [[b1 s1] o1] eqn:E. intros [= <- <- <-].
      apply (IH (fun Hi => Hn (or_intror Hi)) _ _ _ eq_refl).
    + destruct (st_tree b h) as [x|] eqn:Ex.
      * destruct (build_targets _ _ _ _ _ _ b r) as [[b1 s1] o1] eqn:E. intros [= <- <- <-].
        destruct (IH (fun Hi => Hn (or_intror Hi)) _ _ _ eq_refl) as (-> & E'). split; [reflexivity|].
        intros g y [[= <- <-]|Hi]; [now symmetry | now apply E'].
      * intros [= <- <- <-]. split; [reflexivity|]. intros g y [[= <- <-]|[]]. now symmetry.
    + destruct (build_targets _ _ _ _ _ _ b r) as [[b1 s1] o1] eqn:E. intros [= <- <- <-].
      apply (IH (fun Hi => Hn (or_intror Hi)) _ _ _ eq_refl).
Qed.

Lemma regenerated_first deletes lim src script now l b ts b' saw ok : sound lim l -> unspoilt lim l src script b ->
  ~ In TRegenerate ts ->
  build_targets deletes lim src script now (build_rules l) b (TRegenerate :: ts) = (b', saw, ok) ->
  forall nd h text x, In nd l -> yields lim nd h text -> In (h, x) saw -> x = Some text.
Proof.
  intros HS HU Hn. cbn [build_targets build_target].
  destruct (build_lemma deletes lim src script now l b HS HU) as (b1 & E & (HR & _) & _). rewrite E.
  destruct (build_targets _ _ _ _ _ _ b1 ts) as [[b2 s2] o2] eqn:E2. intros [= <- <- <-]. cbn [app].
  apply rest_sees in E2; [|exact Hn]. destruct E2 as (_ & E2). intros nd h text x Hnd HY Hi.
  rewrite (E2 h x Hi). eapply HR; eassumption.
Qed.

Definition full_checkout : tree := fun n =>
  match checkout n with Some x => Some x | None => if listed plain_headers n then Some "..." else None end.

Lemma tested_early : exists order b b' saw text,
  let lim := Limits 0 2 0 3 in
  let headers := tested_headers plain_headers generated_headers in
  allowed (dependencies true headers) order
  /\ (forall t, In t order <-> t = TRegenerate \/ t = TLibrary \/ t = TAllTests \/ exists h, In h headers /\ t = TTest h)
  /\ unspoilt lim data_files (fun _ => 0%Z) 5 b
  /\ build_targets false lim (fun _ => 0%Z) 5 10 (build_rules data_files) b order = (b', saw, true)
  /\ st_tree b' "PartialHandlerBase.h" = Some text /\ In ("PartialHandlerBase.h", Some partial_handler_base_h) saw
  /\ text <> partial_handler_base_h.
Proof.
  set (headers := tested_headers plain_headers generated_headers).
  set (b := Stamped full_checkout (fun _ => 0%Z)).
  set (order := (map TTest headers ++ [TRegenerate; TLibrary; TAllTests])%list).
  destruct (build_targets false (Limits 0 2 0 3) (fun _ => 0%Z) 5 10 (build_rules data_files) b order) as [[b' saw] ok] eqn:E.
  destruct (partial_header 0 2 "variadicGenerate.lua on input PartialHandlerBase.gen.lua") as [text|] eqn:ET;
    [|vm_compute in ET; discriminate].
  exists order, b, b', saw, text. cbn zeta.
  split; [|split; [|split; [|split; [|split; [|split]]]]].
  - split.
    + unfold order. pose proof tested_distinct as HD.
      assert (HT : NoDup (map TTest headers)) by (apply FinFun.Injective_map_NoDup; [intros x y [= ->]; reflexivity | exact HD]).
      apply NoDup_Add with (a := TRegenerate) (l := (map TTest headers ++ [TLibrary; TAllTests])%list); [apply Add_app|]. split.
      * apply NoDup_Add with (a := TLibrary) (l := (map TTest headers ++ [TAllTests])%list); [apply Add_app|]. split.
        { apply NoDup_Add with (a := TAllTests) (l := (map TTest headers ++ [])%list); [apply Add_app|].
          rewrite app_nil_r. split; [exact HT|]. intros Hi. apply in_map_iff in Hi. destruct Hi as (? & ? & _). discriminate. }
        intros Hi. apply in_app_iff in Hi. destruct Hi as [Hi|[Hi|[]]]; [|discriminate].
        apply in_map_iff in Hi. destruct Hi as (? & ? & _). discriminate.
      * intros Hi. apply in_app_iff in Hi. destruct Hi as [Hi|[Hi|[Hi|[]]]]; [|discriminate|discriminate].
        apply in_map_iff in Hi. destruct Hi as (? & ? & _). discriminate.
    + intros x y [[= <- <-]|Hi] _.
      * exists (map TTest headers ++ [TRegenerate])%list, [TAllTests]. split; [unfold order; now rewrite <- app_assoc|].
        apply in_app_iff. right. now left.
      * apply in_map_iff in Hi. destruct Hi as (h & [= <- <-] & Hh).
        exists (map TTest headers ++ [TRegenerate; TLibrary])%list, []. split; [unfold order; now rewrite <- app_assoc|].
        apply in_app_iff. left. now apply in_map.
  - intros t. unfold order. rewrite in_app_iff, in_map_iff. split.
    + intros [(h & <- & Hh)|[<-|[<-|[<-|[]]]]]; eauto 6.
    + intros [->|[->|[->|(h & Hh & ->)]]]; [right; now left | right; right; now left | right; right; right; now left | left; eauto].
  - intros nd o t _ _. unfold outdated. cbn [st_tree st_time b]. destruct (full_checkout o); cbn; discriminate.
  - assert (HK : snd (build_targets false (Limits 0 2 0 3) (fun _ => 0%Z) 5 10 (build_rules data_files) b order) = true)
      by (vm_compute; reflexivity).
    rewrite E in HK. cbn [snd] in HK. now rewrite E, HK.
  - assert (HK : match st_tree (fst (fst (build_targets false (Limits 0 2 0 3) (fun _ => 0%Z) 5 10 (build_rules data_files) b order)))
                   "PartialHandlerBase.h" with
                 | Some x => match partial_header 0 2 "variadicGenerate.lua on input PartialHandlerBase.gen.lua" with
                             | Some y => String.eqb x y | None => false end
                 | None => false end = true) by (vm_compute; reflexivity).
    rewrite E, ET in HK. cbn [fst] in HK. destruct (st_tree b' "PartialHandlerBase.h"); [|discriminate].
    apply String.eqb_eq in HK. now subst.
  - assert (HK : existsb (fun hx => String.eqb (fst hx) "PartialHandlerBase.h"
                   && match snd hx with Some x => String.eqb x partial_handler_base_h | None => false end)
                   (snd (fst (build_targets false (Limits 0 2 0 3) (fun _ => 0%Z) 5 10 (build_rules data_files) b order))) = true)
      by (vm_compute; reflexivity).
    rewrite E in HK. cbn [fst snd] in HK. apply existsb_exists in HK. destruct HK as ((h & [x|]) & Hi & HE); cbn [fst snd] in HE;
      apply andb_true_iff in HE; destruct HE as (H1 & H2); [|discriminate].
    apply String.eqb_eq in H1. apply String.eqb_eq in H2. now subst.
  - assert (HK : match partial_header 0 2 "variadicGenerate.lua on input PartialHandlerBase.gen.lua" with
                 | Some y => String.eqb y partial_handler_base_h | None => true end = false) by (vm_compute; reflexivity).
    rewrite ET in HK. intros ->. rewrite String.eqb_refl in HK. discriminate.
Qed.

Lemma clashing_names : exists h1 h2, h1 <> h2 /\ (exists b, h1 = b ++ ".h") /\ (exists b, h2 = b ++ ".h") /\ header_tests [] [h1; h2] = None.
Proof.
  exists "Send.helpers.h", "Sendelpers.h". split; [discriminate|]. split; [now exists "Send.helpers"|]. split; [now exists "Sendelpers"|].
  vm_compute. reflexivity.
Qed.
