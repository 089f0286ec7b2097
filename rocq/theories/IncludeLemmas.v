(** Reading the headers in any order. *)
From Coq Require Import Lia Bool.
From Verif Require Export SpecInclude.
Import List.ListNotations List.
Local Open Scope string_scope.

Section Library.
Context (lib : list header) (wanted : string) (special : string -> bool).

Definition target (h : header) (i : inclusion) : option header := found lib (directory (h_path h)) i.

(** ** Conditions on the headers, checked by computation *)

Fixpoint position (path : string) (l : list header) : nat :=
  match l with [] => 0 | h :: l' => if String.eqb (h_path h) path then 0 else S (position path l') end.
Definition rank (h : header) : nat := position (h_path h) lib.

(** Does reading [h] bring in the wanted header? *)
Fixpoint brings (fuel : nat) (h : header) : bool :=
  String.eqb (h_path h) wanted
  || match fuel with
     | O => false
     | S fuel' => existsb (fun i => match target h i with Some g => brings fuel' g | None => false end) (h_includes h)
     end.
(** Are special files only included behind one that brings it in? *)
Fixpoint guarded (h : header) (seen : bool) (l : list inclusion) : bool :=
  match l with
  | [] => true
  | i :: l' =>
      match target h i with
      | Some g => guarded h (seen || brings (length lib) g) l'
      | None => (seen || negb (special (inclusion_name i))) && guarded h seen l'
      end
  end.

Definition ordered (h : header) : bool :=
  forallb (fun i => match target h i with Some g => Nat.ltb (rank g) (rank h) | None => true end) (h_includes h).

Context (Hordered : forallb ordered lib = true) (Hguarded : forallb (fun h => guarded h false (h_includes h)) lib = true)
        (Hguards : NoDup (map h_guard lib)) (Hpaths : NoDup (map h_path lib)).

Lemma find_in path h : find_header lib path = Some h -> In h lib /\ h_path h = path.
Proof. intros H. apply find_some in H as (H & E). apply String.eqb_eq in E. split; assumption. Qed.
Lemma found_in dir i h : found lib dir i = Some h -> In h lib.
Proof.
  unfold found. destruct i as [p|p].
  - destruct (find_header lib (path_from dir p)) as [g|] eqn:E.
    + intros H. injection H as <-. apply find_in in E. apply E.
    + intros H. apply find_in in H. apply H.
  - intros H. apply find_in in H. apply H.
Qed.
Lemma rank_lt h : In h lib -> (rank h < length lib)%nat.
Proof.
  unfold rank. generalize lib. intros l. induction l as [|g l IH]; intros H; [contradiction|]. cbn [position length].
  destruct (String.eqb_spec (h_path g) (h_path h)) as [|Hn]; [lia|]. destruct H as [->|H]; [contradiction|]. specialize (IH H). lia.
Qed.
Lemma same_by (f : header -> string) : NoDup (map f lib) -> forall g h, In g lib -> In h lib -> f g = f h -> g = h.
Proof.
  generalize lib. intros l. induction l as [|x l IH]; intros Hd g h Hg Hh E; [contradiction|]. cbn [map] in Hd.
  inversion Hd as [|? ? Hx Hl]; subst. destruct Hg as [->|Hg], Hh as [->|Hh]; [reflexivity | | | apply IH; assumption].
  - exfalso. apply Hx. rewrite E. apply in_map, Hh.
  - exfalso. apply Hx. rewrite <- E. apply in_map, Hg.
Qed.
Definition same_guard := same_by h_guard Hguards.
Definition same_path := same_by h_path Hpaths.

(** ** What holds of the log *)

Definition fine (before : list event) (e : event) : Prop :=
  match e with
  | Declarations p => ~ In e before
      /\ forall h i g, In h lib -> h_path h = p -> In i (h_includes h) -> target h i = Some g -> In (Declarations (h_path g)) before
  | Foreign (Some _) n => special n = true -> In (Declarations wanted) before
  | Foreign None _ => True
  end.
Definition fine_log (l : list event) : Prop := forall a e b, l = (a ++ e :: b)%list -> fine a e.

Lemma fine_snoc l e : fine_log l -> fine l e -> fine_log (l ++ [e])%list.
Proof.
  intros Hl He a x b E. destruct (exists_last (l := x :: b) ltac:(discriminate)) as (b' & y & Eb).
  rewrite Eb in E. rewrite app_assoc in E. apply app_inj_tail in E as (E & <-).
  destruct b' as [|z b'].
  - cbn [app] in Eb. injection Eb as -> ->. rewrite app_nil_r in E. subst. exact He.
  - cbn [app] in Eb. injection Eb as -> _. apply (Hl a z b'). rewrite E. reflexivity.
Qed.

(** Headers of a lower rank that have been entered have been read. *)
Record good (r : nat) (st : unit_state) : Prop := {
  good_log : fine_log (u_log st);
  good_settled : forall h, In h lib -> (rank h < r)%nat -> is_defined st (h_guard h) = true -> In (Declarations (h_path h)) (u_log st);
  good_entered : forall h, In h lib -> In (Declarations (h_path h)) (u_log st) -> is_defined st (h_guard h) = true
}.

Lemma brings_read st r : good r st -> forall n h, In h lib -> brings n h = true ->
  In (Declarations (h_path h)) (u_log st) -> In (Declarations wanted) (u_log st).
Proof.
  intros G. induction n as [|n IH]; intros h Hh Hb Hd; cbn [brings] in Hb; apply orb_prop in Hb as [Hb|Hb].
  - apply String.eqb_eq in Hb. rewrite <- Hb. exact Hd.
  - discriminate.
  - apply String.eqb_eq in Hb. rewrite <- Hb. exact Hd.
  - apply existsb_exists in Hb as (i & Hi & Hb). destruct (target h i) as [g|] eqn:E; [|discriminate].
    apply (IH g (found_in _ _ _ E) Hb).
    apply in_split in Hd as (a & b & Ed). destruct (good_log _ _ G a (Declarations (h_path h)) b Ed) as (_ & Hx).
    specialize (Hx h i g Hh eq_refl Hi E). rewrite Ed. apply in_or_app. left. exact Hx.
Qed.

(** ** Reading *)

(** From [st] to [st'] only headers of a rank below [k] have been read. *)
Record later (k : nat) (st st' : unit_state) : Prop := {
  later_log : forall e, In e (u_log st) -> In e (u_log st');
  later_defined : forall g, is_defined st g = true -> is_defined st' g = true;
  later_entered : forall h, In h lib -> is_defined st' (h_guard h) = true -> is_defined st (h_guard h) = true \/ (rank h < k)%nat;
  later_read : forall p, In (Declarations p) (u_log st') -> In (Declarations p) (u_log st) \/ exists h, In h lib /\ h_path h = p /\ (rank h < k)%nat
}.
Lemma later_refl k st : later k st st.
Proof. constructor; auto. Qed.
Lemma later_trans k l a b c : (k <= l)%nat -> later k a b -> later l b c -> later l a c.
Proof.
  intros Hk [A1 A2 A3 A4] [B1 B2 B3 B4]. constructor; auto.
  - intros h Hh Hd. destruct (B3 h Hh Hd) as [Hd'|]; [|tauto]. destruct (A3 h Hh Hd') as [|]; [tauto | right; lia].
  - intros p Hd. destruct (B4 p Hd) as [Hd'|]; [|tauto]. destruct (A4 p Hd') as [|(h & H1 & H2 & H3)]; [tauto|].
    right. exists h. repeat split; try assumption. lia.
Qed.
Lemma later_weaken k l a b : (k <= l)%nat -> later k a b -> later l a b.
Proof. intros H L. eapply later_trans; [exact H | exact L | apply later_refl]. Qed.

Lemma log_foreign k r st by_header n : good r st ->
  (forall h, by_header = Some h -> special n = true -> In (Declarations wanted) (u_log st)) ->
  good r (log (Foreign by_header n) st) /\ later k st (log (Foreign by_header n) st).
Proof.
  intros G Hw. split.
  - constructor.
    + cbn [log u_log]. apply fine_snoc; [apply G|]. destruct by_header as [h|]; [|exact I]. cbn [fine]. apply (Hw h eq_refl).
    + intros h Hh Hr Hd. cbn [log u_log]. apply in_or_app. left. exact (good_settled _ _ G h Hh Hr Hd).
    + intros h Hh Hd. cbn [log u_log] in Hd. apply in_app_or in Hd as [Hd|[Hd|[]]]; [|discriminate].
      exact (good_entered _ _ G h Hh Hd).
  - constructor; auto.
    + intros e He. cbn [log u_log]. apply in_or_app. left. exact He.
    + intros p Hp. cbn [log u_log] in Hp. apply in_app_or in Hp as [Hp|[Hp|[]]]; [tauto | discriminate].
Qed.

Lemma defined_cons g st x : is_defined (Unit (g :: u_defined st) (u_log st)) x = String.eqb x g || is_defined st x.
Proof. reflexivity. Qed.

Definition rank_of (o : option header) : nat := match o with Some h => S (rank h) | None => 0 end.

Lemma include_good : forall n by_header dir i st r,
  good r st -> (rank_of (found lib dir i) <= r)%nat -> (rank_of (found lib dir i) < n)%nat ->
  (forall h, by_header = Some h -> found lib dir i = None -> special (inclusion_name i) = true -> In (Declarations wanted) (u_log st)) ->
  exists st', include lib n by_header dir i st = Some st' /\ good r st' /\ later (rank_of (found lib dir i)) st st'
    /\ forall h, found lib dir i = Some h -> In (Declarations (h_path h)) (u_log st').
Proof.
  induction n as [|n IH]; intros by_header dir i st r G Hr Hn Hs; [lia|].
  cbn [include]. destruct (found lib dir i) as [h|] eqn:Ef; cbn [rank_of] in *.
  2:{ eexists. split; [reflexivity|]. destruct (log_foreign 0 r st by_header (inclusion_name i) G) as (G1 & L1).
      { intros h Hb. exact (Hs h Hb eq_refl). }
      split; [exact G1|]. split; [exact L1|]. intros h E. discriminate. }
  pose proof (found_in _ _ _ Ef) as Hh. destruct (is_defined st (h_guard h)) eqn:Ed.
  { exists st. split; [reflexivity|]. split; [exact G|]. split; [apply later_refl|]. intros g E. injection E as <-.
    apply (good_settled _ _ G h Hh); [lia | exact Ed]. }
  set (st1 := Unit (h_guard h :: u_defined st) (u_log st)).
  assert (good (rank h) st1) as G1.
  { constructor.
    - apply G.
    - intros g Hg Hrg Hd. unfold st1 in Hd. rewrite defined_cons in Hd. apply orb_prop in Hd as [Hd|Hd].
      + apply String.eqb_eq in Hd. apply same_guard in Hd; [|assumption..]. subst g. lia.
      + apply (good_settled _ _ G g Hg); [lia | exact Hd].
    - intros g Hg Hd. unfold st1. rewrite defined_cons. rewrite (good_entered _ _ G g Hg Hd). apply orb_true_r. }
  assert (later (S (rank h)) st st1) as L1.
  { constructor; auto.
    - intros g Hg. unfold st1. rewrite defined_cons, Hg. apply orb_true_r.
    - intros g Hg Hd. unfold st1 in Hd. rewrite defined_cons in Hd. apply orb_prop in Hd as [Hd|Hd]; [|tauto].
      apply String.eqb_eq in Hd. apply same_guard in Hd; [|assumption..]. subst g. right. lia. }
  assert (is_defined st1 (h_guard h) = true) as E1 by (unfold st1; rewrite defined_cons, String.eqb_refl; reflexivity).
  assert (forall l seen s, good (rank h) s -> (seen = true -> In (Declarations wanted) (u_log s)) -> guarded h seen l = true ->
    (forall j, In j l -> (rank_of (target h j) <= rank h)%nat) ->
    exists s', each (include lib n (Some (h_path h)) (directory (h_path h))) l s = Some s' /\ good (rank h) s' /\ later (rank h) s s'
      /\ forall j g, In j l -> target h j = Some g -> In (Declarations (h_path g)) (u_log s')) as HE.
  { clear - IH Hn Hh. induction l as [|j l IHl]; intros seen s G Hseen Hg Hl.
    - exists s. split; [reflexivity|]. split; [exact G|]. split; [apply later_refl|]. intros ? ? [].
    - cbn [each]. pose proof (Hl j (or_introl eq_refl)) as Hj.
      destruct (IH (Some (h_path h)) (directory (h_path h)) j s (rank h) G) as (s1 & Es & Gs & Ls & Fs).
      + exact Hj.
      + unfold target in Hj. lia.
      + intros x _ Hf Hsp. cbn [guarded] in Hg. unfold target in Hg. rewrite Hf, Hsp in Hg. cbn [negb] in Hg.
        rewrite orb_false_r in Hg. apply andb_prop in Hg as (Hg & _). exact (Hseen Hg).
      + rewrite Es. destruct (IHl (match target h j with Some g => seen || brings (length lib) g | None => seen end) s1 Gs) as (s' & E' & G' & L' & F').
        * destruct (target h j) as [g|] eqn:Ej.
          -- intros Hx. apply orb_prop in Hx as [Hx|Hx]; [apply (later_log _ _ _ Ls), Hseen, Hx|].
             eapply brings_read; [exact Gs | exact (found_in _ _ _ Ej) | exact Hx | apply Fs, Ej].
          -- intros Hx. apply (later_log _ _ _ Ls), Hseen, Hx.
        * cbn [guarded] in Hg. destruct (target h j); [exact Hg | apply andb_prop in Hg; apply Hg].
        * intros x Hx. apply Hl. right. exact Hx.
        * exists s'. split; [exact E'|]. split; [exact G'|]. split; [eapply later_trans; [exact Hj | exact Ls | exact L']|].
          intros x g [->|Hx] Hg'; [apply (later_log _ _ _ L'), Fs, Hg' | eapply F'; eassumption]. }
  pose proof (proj1 (forallb_forall _ _) Hordered h Hh) as Ho. unfold ordered in Ho. rewrite forallb_forall in Ho.
  pose proof (proj1 (forallb_forall _ _) Hguarded h Hh) as Hgu. cbv beta in Hgu.
  destruct (HE (h_includes h) false st1 G1) as (s & Es & Gs & Ls & Fs).
  - discriminate.
  - exact Hgu.
  - intros j Hj. specialize (Ho j Hj). destruct (target h j); cbn [rank_of]; [apply Nat.ltb_lt in Ho|]; lia.
  - fold st1. rewrite Es. eexists. split; [reflexivity|].
    assert (~ In (Declarations (h_path h)) (u_log s)) as Hnew.
    { intros Hd. destruct (later_read _ _ _ Ls _ Hd) as [Hd'|(g & Hg & Ep & Hlt)].
      - unfold st1 in Hd'. cbn [u_log] in Hd'. rewrite (good_entered _ _ G h Hh Hd') in Ed. discriminate.
      - unfold rank in Hlt. rewrite Ep in Hlt. lia. }
    assert (later (S (rank h)) st (log (Declarations (h_path h)) s)) as L.
    { eapply later_trans; [apply le_n | exact L1|]. eapply (later_trans (rank h)); [lia | exact Ls|]. constructor; auto.
      - intros e He. cbn [log u_log]. apply in_or_app. left. exact He.
      - intros p Hp. cbn [log u_log] in Hp. apply in_app_or in Hp as [Hp|[Hp|[]]]; [tauto|]. injection Hp as <-.
        right. exists h. repeat split; [exact Hh | lia]. }
    split; [|split; [exact L|]].
    2:{ intros g E. injection E as <-. cbn [log u_log]. apply in_or_app. right. left. reflexivity. }
    constructor.
    + cbn [log u_log]. apply fine_snoc; [apply Gs|]. split; [exact Hnew|].
      intros g j k Hg Ep Hj Ht. apply same_path in Ep; [|assumption..]. subst g.
      exact (Fs j k Hj Ht).
    + intros g Hg Hrg Hd. cbn [log u_log]. destruct (Nat.lt_ge_cases (rank g) (rank h)) as [Hlt|Hge].
      * apply in_or_app. left. apply (good_settled _ _ Gs g Hg Hlt Hd).
      * destruct (String.eqb_spec (h_guard g) (h_guard h)) as [Eg|Hne].
        -- apply same_guard in Eg; [|assumption..]. subst g. apply in_or_app. right. left. reflexivity.
        -- apply in_or_app. left. apply (later_log _ _ _ Ls). unfold st1. cbn [u_log].
           apply (good_settled _ _ G g Hg Hrg). change (is_defined s (h_guard g) = true) in Hd.
           destruct (later_entered _ _ _ Ls g Hg Hd) as [Hd'|]; [|lia].
           unfold st1 in Hd'. rewrite defined_cons in Hd'. apply orb_prop in Hd' as [Hd'|Hd']; [|exact Hd'].
           apply String.eqb_eq in Hd'. contradiction.
    + intros g Hg Hd. change (is_defined s (h_guard g) = true). cbn [log u_log] in Hd.
      apply in_app_or in Hd as [Hd|[Hd|[]]]; [exact (good_entered _ _ Gs g Hg Hd)|]. injection Hd as Hd.
      apply same_path in Hd; [|assumption..]. subst g.
      apply (later_defined _ _ _ Ls), E1.
Qed.

Lemma each_good dir l : forall st, good (length lib) st ->
  exists st', each (include lib (S (length lib)) None dir) l st = Some st' /\ good (length lib) st'
    /\ later (length lib) st st'
    /\ forall i h, In i l -> found lib dir i = Some h -> In (Declarations (h_path h)) (u_log st').
Proof.
  induction l as [|i l IH]; intros st G.
  - exists st. split; [reflexivity|]. split; [exact G|]. split; [apply later_refl|]. intros ? ? [].
  - cbn [each].
    assert (rank_of (found lib dir i) <= length lib)%nat as Hr.
    { destruct (found lib dir i) as [h|] eqn:E; cbn [rank_of]; [|lia]. pose proof (rank_lt h (found_in _ _ _ E)). lia. }
    destruct (include_good (S (length lib)) None dir i st (length lib) G Hr ltac:(lia)) as (s1 & E1 & G1 & L1 & F1); [discriminate|].
    rewrite E1. destruct (IH s1 G1) as (s2 & E2 & G2 & L2 & F2). exists s2. split; [exact E2|]. split; [exact G2|].
    split; [eapply later_trans; eassumption|]. intros j h [->|Hj] Hf; [apply (later_log _ _ _ L2), F1, Hf | eapply F2; eassumption].
Qed.

Lemma start_good defined : (forall h, In h lib -> ~ In (h_guard h) defined) -> good (length lib) (Unit defined []).
Proof.
  intros H. constructor.
  - intros a e b E. destruct a; discriminate.
  - intros h Hh _ Hd. exfalso. unfold is_defined in Hd. apply existsb_exists in Hd as (x & Hx & E). apply String.eqb_eq in E. subst x.
    exact (H h Hh Hx).
  - intros h Hh [].
Qed.
End Library.

(** ** The headers of the library *)

Fixpoint distinct (l : list string) : bool :=
  match l with [] => true | x :: l' => negb (existsb (String.eqb x) l') && distinct l' end.
Lemma distinct_nodup l : distinct l = true -> NoDup l.
Proof.
  induction l as [|x l IH]; intros H; [constructor|]. cbn [distinct] in H. apply andb_prop in H as (H1 & H2).
  constructor; [|apply IH, H2]. intros Hin. apply negb_true_iff in H1. rewrite <- not_true_iff_false in H1. apply H1.
  apply existsb_exists. exists x. split; [exact Hin | apply String.eqb_refl].
Qed.

Lemma library_ordered : forallb (ordered library) library = true.
Proof. vm_compute. reflexivity. Qed.
Lemma library_guarded : forallb (fun h => guarded library config_path fusion_file h false (h_includes h)) library = true.
Proof. vm_compute. reflexivity. Qed.
Lemma library_guards : NoDup (map h_guard library).
Proof. apply distinct_nodup. vm_compute. reflexivity. Qed.
Lemma library_paths : NoDup (map h_path library).
Proof. apply distinct_nodup. vm_compute. reflexivity. Qed.

Lemma unit_good dir defined is : (forall h, In h library -> ~ In (h_guard h) defined) ->
  exists st, read_unit dir defined is = Some st /\ good library config_path fusion_file (length library) st
    /\ forall i h, In i is -> found library dir i = Some h -> In (Declarations (h_path h)) (u_log st).
Proof.
  intros H. destruct (each_good library config_path fusion_file library_ordered library_guarded library_guards library_paths dir is
    (Unit defined []) (start_good library config_path fusion_file defined H)) as (st & E & G & _ & F).
  exists st. split; [exact E|]. split; [exact G | exact F].
Qed.

(** Files read because of the application's own lines. *)
Lemma include_own n : forall lib h dir i st st', include lib n (Some h) dir i st = Some st' ->
  forall x, In (Foreign None x) (u_log st') -> In (Foreign None x) (u_log st).
Proof.
  induction n as [|n IH]; intros lib h dir i st st' E x Hx; [discriminate|]. cbn [include] in E.
  destruct (found lib dir i) as [g|].
  - destruct (is_defined st (h_guard g)); [injection E as <-; exact Hx|].
    destruct (each _ _ _) as [s|] eqn:Ee; [|discriminate]. injection E as <-. cbn [log u_log] in Hx.
    apply in_app_or in Hx as [Hx|[Hx|[]]]; [|discriminate].
    assert (forall l s0 s1, each (include lib n (Some (h_path g)) (directory (h_path g))) l s0 = Some s1 ->
      In (Foreign None x) (u_log s1) -> In (Foreign None x) (u_log s0)) as HE.
    { clear - IH. induction l as [|j l IHl]; intros s0 s1 E H; [injection E as <-; exact H|]. cbn [each] in E.
      destruct (include lib n (Some (h_path g)) (directory (h_path g)) j s0) as [s2|] eqn:E2; [|discriminate].
      eapply IH; [exact E2|]. eapply IHl; eassumption. }
    exact (HE _ _ _ Ee Hx).
  - injection E as <-. cbn [log u_log] in Hx. apply in_app_or in Hx as [Hx|[Hx|[]]]; [exact Hx | discriminate].
Qed.
Lemma include_own_line n lib dir i st st' : include lib n None dir i st = Some st' ->
  forall x, In (Foreign None x) (u_log st') -> In (Foreign None x) (u_log st) \/ x = inclusion_name i.
Proof.
  destruct n as [|n]; [discriminate|]. cbn [include]. destruct (found lib dir i) as [g|].
  - destruct (is_defined st (h_guard g)); [intros E; injection E as <-; tauto|].
    destruct (each _ _ _) as [s|] eqn:Ee; [|discriminate]. intros E x Hx. injection E as <-. cbn [log u_log] in Hx.
    apply in_app_or in Hx as [Hx|[Hx|[]]]; [|discriminate]. left.
    assert (forall l s0 s1, each (include lib n (Some (h_path g)) (directory (h_path g))) l s0 = Some s1 ->
      In (Foreign None x) (u_log s1) -> In (Foreign None x) (u_log s0)) as HE.
    { clear. induction l as [|j l IHl]; intros s0 s1 E H; [injection E as <-; exact H|]. cbn [each] in E.
      destruct (include lib n (Some (h_path g)) (directory (h_path g)) j s0) as [s2|] eqn:E2; [|discriminate].
      eapply include_own; [exact E2|]. eapply IHl; eassumption. }
    exact (HE _ _ _ Ee Hx).
  - intros E x Hx. injection E as <-. cbn [log u_log] in Hx. apply in_app_or in Hx as [Hx|[Hx|[]]]; [tauto|]. injection Hx as <-. tauto.
Qed.
Lemma each_own n lib dir l : forall st st', each (include lib n None dir) l st = Some st' ->
  forall x, In (Foreign None x) (u_log st') -> In (Foreign None x) (u_log st) \/ In x (map inclusion_name l).
Proof.
  induction l as [|i l IH]; intros st st' E x Hx; [injection E as <-; tauto|]. cbn [each] in E.
  destruct (include lib n None dir i st) as [s|] eqn:Ei; [|discriminate].
  destruct (IH _ _ E x Hx) as [H|H]; [|right; right; exact H].
  destruct (include_own_line _ _ _ _ _ _ Ei x H) as [H'|H']; [tauto | right; left; congruence].
Qed.

(** ** The properties *)

Lemma unit_read dir defined is : (forall h, In h library -> ~ In (h_guard h) defined) ->
  exists st, read_unit dir defined is = Some st
    /\ forall i h, In i is -> found library dir i = Some h -> In (Declarations (h_path h)) (u_log st).
Proof. intros H. destruct (unit_good dir defined is H) as (st & E & _ & F). exists st. split; assumption. Qed.

Lemma unit_limits_first dir defined is st a by_header n b :
  (forall h, In h library -> ~ In (h_guard h) defined) -> read_unit dir defined is = Some st ->
  u_log st = (a ++ Foreign by_header n :: b)%list -> fusion_file n = true ->
  In (Declarations config_path) a \/ (by_header = None /\ In n (map inclusion_name is)).
Proof.
  intros H E El Hf. destruct (unit_good dir defined is H) as (st' & E' & G & _). rewrite E in E'. injection E' as <-.
  pose proof (good_log _ _ _ _ _ G a _ b El) as Hx. destruct by_header as [h|]; [left; exact (Hx Hf)|]. right. split; [reflexivity|].
  destruct (each_own _ _ _ _ _ _ E n) as [Hi|Hi]; [|contradiction | exact Hi]. rewrite El. apply in_or_app. right. left. reflexivity.
Qed.

Lemma unit_order dir defined is st a h b :
  (forall h, In h library -> ~ In (h_guard h) defined) -> read_unit dir defined is = Some st ->
  In h library -> u_log st = (a ++ Declarations (h_path h) :: b)%list ->
  (forall i g, In i (h_includes h) -> found library (directory (h_path h)) i = Some g -> In (Declarations (h_path g)) a)
  /\ ~ In (Declarations (h_path h)) a /\ ~ In (Declarations (h_path h)) b.
Proof.
  intros H E Hh El. destruct (unit_good dir defined is H) as (st' & E' & G & _). rewrite E in E'. injection E' as <-.
  destruct (good_log _ _ _ _ _ G a _ b El) as (Hx & Hy). split; [intros i g Hi Hg; exact (Hy h i g Hh eq_refl Hi Hg)|].
  split; [exact Hx|]. intros Hb. apply in_split in Hb as (b1 & b2 & ->).
  destruct (good_log _ _ _ _ _ G (a ++ Declarations (h_path h) :: b1)%list (Declarations (h_path h)) b2) as (Hz & _).
  - rewrite El, <- app_assoc. reflexivity.
  - apply Hz. apply in_or_app. right. left. reflexivity.
Qed.

Lemma own_headers_found h p : In h library -> In (Quoted p) (h_includes h) -> exists g, found library (directory (h_path h)) (Quoted p) = Some g.
Proof.
  intros Hh Hp.
  assert (forallb (fun h => forallb (fun i => match i, found library (directory (h_path h)) i with Quoted _, None => false | _, _ => true end)
                                    (h_includes h)) library = true) as HC by (vm_compute; reflexivity).
  rewrite forallb_forall in HC. specialize (HC h Hh). rewrite forallb_forall in HC. specialize (HC _ Hp). cbv beta in HC.
  destruct (found library (directory (h_path h)) (Quoted p)) as [g|] eqn:E; [exists g; reflexivity|].
  cbn iota in HC. rewrite E in HC. discriminate.
Qed.

Lemma texts_agree :
  Forall2 (fun path text => exists h, find_header library path = Some h
     /\ guard_and_includes text = Some (h_guard h, map inclusion_toks (h_includes h)))
    ["tuple-transmission/detail/operations/SendOverloads_Generated.h"; "tuple-transmission/PartialHandlerBase.h"; config_path]
    [send_overloads_h; partial_handler_base_h; arity_config_h].
Proof. repeat constructor; eexists; (split; [vm_compute; reflexivity | vm_compute; reflexivity]). Qed.
