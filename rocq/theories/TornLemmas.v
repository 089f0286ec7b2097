(** Lemmas about operations of the receive buffer interrupted in their midst. *)
From Verif Require Export Torn BufferProofs Protocol.

(** Without interrupts: the functions of ReceiveBuffer.v. *)
Section Quiet.
Context (c : config) (cap : Z).

Lemma run_both {A} o l (k : Z -> Z -> micro A) b :
  t_run c cap (t_both o l k) [] b = t_run c cap (k (rb_begin b) (rb_pastEnd b)) [] b.
Proof. unfold t_both. destruct (Bool.eqb o l); reflexivity. Qed.

Lemma quiet_empty o b : t_run c cap (t_empty o MReturn) [] b = Ok (rb_empty b, b, []).
Proof. unfold t_empty. rewrite run_both. reflexivity. Qed.

Lemma run_size {A} o (k : Z -> micro A) b :
  t_run c cap (t_size o cap k) [] b = t_run c cap (k (rb_size cap b)) [] b.
Proof. unfold t_size. rewrite run_both. reflexivity. Qed.

Lemma run_assert {A} e x (k : micro A) b :
  (forall kt, t_run c cap (e kt) [] b = t_run c cap (kt x) [] b) ->
  t_run c cap (t_assert c e k) [] b = (do _ <- assert_ c x; t_run c cap k [] b).
Proof.
  intros He. unfold t_assert, assert_, aborts. destruct (mode c) eqn:E.
  - reflexivity.
  - rewrite He. cbn [t_run]. unfold assert_, aborts. rewrite E. reflexivity.
  - rewrite He. cbn [t_run]. unfold assert_, aborts. rewrite E. reflexivity.
Qed.

Lemma run_index {A} o i (k : Z -> micro A) b :
  t_run c cap (t_index o c cap i k) [] b
  = (do x <- rb_index c cap b i; t_run c cap (k x) [] b).
Proof.
  unfold t_index. rewrite (run_assert _ (i <? rb_size cap b)).
  - unfold rb_index, rb_ref. destruct (assert_ c (i <? rb_size cap b)); try reflexivity. cbn [bind t_run hd tl t_interrupt].
    change (to_sz cap (rb_begin b + i)) with (rb_adjusted_index cap b i).
    destruct (array_check c cap (rb_adjusted_index cap b i)); reflexivity.
  - intros kt. rewrite run_size. reflexivity.
Qed.

Lemma run_increments {A} o n : forall (k : micro A) b,
  t_run c cap (t_times n (t_increment_begin o c cap) k) [] b
  = (do b' <- repeat_m n (rb_increment_begin c cap) b; t_run c cap k [] b').
Proof.
  induction n as [|n IH]; intros k b; [reflexivity|]. cbn [t_times repeat_m].
  unfold t_increment_begin at 1. rewrite (run_assert _ (rb_begin b <? rb_pastEnd b)).
  - unfold rb_increment_begin at 1. destruct (assert_ c (rb_begin b <? rb_pastEnd b)); try reflexivity.
    cbn [bind t_run hd tl t_interrupt]. apply IH.
  - intros kt. apply run_both.
Qed.

Lemma run_decrements {A} o n : forall (k : micro A) b,
  t_run c cap (t_times n (t_decrement_pastEnd o c cap) k) [] b
  = (do b' <- repeat_m n (rb_decrement_pastEnd c cap) b; t_run c cap k [] b').
Proof.
  induction n as [|n IH]; intros k b; [reflexivity|]. cbn [t_times repeat_m].
  unfold t_decrement_pastEnd at 1. rewrite (run_assert _ (rb_begin b <? rb_pastEnd b)).
  - unfold rb_decrement_pastEnd at 1. destruct (assert_ c (rb_begin b <? rb_pastEnd b)); try reflexivity.
    cbn [bind t_run hd tl t_interrupt]. apply IH.
  - intros kt. apply run_both.
Qed.

Lemma quiet_pop_front o n b :
  t_run c cap (t_pop_front o c cap n) [] b = (do (b', x) <- rb_pop_front c cap n b; Ok (x, b', [])).
Proof.
  unfold t_pop_front. rewrite run_index. unfold rb_pop_front, rb_front.
  destruct (rb_index c cap b 0); try reflexivity. cbn [bind]. rewrite run_increments.
  destruct (repeat_m _ _ _); reflexivity.
Qed.

Lemma quiet_pop_back o n b :
  t_run c cap (t_pop_back o c cap n) [] b = (do (b', x) <- rb_pop_back c cap n b; Ok (x, b', [])).
Proof.
  unfold t_pop_back, t_back. rewrite run_size, run_index. unfold rb_pop_back, rb_back.
  destruct (rb_index c cap b _); try reflexivity. cbn [bind]. rewrite run_decrements.
  destruct (repeat_m _ _ _); reflexivity.
Qed.

Lemma quiet_lemma o b :
  t_run c cap (t_empty o MReturn) [] b = Ok (rb_empty b, b, [])
  /\ t_run c cap (t_size o cap MReturn) [] b = Ok (rb_size cap b, b, [])
  /\ (forall i, t_run c cap (t_index o c cap i MReturn) [] b = (do x <- rb_index c cap b i; Ok (x, b, [])))
  /\ (forall n, t_run c cap (t_pop_front o c cap n) [] b = (do (b', x) <- rb_pop_front c cap n b; Ok (x, b', [])))
  /\ (forall n, t_run c cap (t_pop_back o c cap n) [] b = (do (b', x) <- rb_pop_back c cap n b; Ok (x, b', []))).
Proof.
  split; [apply quiet_empty|]. split; [rewrite run_size; reflexivity|].
  split; [intros i; rewrite run_index; reflexivity|].
  split; [intros n; apply quiet_pop_front|]. intros n; apply quiet_pop_back.
Qed.
End Quiet.

(** With interrupts, when there is room behind the contents. *)
Section Room.
Context (c : config) (cap : Z) (Hcap : cap_ok cap) (Hsafe : index_safe c cap).

Definition tinv (b : rbuf) (X : list Z) (coming : list (list Z)) : Prop :=
  rep cap b X /\ X <> [] /\ rb_pastEnd b + zlen (concat coming) <= cap.

Lemma concat_hd_tl (coming : list (list Z)) : concat coming = hd [] coming ++ concat (tl coming).
Proof. destruct coming; reflexivity. Qed.

Lemma push_room b X d : rep cap b X -> X <> [] -> rb_pastEnd b + zlen d <= cap ->
  exists b', rb_push_range c cap d b = Ok b' /\ rep cap b' (X ++ d)
    /\ rb_begin b' = rb_begin b /\ rb_pastEnd b' = rb_pastEnd b + zlen d.
Proof.
  intros R HX Hd. pose proof (rep_inv _ _ _ R) as (I1 & I2 & _). pose proof (zlen_nonneg d).
  unfold rb_push_range, rb_ensure_space. rewrite (rep_empty cap b X R).
  destruct X as [|x X]; [contradiction|]. rewrite (to_sz_small cap Hcap) by lia.
  rewrite (promoted_add_exact c cap Hsafe) by (unfold cap_ok in Hcap; lia).
  rewrite (proj2 (Z.leb_le _ _) Hd). cbn [bind]. rewrite (proj2 (Z.leb_le _ _) Hd).
  pose proof (rep_write_end cap b _ d R Hd) as R2. rewrite (to_sz_small cap Hcap) by lia.
  rewrite (rep_verify c cap _ _ R2). cbn [bind]. eexists. split; [reflexivity|].
  split; [exact R2|]. split; reflexivity.
Qed.

Lemma interrupt_room b X coming : tinv b X coming ->
  exists b', t_interrupt c cap (hd [] coming) b = Ok b' /\ rb_begin b' = rb_begin b
    /\ tinv b' (X ++ hd [] coming) (tl coming).
Proof.
  intros (R & HX & Hr). rewrite concat_hd_tl, zlen_app in Hr. pose proof (zlen_nonneg (concat (tl coming))).
  assert (X ++ hd [] coming <> []) as HN by (destruct X; [contradiction|discriminate]).
  destruct (hd [] coming) as [|y d] eqn:E.
  - exists b. rewrite app_nil_r in *. repeat split; try assumption.
  - destruct (push_room b X (y :: d) R HX) as (b' & H1 & R' & H2 & H3); [lia|].
    exists b'. split; [exact H1|]. split; [exact H2|]. split; [exact R'|]. split; [exact HN|]. lia.
Qed.

(** What has come on the way from one state to another. *)
Definition grown (b : rbuf) (X : list Z) (coming used : list (list Z)) (b' : rbuf) (rest : list (list Z)) : Prop :=
  coming = used ++ rest /\ rb_begin b' = rb_begin b /\ tinv b' (X ++ concat used) rest.

Lemma grown_refl b X coming : tinv b X coming -> grown b X coming [] b coming.
Proof. intros H. split; [reflexivity|]. split; [reflexivity|]. cbn [concat]. rewrite app_nil_r. exact H. Qed.

Lemma grown_trans b X coming u b1 r1 v b2 r2 :
  grown b X coming u b1 r1 -> grown b1 (X ++ concat u) r1 v b2 r2 -> grown b X coming (u ++ v) b2 r2.
Proof.
  intros (-> & H1 & _) (-> & H2 & H3). split; [apply app_assoc|]. split; [congruence|].
  rewrite concat_app, app_assoc. exact H3.
Qed.

Lemma interrupt_grown b X coming : tinv b X coming ->
  exists b' used, t_interrupt c cap (hd [] coming) b = Ok b' /\ grown b X coming used b' (tl coming).
Proof.
  intros H. destruct (interrupt_room b X coming H) as (b' & H1 & H2 & H3).
  exists b', (firstn 1 coming). split; [exact H1|]. split; [|split; [exact H2|]].
  - destruct coming; reflexivity.
  - replace (concat (firstn 1 coming)) with (hd [] coming); [exact H3|].
    destruct coming; cbn [firstn concat hd]; [reflexivity|]. rewrite app_nil_r. reflexivity.
Qed.

Lemma begin_room {A} (k : Z -> micro A) b X coming : tinv b X coming ->
  exists b' used rest, t_run c cap (MBegin k) coming b = t_run c cap (k (rb_begin b)) rest b'
    /\ grown b X coming used b' rest.
Proof.
  intros H. destruct (interrupt_grown b X coming H) as (b' & u & H1 & H2). exists b', u, (tl coming).
  split; [|exact H2]. cbn [t_run]. rewrite H1. cbn [bind]. destruct H2 as (_ & -> & _). reflexivity.
Qed.

Lemma rep_end b X : rep cap b X -> rb_pastEnd b = rb_begin b + zlen X.
Proof. intros (A & B & _ & -> & -> & _). reflexivity. Qed.

Lemma pastEnd_room {A} (k : Z -> micro A) b X coming : tinv b X coming ->
  exists b' used rest, t_run c cap (MPastEnd k) coming b = t_run c cap (k (rb_begin b + zlen (X ++ concat used))) rest b'
    /\ grown b X coming used b' rest.
Proof.
  intros H. destruct (interrupt_grown b X coming H) as (b' & u & H1 & H2). exists b', u, (tl coming).
  split; [|exact H2]. cbn [t_run]. rewrite H1. cbn [bind]. destruct H2 as (_ & E & R & _).
  rewrite (rep_end _ _ R), E. reflexivity.
Qed.

Lemma both_room {A} o l (k : Z -> Z -> micro A) b X coming : tinv b X coming ->
  exists b' u v rest, t_run c cap (t_both o l k) coming b
      = t_run c cap (k (rb_begin b) (rb_begin b + zlen (X ++ concat u))) rest b'
    /\ grown b X coming (u ++ v) b' rest.
Proof.
  intros H. unfold t_both. destruct (Bool.eqb o l).
  - destruct (begin_room (fun x => MPastEnd (fun e => k x e)) b X coming H) as (b1 & u & r1 & E1 & G1). rewrite E1.
    destruct (pastEnd_room (fun e => k (rb_begin b) e) b1 (X ++ concat u) r1 (proj2 (proj2 G1))) as (b2 & v & r2 & E2 & G2).
    exists b2, (u ++ v), [], r2. rewrite E2. rewrite concat_app, app_assoc, app_nil_r.
    rewrite (proj1 (proj2 G1)). split; [reflexivity|]. apply (grown_trans _ _ _ _ _ _ _ _ _ G1 G2).
  - destruct (pastEnd_room (fun e => MBegin (fun x => k x e)) b X coming H) as (b1 & u & r1 & E1 & G1). rewrite E1.
    destruct (begin_room (fun x => k x (rb_begin b + zlen (X ++ concat u))) b1 (X ++ concat u) r1 (proj2 (proj2 G1)))
      as (b2 & v & r2 & E2 & G2).
    exists b2, u, v, r2. rewrite E2, (proj1 (proj2 G1)). split; [reflexivity|].
    apply (grown_trans _ _ _ _ _ _ _ _ _ G1 G2).
Qed.

Lemma tinv_begin b X coming u : tinv b X coming -> forall b' r, grown b X coming u b' r ->
  0 <= zlen X /\ 0 <= rb_begin b /\ rb_begin b + zlen (X ++ concat u) <= cap.
Proof.
  intros (R & _) b' r (_ & E & R' & _). pose proof (rep_end _ _ R'). pose proof (rep_inv _ _ _ R') as (I1 & I2 & _).
  pose proof (zlen_nonneg X). lia.
Qed.

Lemma size_room {A} o (k : Z -> micro A) b X coming : tinv b X coming ->
  exists b' u v rest, t_run c cap (t_size o cap k) coming b = t_run c cap (k (zlen (X ++ concat u))) rest b'
    /\ grown b X coming (u ++ v) b' rest.
Proof.
  intros H. unfold t_size.
  destruct (both_room o false (fun x e => k (to_sz cap (e - x))) b X coming H) as (b' & u & v & r & E & G).
  exists b', u, v, r. split; [|exact G]. rewrite E. f_equal. f_equal.
  replace (rb_begin b + zlen (X ++ concat u) - rb_begin b) with (zlen (X ++ concat u)) by lia.
  apply (to_sz_small cap Hcap). destruct (tinv_begin b X coming _ H _ _ G) as (H1 & H2 & H3).
  pose proof (zlen_nonneg (X ++ concat u)). rewrite concat_app, !zlen_app in *.
  pose proof (zlen_nonneg (concat v)). lia.
Qed.

(** An assertion whose expression is true whatever comes. *)
Lemma assert_room {A} e (k : micro A) b X coming : tinv b X coming ->
  (forall kt : bool -> micro A, exists b' u rest, t_run c cap (e kt) coming b = t_run c cap (kt true) rest b'
     /\ grown b X coming u b' rest) ->
  exists b' u rest, t_run c cap (t_assert c e k) coming b = t_run c cap k rest b' /\ grown b X coming u b' rest.
Proof.
  intros H He. unfold t_assert.
  assert (exists b' u rest, t_run c cap (e (fun x => MAssert x k)) coming b = t_run c cap k rest b'
            /\ grown b X coming u b' rest) as HE.
  { destruct (He (fun x => MAssert x k)) as (b' & u & r & E & G). exists b', u, r. split; [|exact G].
    rewrite E. cbn [t_run]. rewrite assert_true by reflexivity. reflexivity. }
  destruct (mode c); [|exact HE|exact HE].
  exists b, [], coming. split; [reflexivity|]. apply grown_refl, H.
Qed.

Lemma index_room {A} o i (k : Z -> micro A) b X coming : tinv b X coming -> 0 <= i < zlen X ->
  exists b' u rest, t_run c cap (t_index o c cap i k) coming b = t_run c cap (k (nth (Z.to_nat i) X 0)) rest b'
    /\ grown b X coming u b' rest.
Proof.
  intros H Hi. unfold t_index.
  edestruct (assert_room (fun kt => t_size o cap (fun n => kt (i <? n)))
    (MBegin (fun b => MElement (to_sz cap (b + i)) k)) b X coming H) as (b1 & u & r1 & E1 & G1).
  { intros kt. destruct (size_room o (fun n => kt (i <? n)) b X coming H) as (b' & u & v & r & E & G).
    exists b', (u ++ v), r. split; [|exact G]. rewrite E. rewrite (proj2 (Z.ltb_lt _ _)); [reflexivity|].
    rewrite zlen_app. pose proof (zlen_nonneg (concat u)). lia. }
  rewrite E1.
  edestruct (begin_room (fun b => MElement (to_sz cap (b + i)) k) b1 (X ++ concat u) r1 (proj2 (proj2 G1)))
    as (b2 & v & r2 & E2 & G2).
  rewrite E2. pose proof (grown_trans _ _ _ _ _ _ _ _ _ G1 G2) as G12.
  destruct (interrupt_grown b2 (X ++ concat (u ++ v)) r2 (proj2 (proj2 G12))) as (b3 & w & E3 & G3).
  pose proof (grown_trans _ _ _ _ _ _ _ _ _ G12 G3) as G.
  exists b3, ((u ++ v) ++ w), (tl r2). split; [|exact G]. cbn [t_run]. rewrite E3. cbn [bind].
  destruct G as (_ & EB & R & _ & _). rewrite (proj1 (proj2 G1)), <- EB.
  destruct R as (L & B & HC & Hb & Hp & Hl). rewrite zlen_app in Hp, Hl.
  pose proof (zlen_nonneg L). pose proof (zlen_nonneg B). pose proof (zlen_nonneg (concat ((u ++ v) ++ w))).
  rewrite (to_sz_small cap Hcap) by lia. unfold array_check.
  rewrite (proj2 (Z.leb_le 0 (rb_begin b3 + i))), (proj2 (Z.ltb_lt (rb_begin b3 + i) cap)) by lia.
  cbn [andb bind]. f_equal. f_equal. unfold arr_get. rewrite HC, Hb. unfold zlen in *.
  rewrite app_nth2 by lia. replace (Z.to_nat (Z.of_nat (length L) + i) - length L)%nat with (Z.to_nat i) by lia.
  rewrite <- app_assoc. apply app_nth1. lia.
Qed.

Lemma increment_room {A} o (k : micro A) b x X coming : tinv b (x :: X) coming ->
  exists b' u rest, t_run c cap (t_increment_begin o c cap k) coming b = t_run c cap k rest b'
    /\ coming = u ++ rest /\ rep cap b' (X ++ concat u) /\ rb_pastEnd b' + zlen (concat rest) <= cap.
Proof.
  intros H. unfold t_increment_begin.
  edestruct (assert_room (fun kt => t_both o true (fun b e => kt (b <? e)))
    (MBegin (fun b => MSetBegin (to_sz cap (b + 1)) k)) b (x :: X) coming H) as (b1 & u & r1 & E1 & G1).
  { intros kt. destruct (both_room o true (fun b e => kt (b <? e)) b (x :: X) coming H) as (b' & u & v & r & E & G).
    exists b', (u ++ v), r. split; [|exact G]. rewrite E. rewrite (proj2 (Z.ltb_lt _ _)); [reflexivity|].
    rewrite zlen_app, zlen_cons. pose proof (zlen_nonneg (concat u)). pose proof (zlen_nonneg X). lia. }
  rewrite E1.
  edestruct (begin_room (fun b => MSetBegin (to_sz cap (b + 1)) k) b1 ((x :: X) ++ concat u) r1 (proj2 (proj2 G1)))
    as (b2 & v & r2 & E2 & G2).
  rewrite E2. pose proof (grown_trans _ _ _ _ _ _ _ _ _ G1 G2) as G12.
  destruct (interrupt_grown b2 ((x :: X) ++ concat (u ++ v)) r2 (proj2 (proj2 G12))) as (b3 & w & E3 & G3).
  pose proof (grown_trans _ _ _ _ _ _ _ _ _ G12 G3) as G.
  destruct G as (EC & EB & R & _ & Hr).
  exists {| rb_begin := to_sz cap (rb_begin b1 + 1); rb_pastEnd := rb_pastEnd b3; rb_contents := rb_contents b3 |},
    ((u ++ v) ++ w), (tl r2).
  split; [cbn [t_run]; rewrite E3; reflexivity|]. split; [exact EC|]. split; [|exact Hr].
  rewrite (proj1 (proj2 G1)), <- EB. destruct R as (L & B & HC & Hb & Hp & Hl).
  cbn [app] in *. rewrite zlen_cons in *.
  pose proof (zlen_nonneg L). pose proof (zlen_nonneg B). pose proof (zlen_nonneg (X ++ concat ((u ++ v) ++ w))).
  rewrite (to_sz_small cap Hcap) by lia. exists (L ++ [x]), B. cbn [rb_begin rb_pastEnd rb_contents].
  rewrite (zlen_app L). change (zlen [x]) with 1.
  split; [rewrite HC, <- (app_assoc L); reflexivity|]. repeat split; lia.
Qed.

Lemma increments_room {A} o P : forall (k : micro A) b X coming, P <> [] -> tinv b (P ++ X) coming ->
  exists b' u rest, t_run c cap (t_times (length P) (t_increment_begin o c cap) k) coming b = t_run c cap k rest b'
    /\ coming = u ++ rest /\ rep cap b' (X ++ concat u).
Proof.
  induction P as [|p P IH]; intros k b X coming HP H; [contradiction|]. cbn [length t_times].
  destruct (increment_room o (t_times (length P) (t_increment_begin o c cap) k) b p (P ++ X) coming H)
    as (b1 & u & r & E & EC & R & Hr). rewrite E. clear HP.
  destruct P as [|q P].
  - exists b1, u, r. split; [reflexivity|]. split; [exact EC|]. exact R.
  - destruct (IH k b1 (X ++ concat u) r) as (b2 & v & r2 & E2 & EC2 & R2).
    + discriminate.
    + split; [rewrite app_assoc; exact R|]. split; [discriminate|exact Hr].
    + exists b2, (u ++ v), r2. split; [exact E2|]. split.
      * rewrite EC, EC2. apply app_assoc.
      * rewrite concat_app, app_assoc. exact R2.
Qed.

Lemma room_size o b X coming : rep cap b X -> X <> [] -> rb_pastEnd b + zlen (concat coming) <= cap ->
  exists b' earlier later rest,
    t_run c cap (t_size o cap MReturn) coming b = Ok (zlen X + zlen (concat earlier), b', rest)
    /\ coming = earlier ++ later ++ rest /\ rep cap b' (X ++ concat (earlier ++ later)).
Proof.
  intros R HX Hr. destruct (size_room o MReturn b X coming (conj R (conj HX Hr))) as (b' & u & v & r & E & EC & _ & R' & _).
  exists b', u, v, r. rewrite E, zlen_app. split; [reflexivity|]. split; [rewrite app_assoc; exact EC|exact R'].
Qed.

Lemma room_index o i b X coming : rep cap b X -> 0 <= i < zlen X -> rb_pastEnd b + zlen (concat coming) <= cap ->
  exists b' used rest,
    t_run c cap (t_index o c cap i MReturn) coming b = Ok (nth (Z.to_nat i) X 0, b', rest)
    /\ coming = used ++ rest /\ rep cap b' (X ++ concat used).
Proof.
  intros R Hi Hr. assert (X <> []) as HX by (intros ->; change (zlen (@nil Z)) with 0 in Hi; lia).
  destruct (index_room o i MReturn b X coming (conj R (conj HX Hr)) Hi) as (b' & u & r & E & EC & _ & R' & _).
  exists b', u, r. split; [exact E|]. split; [exact EC|exact R'].
Qed.

Lemma room_pop_front o b P x X coming : rep cap b ((x :: P) ++ X) -> rb_pastEnd b + zlen (concat coming) <= cap ->
  exists b' used rest,
    t_run c cap (t_pop_front o c cap (zlen (x :: P))) coming b = Ok (x, b', rest)
    /\ coming = used ++ rest /\ rep cap b' (X ++ concat used).
Proof.
  intros R Hr. unfold t_pop_front.
  assert (tinv b ((x :: P) ++ X) coming) as H by (split; [exact R|]; split; [discriminate|exact Hr]).
  edestruct (index_room o 0 (fun ret => t_times (Z.to_nat (zlen (x :: P))) (t_increment_begin o c cap) (MReturn ret))
    b ((x :: P) ++ X) coming H) as (b1 & u & r & E & EC & _ & H1).
  { cbn [app]. rewrite zlen_cons. pose proof (zlen_nonneg (P ++ X)). lia. }
  rewrite E. cbn [app nth Z.to_nat]. unfold zlen. rewrite Nat2Z.id.
  destruct (increments_room o (x :: P) (MReturn x) b1 (X ++ concat u) r) as (b2 & v & r2 & E2 & EC2 & R2).
  - discriminate.
  - rewrite app_assoc. exact H1.
  - rewrite E2. exists b2, (u ++ v), r2. split; [reflexivity|]. split; [rewrite EC, EC2; apply app_assoc|].
    rewrite concat_app, app_assoc. exact R2.
Qed.

(** empty(): also when the buffer is empty. *)
Lemma interrupt_any b X coming : rep cap b X -> zlen X + zlen (concat coming) <= cap ->
  exists b', t_interrupt c cap (hd [] coming) b = Ok b' /\ rep cap b' (X ++ hd [] coming)
    /\ (hd [] coming = [] -> b' = b).
Proof.
  intros R Hr. rewrite concat_hd_tl, zlen_app in Hr. pose proof (zlen_nonneg (concat (tl coming))).
  destruct (hd [] coming) as [|y d] eqn:E.
  - exists b. rewrite app_nil_r. auto.
  - destruct (rep_push_range c cap Hcap Hsafe b X (y :: d) R) as (b' & H1 & H2); [lia|].
    exists b'. split; [exact H1|]. split; [exact H2|]. discriminate.
Qed.

Lemma room_empty o b X coming : rep cap b X -> zlen X + zlen (concat coming) <= cap ->
  X = [] \/ rb_pastEnd b + zlen (concat coming) <= cap ->
  exists e b' used rest,
    t_run c cap (t_empty o MReturn) coming b = Ok (e, b', rest)
    /\ coming = used ++ rest /\ rep cap b' (X ++ concat used)
    /\ (e = true -> X = []) /\ (e = false -> X ++ concat used <> []).
Proof.
  intros R Hf HX. destruct X as [|x X].
  - (* an empty buffer *)
    destruct (interrupt_any b [] coming R Hf) as (b1 & E1 & R1 & Q1).
    pose proof Hf as Hf'. rewrite concat_hd_tl, zlen_app in Hf'.
    destruct (interrupt_any b1 (hd [] coming) (tl coming) R1) as (b2 & E2 & R2 & Q2).
    { change (zlen (@nil Z)) with 0 in Hf'. lia. }
    assert (coming = firstn 2 coming ++ tl (tl coming)) as ES by (destruct coming as [|? [|? ?]]; reflexivity).
    assert (hd [] coming ++ hd [] (tl coming) = concat (firstn 2 coming)) as EC.
    { destruct coming as [|? [|? ?]]; cbn; rewrite ?app_nil_r; reflexivity. }
    unfold t_empty, t_both. destruct (Bool.eqb o true).
    + exists (rb_begin b1 =? rb_pastEnd b2), b2, (firstn 2 coming), (tl (tl coming)).
      split; [cbn [t_run]; rewrite E1; cbn [bind]; rewrite E2; reflexivity|]. split; [exact ES|].
      split; [cbn [app]; rewrite <- EC; exact R2|]. split; [reflexivity|].
      intros He HN. cbn [app] in HN. rewrite <- EC in HN. apply app_eq_nil in HN. destruct HN as (N1 & N2).
      rewrite (Q2 N2), (Q1 N1) in He. pose proof (rep_empty cap b [] R) as HE. unfold rb_empty in HE. congruence.
    + exists (rb_begin b2 =? rb_pastEnd b1), b2, (firstn 2 coming), (tl (tl coming)).
      split; [cbn [t_run]; rewrite E1; cbn [bind]; rewrite E2; reflexivity|]. split; [exact ES|].
      split; [cbn [app]; rewrite <- EC; exact R2|]. split; [reflexivity|].
      intros He HN. cbn [app] in HN. rewrite <- EC in HN. apply app_eq_nil in HN. destruct HN as (N1 & N2).
      rewrite (Q2 N2), (Q1 N1) in He. pose proof (rep_empty cap b [] R) as HE. unfold rb_empty in HE. congruence.
  - destruct HX as [HX|HX]; [discriminate|]. unfold t_empty.
    destruct (both_room o true (fun x e => MReturn (x =? e)) b (x :: X) coming) as (b' & u & v & r & E & EC & _ & R' & _).
    { split; [exact R|]. split; [discriminate|exact HX]. }
    exists false, b', (u ++ v), r. split.
    + rewrite E. cbn [t_run]. rewrite (proj2 (Z.eqb_neq _ _)); [reflexivity|].
      rewrite zlen_app, zlen_cons. pose proof (zlen_nonneg (concat u)). pose proof (zlen_nonneg X). lia.
    + split; [exact EC|]. split; [exact R'|]. split; discriminate.
Qed.
End Room.

(** When the interrupt moves the contents. *)
Section Moved.
Context (c : config) (cap : Z) (Hcap : cap_ok cap) (Hsafe : index_safe c cap).

Lemma push_moves b X d : rep cap b X -> X <> [] -> rb_pastEnd b + zlen d > cap -> zlen X + zlen d <= cap ->
  exists b', rb_push_range c cap d b = Ok b' /\ rep cap b' (X ++ d) /\ rb_begin b' = 0.
Proof.
  intros R HX Hd Hf. pose proof (rep_inv _ _ _ R) as (I1 & I2 & _). pose proof (zlen_nonneg d). pose proof (zlen_nonneg X).
  pose proof (rep_end cap b X R) as HE.
  unfold rb_push_range, rb_ensure_space. rewrite (rep_empty cap b X R).
  destruct X as [|x X]; [contradiction|]. rewrite (to_sz_small cap Hcap (zlen d)) by lia.
  rewrite (promoted_add_exact c cap Hsafe) by (rewrite zlen_cons in *; pose proof (zlen_nonneg X); lia).
  rewrite (proj2 (Z.leb_gt _ _)) by lia. rewrite (rep_size cap Hcap b _ R).
  rewrite (promoted_add_exact c cap Hsafe) by (unfold cap_ok in Hcap; lia).
  rewrite (proj2 (Z.leb_le _ _) Hf), assert_true by reflexivity. cbn [bind].
  destruct (rep_slide cap Hcap b _ R) as (b1 & -> & R1 & HB1); [right; lia|]. cbn [bind].
  assert (rb_pastEnd b1 + zlen d <= cap) as H1.
  { rewrite (rep_end _ _ _ R1), HB1. lia. }
  rewrite (proj2 (Z.leb_le _ _) H1). pose proof (rep_write_end cap b1 _ d R1 H1) as R2.
  destruct (rep_inv _ _ _ R1) as (J1 & J2 & _). rewrite (to_sz_small cap Hcap) by lia.
  rewrite (rep_verify c cap _ _ R2). cbn [bind]. eexists. split; [reflexivity|].
  split; [exact R2|]. exact HB1.
Qed.

Lemma rep_hd b x X : rep cap b (x :: X) ->
  arr_get (rb_contents b) (rb_begin b) = x /\ 0 <= rb_begin b < cap /\ rb_begin b < rb_pastEnd b.
Proof.
  intros (L & B & HC & Hb & Hp & Hl). rewrite zlen_cons in *.
  pose proof (zlen_nonneg L). pose proof (zlen_nonneg B). pose proof (zlen_nonneg X). split; [|lia].
  unfold arr_get. rewrite HC, Hb. unfold zlen. rewrite Nat2Z.id, app_nth2, Nat.sub_diag by lia. reflexivity.
Qed.

Definition quiet_accesses (n m : nat) : nat := match mode c with Disabled => n | _ => m end.

Lemma moved_front o b x X d : rep cap b (x :: X) -> rb_pastEnd b + zlen d > cap -> zlen (x :: X) + zlen d <= cap ->
  rb_begin b + 1 <= zlen (x :: X) + zlen d ->
  exists n b', t_run c cap (t_pop_front o c cap 1) (repeat [] n ++ [d]) b = Ok (x, b', [])
    /\ rep cap b' (skipn (Z.to_nat (rb_begin b + 1)) ((x :: X) ++ d)).
Proof.
  intros R Hd Hf Hb. destruct (push_moves b (x :: X) d R) as (b1 & E1 & R1 & B1); try assumption; [discriminate|].
  destruct (rep_hd b x X R) as (HX & HB & HP).
  exists (quiet_accesses 3 7), {| rb_begin := rb_begin b + 1; rb_pastEnd := rb_pastEnd b1; rb_contents := rb_contents b1 |}.
  assert (t_interrupt c cap d b = Ok b1) as EI.
  { destruct d as [|y d]; [|exact E1]. exfalso. destruct (rep_inv _ _ _ R) as (_ & I & _).
    change (zlen (@nil Z)) with 0 in Hd. lia. }
  split.
  - assert (to_sz cap (rb_begin b + 0) = rb_begin b) as S0 by (rewrite Z.add_0_r; apply (to_sz_small cap Hcap); lia).
    assert (to_sz cap (rb_begin b + 1) = rb_begin b + 1) as S1 by (apply (to_sz_small cap Hcap); lia).
    assert (array_check c cap (rb_begin b) = Ok tt) as AC.
    { unfold array_check. rewrite (proj2 (Z.leb_le 0 (rb_begin b))), (proj2 (Z.ltb_lt (rb_begin b) cap)) by lia. reflexivity. }
    assert (to_sz cap (rb_pastEnd b - rb_begin b) = zlen (x :: X)) as S2 by apply (rep_size cap Hcap b _ R).
    assert (0 <? zlen (x :: X) = true) as S3 by (apply Z.ltb_lt; rewrite zlen_cons; pose proof (zlen_nonneg X); lia).
    assert (rb_begin b <? rb_pastEnd b = true) as S4 by (apply Z.ltb_lt; lia).
    assert (forall z, z = true -> assert_ c z = Ok tt) as AT by (intros z ->; apply assert_true; reflexivity).
    unfold t_pop_front, t_index, t_size, t_increment_begin, t_assert, t_both, quiet_accesses.
    change (Z.to_nat 1) with 1%nat.
    assert (t_interrupt c cap [] b = Ok b) as TI by reflexivity.
    destruct (mode c); destruct o;
      cbn [Bool.eqb repeat app t_times t_run hd tl bind];
      repeat (first [rewrite TI | rewrite S2 | rewrite (AT _ S3) | rewrite S0 | rewrite AC | rewrite HX | rewrite (AT _ S4) | rewrite EI | rewrite S1];
              cbn [t_times t_run hd tl bind Bool.eqb]); reflexivity.
  - assert (0 <= rb_begin b + 1 <= zlen ((x :: X) ++ d)) as HR by (rewrite zlen_app; lia).
    remember ((x :: X) ++ d) as Y eqn:EY. clear EY. revert R1. generalize (rb_begin b + 1), HR. intros z Hz R1.
    destruct R1 as (L & B & HC & HbL & HpL & HlL). rewrite B1 in HbL.
    assert (L = []) as -> by (destruct L; [reflexivity|rewrite zlen_cons in HbL; pose proof (zlen_nonneg L); lia]).
    exists (firstn (Z.to_nat z) Y), B. cbn [rb_begin rb_pastEnd rb_contents app] in *.
    change (zlen (@nil Z)) with 0 in *.
    assert (zlen (firstn (Z.to_nat z) Y) = z) as H1 by (unfold zlen in *; rewrite firstn_length; lia).
    assert (zlen (skipn (Z.to_nat z) Y) = zlen Y - z) as H2 by (unfold zlen in *; rewrite skipn_length; lia).
    split; [rewrite app_assoc, firstn_skipn; exact HC|]. rewrite H1, H2. repeat split; lia.
Qed.

Lemma lost_back o b X x d : rep cap b (X ++ [x]) -> rb_pastEnd b + zlen d <= cap ->
  exists n b', t_run c cap (t_pop_back o c cap 1) (repeat [] n ++ [d]) b = Ok (x, b', [])
    /\ rep cap b' X.
Proof.
  intros R Hd.
  assert (X ++ [x] <> []) as HN by (destruct X; discriminate).
  destruct (push_room c cap Hcap Hsafe b (X ++ [x]) d R HN Hd) as (b1 & E1 & R1 & B1 & P1).
  pose proof (rep_end cap _ _ R) as HE. rewrite zlen_app in HE. change (zlen [x]) with 1 in HE.
  pose proof (rep_inv _ _ _ R) as (I1 & I2 & _). pose proof (zlen_nonneg X) as HX0.
  set (b2 := match d with [] => b | _ => b1 end).
  assert (t_interrupt c cap d b = Ok b2 /\ rep cap b2 ((X ++ [x]) ++ d) /\ rb_begin b2 = rb_begin b) as (EI & R2 & B2).
  { destruct d as [|y d]; subst b2; cbn [t_interrupt].
    - rewrite app_nil_r. auto.
    - auto. }
  clearbody b2. clear b1 E1 R1 B1 P1.
  exists (quiet_accesses 5 9), {| rb_begin := rb_begin b2; rb_pastEnd := rb_pastEnd b - 1; rb_contents := rb_contents b2 |}.
  split.
  - assert (to_sz cap (rb_pastEnd b - rb_begin b) = zlen X + 1) as S2.
    { replace (rb_pastEnd b - rb_begin b) with (zlen X + 1) by lia. apply (to_sz_small cap Hcap). lia. }
    assert (to_sz cap (zlen X + 1 - 1) = zlen X) as S3 by (rewrite Z.add_simpl_r; apply (to_sz_small cap Hcap); lia).
    assert (zlen X <? zlen X + 1 = true) as S4 by (apply Z.ltb_lt; lia).
    assert (to_sz cap (rb_begin b + zlen X) = rb_begin b + zlen X) as S5 by (apply (to_sz_small cap Hcap); lia).
    assert (array_check c cap (rb_begin b + zlen X) = Ok tt) as AC.
    { unfold array_check.
      rewrite (proj2 (Z.leb_le 0 (rb_begin b + zlen X))), (proj2 (Z.ltb_lt (rb_begin b + zlen X) cap)) by lia. reflexivity. }
    assert (arr_get (rb_contents b) (rb_begin b + zlen X) = x) as HX.
    { destruct R as (L & B & HC & Hb & _ & _). unfold arr_get. rewrite HC, Hb. unfold zlen.
      replace (L ++ (X ++ [x]) ++ B) with ((L ++ X) ++ x :: B) by (rewrite <- !app_assoc; reflexivity).
      rewrite app_nth2 by (rewrite app_length; lia). rewrite app_length.
      replace (Z.to_nat (Z.of_nat (length L) + Z.of_nat (length X)) - (length L + length X))%nat with O by lia. reflexivity. }
    assert (rb_begin b <? rb_pastEnd b = true) as S6 by (apply Z.ltb_lt; lia).
    assert (to_sz cap (rb_pastEnd b - 1) = rb_pastEnd b - 1) as S7 by (apply (to_sz_small cap Hcap); lia).
    assert (forall z, z = true -> assert_ c z = Ok tt) as AT by (intros z ->; apply assert_true; reflexivity).
    unfold t_pop_back, t_back, t_index, t_size, t_decrement_pastEnd, t_assert, t_both, quiet_accesses.
    change (Z.to_nat 1) with 1%nat.
    assert (t_interrupt c cap [] b = Ok b) as TI by reflexivity.
    destruct (mode c); destruct o;
      cbn [Bool.eqb repeat app t_times t_run hd tl bind];
      repeat (first [rewrite TI | rewrite S2 | rewrite S3 | rewrite (AT _ S4) | rewrite S5 | rewrite AC | rewrite HX | rewrite (AT _ S6)
                    | rewrite EI | rewrite S7];
              cbn [t_times t_run hd tl bind Bool.eqb]); reflexivity.
  - rewrite <- app_assoc in R2. destruct R2 as (L & B & HC & Hb & Hp & Hl).
    exists L, (([x] ++ d) ++ B). cbn [rb_begin rb_pastEnd rb_contents].
    split; [rewrite HC; repeat rewrite <- app_assoc; reflexivity|].
    rewrite !zlen_app in *. change (zlen [x]) with 1 in *. repeat split; lia.
Qed.
End Moved.

(** Witnesses. *)
Lemma size_witness o : exists b0 b x d n b',
  rb_push_range (desktop true) 16 [1; 2; 3; 4; 5] (rb_init 16) = Ok b0
  /\ rb_pop_front (desktop true) 16 5 b0 = Ok (b, x)
  /\ t_run (desktop true) 16 (t_size o 16 MReturn) [[]; d] b = Ok (n, b', [])
  /\ rb_bytes b = [] /\ rb_bytes b' = d /\ zlen d = 1 /\ zlen d < n.
Proof.
  destruct o; do 2 eexists; exists 1, [7]; eexists; eexists;
    (split; [vm_compute; reflexivity|]); (split; [vm_compute; reflexivity|]); (split; [vm_compute; reflexivity|]);
    repeat split; vm_compute; reflexivity.
Qed.

Lemma empty_witness : exists b0 b x d b',
  rb_push_range (desktop true) 16 [1; 2; 3; 4; 5; 6; 7; 8; 9; 10; 11; 12; 13; 14; 15; 16] (rb_init 16) = Ok b0
  /\ rb_pop_front (desktop true) 16 12 b0 = Ok (b, x)
  /\ t_run (desktop true) 16 (t_empty true MReturn) [[]; d] b = Ok (true, b', [])
  /\ zlen (rb_bytes b) = 4 /\ rb_bytes b' = rb_bytes b ++ d.
Proof.
  do 2 eexists. exists 1, [21; 22; 23; 24; 25; 26; 27; 28]. eexists.
  (split; [vm_compute; reflexivity|]); (split; [vm_compute; reflexivity|]); (split; [vm_compute; reflexivity|]).
  split; vm_compute; reflexivity.
Qed.

Lemma pop_witness o : exists b0 b x d b' n,
  rb_push_range (desktop true) 16 [1; 2; 3; 4; 5; 6; 7; 8; 9; 10; 11; 12; 13; 14; 15; 16] (rb_init 16) = Ok b0
  /\ rb_pop_front (desktop true) 16 3 b0 = Ok (b, x)
  /\ t_run (desktop true) 16 (t_pop_front o (desktop true) 16 1) (repeat [] n ++ [d]) b = Ok (4, b', [])
  /\ rb_bytes b = [4; 5; 6; 7; 8; 9; 10; 11; 12; 13; 14; 15; 16] /\ d = [17; 18]
  /\ rb_bytes b' = [8; 9; 10; 11; 12; 13; 14; 15; 16; 17; 18].
Proof.
  do 2 eexists. exists 1, [17; 18]. eexists. exists 7%nat.
  (split; [vm_compute; reflexivity|]); (split; [vm_compute; reflexivity|]);
    (split; [destruct o; vm_compute; reflexivity|]).
  repeat split; vm_compute; reflexivity.
Qed.
