(** Lemmas on copies of array buffers and on composing a transmitter with itself. *)
From Verif Require Export SendLemmas.

Lemma set_nth_length {A} (x : A) l : forall i, length (set_nth i x l) = length l.
Proof. induction l as [|y l IH]; intros [|i]; cbn; auto. Qed.
Lemma set_nth_eq {A} (x d : A) l : forall i, (i < length l)%nat -> nth i (set_nth i x l) d = x.
Proof. induction l as [|y l IH]; intros [|i] H; cbn in *; try lia; auto. apply IH. lia. Qed.
Lemma set_nth_neq {A} (x d : A) l : forall i j, i <> j -> nth j (set_nth i x l) d = nth j l d.
Proof. induction l as [|y l IH]; intros [|i] [|j] H; cbn; auto; try congruence. Qed.
Lemma set_nth_set {A} (x y : A) l : forall i, set_nth i y (set_nth i x l) = set_nth i y l.
Proof. induction l as [|z l IH]; intros [|i]; cbn; auto. f_equal. apply IH. Qed.
Lemma set_nth_same {A} (d : A) l : forall i, set_nth i (nth i l d) l = l.
Proof. induction l as [|z l IH]; intros [|i]; cbn; auto. f_equal. apply IH. Qed.

Lemma set_nth_Forall {A} (P : A -> Prop) i x l : Forall P l -> P x -> Forall P (set_nth i x l).
Proof.
  intros H Hx. revert i. induction H as [|y l Hy H IH]; intros [|i]; cbn; constructor; auto.
Qed.

Definition as_put (i k : nat) (s : abuf) (h : abufs) : abufs :=
  ABufs (set_nth k (ab_buffer s) (as_arrays h)) (set_nth i (k, ab_it s) (as_its h)).

Lemma as_calls size i k l : forall h off, (i < length (as_its h))%nat -> (k < length (as_arrays h))%nat ->
  nth_it i h = (k, off) ->
  run_calls (as_tx size i) l h
  = do s <- run_calls (abuf_tx size) l (ABuf (nth_array k h) off); Ok (as_put i k s h).
Proof.
  induction l as [|x l IH]; intros h off Hi Hk Hit; cbn [run_calls].
  - cbn [bind]. unfold as_put. cbn [ab_buffer ab_it]. rewrite <- Hit. unfold nth_array, nth_it.
    rewrite !set_nth_same. destruct h; reflexivity.
  - replace (run_call (as_tx size i) x h) with (as_write size i (call_bytes x) h) by (destruct x; reflexivity).
    rewrite abuf_call. unfold as_write. rewrite Hit, !bind_assoc. apply bind_ext. intros s. cbn [bind].
    change (ABufs (set_nth k (ab_buffer s) (as_arrays h)) (set_nth i (k, ab_it s) (as_its h))) with (as_put i k s h).
    rewrite (IH (as_put i k s h) (ab_it s)); unfold as_put; cbn [as_arrays as_its].
    + unfold nth_array. cbn [as_arrays]. rewrite set_nth_eq by assumption. destruct s as [b o]. cbn [ab_buffer ab_it].
      apply bind_ext. intros s'. cbn [as_arrays as_its]. rewrite !set_nth_set. reflexivity.
    + rewrite set_nth_length. assumption.
    + rewrite set_nth_length. assumption.
    + unfold nth_it. cbn [as_its]. apply set_nth_eq. assumption.
Qed.

Lemma as_ok_nth size h i : as_ok size h -> (i < length (as_arrays h))%nat ->
  zlen (nth_array i h) = size /\ (fst (nth_it i h) < length (as_arrays h))%nat /\ 0 <= snd (nth_it i h) <= size.
Proof.
  intros (H1 & H2 & H3) Hi. rewrite Forall_forall in H2, H3. split; [apply H2, nth_In; assumption|].
  apply H3. apply nth_In. lia.
Qed.

(** Sending through object [i]: the frame goes to the array its iterator points into; no
    other array and no other iterator changes. *)
Lemma as_send_lemma size c coll m vs h i k off :
  static_ok coll = true -> In m (mc_types coll) -> has_types vs (mt_fields m) = true ->
  as_ok size h -> (i < length (as_arrays h))%nat -> nth_it i h = (k, off) -> off + sizeof_bound coll m <= size ->
  exists f h', is_message_frame c coll m vs f
    /\ send c coll m (as_tx size i) (combine (mt_fields m) vs) h = Ok h'
    /\ nth_it i h' = (k, off + zlen f)
    /\ firstn (Z.to_nat (off + zlen f)) (nth_array k h') = firstn (Z.to_nat off) (nth_array k h) ++ f
    /\ (forall j, j <> k -> nth_array j h' = nth_array j h)
    /\ (forall j, j <> i -> nth_it j h' = nth_it j h)
    /\ length (as_arrays h') = length (as_arrays h) /\ as_ok size h'.
Proof.
  intros Hst Hin Hty Hok Hi Hit Hfit. destruct (send_spec c coll m vs Hst Hin Hty) as (calls & HF & H).
  pose proof (message_frame_length c coll m vs _ Hty HF) as HL. rewrite sizeof_bound_spec in *.
  destruct (as_ok_nth size h i Hok Hi) as (_ & Hk & Ho). rewrite Hit in Hk, Ho. cbn [fst snd] in Hk, Ho.
  destruct (as_ok_nth size h k Hok Hk) as (HA & _ & _).
  destruct Hok as (Hlen & Hok2 & Hok3).
  assert (abuf_ok size (ABuf (nth_array k h) off)) as Hab by (split; assumption).
  destruct (abuf_calls_ok size calls _ Hab) as (s & E & S1 & S2 & S3); [cbn [ab_it]; unfold zlen; lia|].
  exists (calls_bytes calls), (as_put i k s h). split; [assumption|]. split.
  { rewrite H, (as_calls size i k calls h off), E by (assumption || lia). reflexivity. }
  cbn [ab_it] in S2. unfold abuf_content in S3. cbn [ab_buffer ab_it] in S3. rewrite S2 in S3.
  unfold nth_it, nth_array, as_put. cbn [as_arrays as_its].
  rewrite !set_nth_eq by lia. rewrite S2. split; [reflexivity|]. split; [exact S3|].
  split; [|split; [|split]].
  - intros j Hj. apply set_nth_neq. congruence.
  - intros j Hj. apply set_nth_neq. congruence.
  - apply set_nth_length.
  - split; [cbn [as_its as_arrays]; rewrite !set_nth_length; exact Hlen|]. cbn [as_its as_arrays].
    rewrite set_nth_length. destruct S1 as (S1 & S4). split; apply set_nth_Forall; try assumption.
    rewrite S2 in S4. cbn [fst snd]. split; [exact Hk | lia].
Qed.

Lemma nth_snoc {A} (l : list A) x d : nth (length l) (l ++ [x]) d = x.
Proof. rewrite app_nth2, Nat.sub_diag by lia. reflexivity. Qed.

(** An object whose iterator is where that of another one is: what is sent through it ends up
    in the other's array. *)
Lemma alias_lemma size c coll m vs h i j off :
  static_ok coll = true -> In m (mc_types coll) -> has_types vs (mt_fields m) = true ->
  as_ok size h -> (i < length (as_arrays h))%nat -> (j < length (as_arrays h))%nat -> i <> j ->
  nth_it i h = (i, off) -> nth_it j h = (i, off) -> off + sizeof_bound coll m <= size ->
  as_content j h = UB
  /\ exists f h', is_message_frame c coll m vs f
       /\ send c coll m (as_tx size j) (combine (mt_fields m) vs) h = Ok h'
       /\ firstn (Z.to_nat (off + zlen f)) (nth_array i h') = firstn (Z.to_nat off) (nth_array i h) ++ f
       /\ nth_array j h' = nth_array j h
       /\ as_content i h' = as_content i h
       /\ as_content j h' = UB.
Proof.
  intros Hst Hin Hty Hok Hi Hj Hne Hit Hjt Hfit.
  assert (forall h' o, nth_it j h' = (i, o) -> as_content j h' = UB) as Hub.
  { intros h' o E. unfold as_content. rewrite E. destruct (Nat.eqb_spec i j); [contradiction | reflexivity]. }
  split; [eapply Hub; eassumption|].
  destruct (as_send_lemma size c coll m vs h j i off Hst Hin Hty Hok Hj Hjt Hfit)
    as (f & h' & F1 & F2 & F3 & F4 & F5 & F6 & F7).
  exists f, h'. split; [assumption|]. split; [assumption|]. split; [exact F4|]. split; [|split].
  - apply F5. congruence.
  - unfold as_content. rewrite F6, Hit by congruence. rewrite Nat.eqb_refl.
    destruct (as_ok_nth size h i Hok Hi) as (_ & _ & Ho). rewrite Hit in Ho. cbn [snd] in Ho.
    f_equal. apply (f_equal (firstn (Z.to_nat off))) in F4. rewrite firstn_firstn in F4.
    rewrite Nat.min_l in F4 by (pose proof (zlen_nonneg f); lia). rewrite F4, firstn_app, firstn_firstn, Nat.min_id.
    pose proof (proj1 (as_ok_nth size h i Hok Hi)) as HA. unfold zlen in HA.
    rewrite firstn_length, Nat.min_l by lia. rewrite Nat.sub_diag. cbn [firstn]. apply app_nil_r.
  - eapply Hub. exact F3.
Qed.

Lemma as_copy_ok size h i : as_ok size h -> (i < length (as_arrays h))%nat -> as_ok size (as_copy i h).
Proof.
  intros Hok Hi. pose proof Hok as (Hlen & Hsz & Hits).
  unfold as_ok, as_copy. cbn [as_arrays as_its]. rewrite !app_length. cbn [length]. split; [lia|]. split.
  - apply Forall_app. split; [assumption|]. constructor; [|constructor]. apply (as_ok_nth size h i Hok Hi).
  - apply Forall_app. split.
    + eapply Forall_impl; [|exact Hits]. intros it (A & B). split; [lia | assumption].
    + constructor; [|constructor]. destruct (as_ok_nth size h i Hok Hi) as (_ & A & B). split; [lia | assumption].
Qed.

Lemma as_copy_its h i : length (as_its h) = length (as_arrays h) -> (i < length (as_arrays h))%nat ->
  nth_it (length (as_arrays h)) (as_copy i h) = nth_it i h
  /\ nth_array (length (as_arrays h)) (as_copy i h) = nth_array i h
  /\ forall k, (k < length (as_arrays h))%nat ->
       nth_it k (as_copy i h) = nth_it k h /\ nth_array k (as_copy i h) = nth_array k h.
Proof.
  intros Hlen Hi. unfold nth_it, nth_array, as_copy. cbn [as_its as_arrays].
  split; [rewrite <- Hlen; apply nth_snoc|]. split; [apply nth_snoc|]. intros k Hk.
  split; apply app_nth1; lia.
Qed.

Lemma copy_lemma size c coll m vs h i off :
  static_ok coll = true -> In m (mc_types coll) -> has_types vs (mt_fields m) = true ->
  as_ok size h -> (i < length (as_arrays h))%nat -> nth_it i h = (i, off) -> off + sizeof_bound coll m <= size ->
  let j := length (as_arrays h) in
  as_content j (as_copy i h) = UB
  /\ exists f h', is_message_frame c coll m vs f
       /\ send c coll m (as_tx size j) (combine (mt_fields m) vs) (as_copy i h) = Ok h'
       /\ firstn (Z.to_nat (off + zlen f)) (nth_array i h') = firstn (Z.to_nat off) (nth_array i h) ++ f
       /\ nth_array j h' = nth_array i h
       /\ as_content i h' = as_content i h
       /\ as_content j h' = UB.
Proof.
  intros Hst Hin Hty Hok Hi Hit Hfit j.
  destruct (as_copy_its h i (proj1 Hok) Hi) as (C1 & C2 & C3). destruct (C3 i Hi) as (C4 & C5).
  assert (length (as_arrays (as_copy i h)) = Datatypes.S j) as HL.
  { unfold as_copy. cbn [as_arrays]. rewrite app_length. cbn [length]. unfold j. lia. }
  destruct (alias_lemma size c coll m vs (as_copy i h) i j off Hst Hin Hty (as_copy_ok _ _ _ Hok Hi))
    as (A1 & f & h' & A2 & A3 & A4 & A5 & A6 & A7); try lia; [congruence | unfold j; congruence|].
  split; [exact A1|]. exists f, h'. rewrite C5 in A4. unfold j in *. rewrite C2 in A5.
  do 4 (split; [assumption|]). split; [|exact A7]. rewrite A6. unfold as_content. rewrite C4, C5. reflexivity.
Qed.

(** Assigning one object to another does the same to the one assigned to. *)
Lemma assign_lemma size c coll m vs h i j off :
  static_ok coll = true -> In m (mc_types coll) -> has_types vs (mt_fields m) = true ->
  as_ok size h -> (i < length (as_arrays h))%nat -> (j < length (as_arrays h))%nat -> i <> j ->
  nth_it i h = (i, off) -> off + sizeof_bound coll m <= size ->
  as_content j (as_assign i j h) = UB
  /\ exists f h', is_message_frame c coll m vs f
       /\ send c coll m (as_tx size j) (combine (mt_fields m) vs) (as_assign i j h) = Ok h'
       /\ firstn (Z.to_nat (off + zlen f)) (nth_array i h') = firstn (Z.to_nat off) (nth_array i h) ++ f
       /\ nth_array j h' = nth_array i h
       /\ as_content i h' = as_content i h
       /\ as_content j h' = UB.
Proof.
  intros Hst Hin Hty Hok Hi Hj Hne Hit Hfit. pose proof Hok as (Hlen & Hsz & Hits).
  assert (as_ok size (as_assign i j h)) as Hok'.
  { unfold as_ok, as_assign. cbn [as_arrays as_its]. rewrite !set_nth_length. split; [assumption|].
    destruct (as_ok_nth size h i Hok Hi) as (A & B).
    split; [apply (set_nth_Forall _ j _ _ Hsz A) | apply (set_nth_Forall _ j _ _ Hits B)]. }
  destruct (alias_lemma size c coll m vs (as_assign i j h) i j off Hst Hin Hty Hok')
    as (A1 & f & h' & A2 & A3 & A4 & A5 & A6 & A7); try assumption.
  - unfold as_assign. cbn [as_arrays]. rewrite set_nth_length. assumption.
  - unfold as_assign. cbn [as_arrays]. rewrite set_nth_length. assumption.
  - unfold nth_it, as_assign. cbn [as_its]. rewrite set_nth_neq by congruence. exact Hit.
  - unfold nth_it at 1, as_assign. cbn [as_its]. rewrite set_nth_eq by lia. exact Hit.
  - split; [exact A1|]. exists f, h'.
    unfold nth_array in A4 at 2. unfold nth_array in A5 at 2. unfold as_assign in A4, A5. cbn [as_arrays] in A4, A5.
    rewrite set_nth_neq in A4 by congruence. rewrite set_nth_eq in A5 by assumption.
    do 4 (split; [assumption|]). split; [|exact A7]. rewrite A6. unfold as_content, nth_it, nth_array, as_assign.
    cbn [as_its as_arrays]. rewrite !set_nth_neq by congruence. reflexivity.
Qed.

(** After reset() the copy is an independent buffer. *)
Lemma copy_reset_lemma size c coll m vs h i :
  static_ok coll = true -> In m (mc_types coll) -> has_types vs (mt_fields m) = true ->
  as_ok size h -> (i < length (as_arrays h))%nat -> sizeof_bound coll m <= size ->
  let j := length (as_arrays h) in
  exists f h', is_message_frame c coll m vs f
       /\ send c coll m (as_tx size j) (combine (mt_fields m) vs) (as_reset j (as_copy i h)) = Ok h'
       /\ as_content j h' = Ok f
       /\ forall k, (k < j)%nat -> nth_array k h' = nth_array k h /\ nth_it k h' = nth_it k h.
Proof.
  intros Hst Hin Hty Hok Hi Hfit j. pose proof Hok as (Hlen & Hsz & Hits).
  assert (length (as_its (as_copy i h)) = Datatypes.S j) as HLi.
  { unfold as_copy. cbn [as_its]. rewrite app_length. cbn [length]. unfold j. lia. }
  assert (nth_it j (as_reset j (as_copy i h)) = (j, 0)) as Hj.
  { unfold nth_it, as_reset. cbn [as_its]. apply set_nth_eq. lia. }
  pose proof (sizeof_bound_spec coll m) as Hnn.
  assert (as_ok size (as_reset j (as_copy i h))) as Hok'.
  { unfold as_ok, as_reset, as_copy. cbn [as_arrays as_its]. rewrite set_nth_length, !app_length. cbn [length]. split; [lia|]. split.
    - apply Forall_app. split; [assumption|]. constructor; [|constructor]. apply (as_ok_nth size h i Hok Hi).
    - apply Forall_forall. intros it HI. apply (In_nth _ _ (O, 0)) in HI as (q & Hq & <-).
      rewrite set_nth_length, app_length in Hq. cbn [length] in Hq.
      destruct (Nat.eq_dec q j) as [->|Hne].
      + rewrite set_nth_eq by (rewrite app_length; cbn [length]; unfold j; lia). cbn [fst snd]. unfold j. lia.
      + rewrite set_nth_neq by congruence. rewrite app_nth1 by (unfold j in Hne; lia).
        rewrite Forall_forall in Hits. destruct (Hits (nth q (as_its h) (O, 0))) as (A & B); [apply nth_In; unfold j in Hne; lia|].
        split; [lia | assumption]. }
  assert (j < length (as_arrays (as_reset j (as_copy i h))))%nat as Hj'.
  { unfold as_reset, as_copy, j. cbn [as_arrays]. rewrite app_length. cbn [length]. lia. }
  destruct (as_send_lemma size c coll m vs _ j j 0 Hst Hin Hty Hok' Hj' Hj ltac:(lia))
    as (f & h' & F1 & F2 & F3 & F4 & F5 & F6 & F7).
  exists f, h'. split; [assumption|]. split; [assumption|]. split.
  - unfold as_content. rewrite F3, Nat.eqb_refl. rewrite F4. reflexivity.
  - intros k Hk. rewrite F5, F6 by lia. unfold nth_array, nth_it, as_reset, as_copy. cbn [as_arrays as_its].
    rewrite set_nth_neq by lia. rewrite !app_nth1 by (unfold j in Hk; lia). auto.
Qed.

(** A buffer just constructed. *)
Lemma new_lemma size h : 0 <= size -> as_ok size h ->
  let j := length (as_arrays h) in
  as_ok size (as_new size h) /\ as_content j (as_new size h) = Ok []
  /\ forall c coll m vs, static_ok coll = true -> In m (mc_types coll) -> has_types vs (mt_fields m) = true -> sizeof_bound coll m <= size ->
     exists f h', is_message_frame c coll m vs f
       /\ send c coll m (as_tx size j) (combine (mt_fields m) vs) (as_new size h) = Ok h'
       /\ as_content j h' = Ok f
       /\ forall k, (k < j)%nat -> nth_array k h' = nth_array k h /\ nth_it k h' = nth_it k h.
Proof.
  intros Hs Hok j. pose proof Hok as (Hlen & Hsz & Hits).
  assert (nth_it j (as_new size h) = (j, 0)) as Hj.
  { unfold nth_it, as_new. cbn [as_its]. unfold j. rewrite <- Hlen at 1. apply nth_snoc. }
  assert (as_ok size (as_new size h)) as Hok'.
  { unfold as_ok, as_new. cbn [as_arrays as_its]. rewrite !app_length. cbn [length]. split; [lia|]. split.
    - apply Forall_app. split; [assumption|]. constructor; [|constructor]. unfold zlen. rewrite repeat_length. lia.
    - apply Forall_app. split; [|constructor; [cbn [fst snd]; lia | constructor]].
      eapply Forall_impl; [|exact Hits]. intros it (A & B). split; [lia | assumption]. }
  split; [assumption|]. split; [unfold as_content; rewrite Hj, Nat.eqb_refl; reflexivity|].
  intros c coll m vs Hst Hin Hty Hfit.
  assert (j < length (as_arrays (as_new size h)))%nat as Hj' by (unfold as_new, j; cbn [as_arrays]; rewrite app_length; cbn [length]; lia).
  destruct (as_send_lemma size c coll m vs _ j j 0 Hst Hin Hty Hok' Hj' Hj ltac:(lia))
    as (f & h' & F1 & F2 & F3 & F4 & F5 & F6 & F7).
  exists f, h'. split; [assumption|]. split; [assumption|]. split.
  - unfold as_content. rewrite F3, Nat.eqb_refl. rewrite F4. reflexivity.
  - intros k Hk. rewrite F5, F6 by lia. unfold nth_array, nth_it, as_new. cbn [as_arrays as_its].
    rewrite !app_nth1 by (unfold j in Hk; lia). auto.
Qed.

(** ** A composition of a transmitter with itself *)
Definition doubled (l : list call) : list call := concat (map (fun x => [x; x]) l).

Lemma self_calls {S} (t : transmitter S) l : forall s,
  run_calls (compose_self_tx t) l s = run_calls t (doubled l) s.
Proof.
  induction l as [|x l IH]; intros s; [reflexivity|]. cbn [run_calls].
  change (doubled (x :: l)) with (x :: x :: doubled l). cbn [run_calls].
  replace (run_call (compose_self_tx t) x s) with (do s <- run_call t x s; run_call t x s) by (destruct x; reflexivity).
  rewrite bind_assoc. apply bind_ext. intros s1. apply bind_ext. intros s2. apply IH.
Qed.

Lemma self_send_lemma c coll m vs : static_ok coll = true -> In m (mc_types coll) ->
  has_types vs (mt_fields m) = true ->
  exists calls, is_message_frame c coll m vs (calls_bytes calls)
    /\ forall s, send c coll m (compose_self_tx vector_tx) (combine (mt_fields m) vs) s
         = Ok (s ++ concat (map (fun x => call_bytes x ++ call_bytes x) calls)).
Proof.
  intros Hst Hin Hty. destruct (send_spec c coll m vs Hst Hin Hty) as (calls & HF & H).
  exists calls. split; [assumption|]. intros s. rewrite H, self_calls, vector_calls. cbn [bind tx_finished compose_self_tx].
  unfold finished_fallback. do 2 f_equal. unfold calls_bytes, doubled. clear.
  induction calls as [|x calls IH]; [reflexivity|]. cbn [map concat app]. rewrite IH, app_assoc. reflexivity.
Qed.

(** ** The same bytes through every transmitter *)
Lemma frames_unique c coll msgs fs fs' :
  Forall2 (fun mv f => is_message_frame c coll (fst mv) (snd mv) f) msgs fs ->
  Forall2 (fun mv f => is_message_frame c coll (fst mv) (snd mv) f) msgs fs' -> fs = fs'.
Proof.
  intros H. revert fs'. induction H as [|mv f msgs fs H1 H IH]; intros fs' H'; inversion H' as [|? ? ? ? H2 H3]; subst; [reflexivity|].
  f_equal; [eapply message_frame_unique; eassumption | auto].
Qed.

Lemma same_bytes_lemma c coll msgs : static_ok coll = true ->
  Forall (fun mv => sendable coll mv /\ sizeof_bound coll (fst mv) <= 255) msgs ->
  exists S blocks s, send_all c coll vector_tx msgs [] = Ok S
    /\ send_all c coll serial_tx msgs [] = Ok blocks /\ concat blocks = S
    /\ send_all c coll i2c_tx msgs i2c_init = Ok s /\ concat (i2c_bus s) = S
    /\ length (i2c_bus s) = length msgs.
Proof.
  intros Hst HM. assert (Forall (sendable coll) msgs) as HM' by (eapply Forall_impl; [|exact HM]; intros mv [A _]; exact A).
  destruct (send_all_vector c coll msgs Hst HM' []) as (fs & F1 & E1).
  destruct (send_all_serial c coll msgs Hst HM' []) as (fs2 & bl & F2 & E2 & C2).
  destruct (i2c_send_all c coll msgs Hst HM i2c_init i2c_init_idle) as (fs3 & s & F3 & E3 & _ & B3).
  rewrite (frames_unique _ _ _ _ _ F2 F1) in *. rewrite (frames_unique _ _ _ _ _ F3 F1) in *.
  cbn [app] in *. change (i2c_bus i2c_init) with (@nil (list Z)) in B3. cbn [app] in B3.
  exists (concat fs), bl, s. rewrite B3. do 5 (split; [assumption || reflexivity|]).
  clear - F1. induction F1; cbn; auto.
Qed.
