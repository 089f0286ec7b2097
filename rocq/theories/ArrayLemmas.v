(** Processing leaves the buffer's array as it is. *)
From Verif Require Export MoveLemmas.

Lemma increments_kept c cap n : forall b b', repeat_m n (rb_increment_begin c cap) b = Ok b' -> rb_contents b' = rb_contents b.
Proof.
  induction n as [|n IH]; intros b b' H; cbn [repeat_m] in H; [congruence|].
  unfold rb_increment_begin in H at 1. destruct (assert_ _ _); try discriminate. cbn [bind] in H.
  rewrite (IH _ _ H). reflexivity.
Qed.

Lemma pop_front_kept c coll n e e' : er_pop_front c coll n e = Ok e' -> rb_contents (er_buf e') = rb_contents (er_buf e).
Proof.
  unfold er_pop_front, rb_pop_front. destruct (rb_front _ _ _); try discriminate. cbn [bind].
  destruct (repeat_m _ _ _) as [b| | | |] eqn:E; try discriminate. cbn [bind]. intros [= <-].
  exact (increments_kept _ _ _ _ _ E).
Qed.

Lemma skip_kept fuel c coll : forall e e', skip_to_soh fuel c coll e = Ok e' -> rb_contents (er_buf e') = rb_contents (er_buf e).
Proof.
  induction fuel as [|fuel IH]; intros e e' H; cbn [skip_to_soh] in H; [discriminate|].
  destruct (rb_empty _); [congruence|]. destruct (rb_front _ _ _) as [f| | | |]; try discriminate. cbn [bind] in H.
  destruct (f =? SOH); [congruence|]. destruct (er_pop_front c coll 1 e) as [e1| | | |] eqn:E; try discriminate.
  cbn [bind] in H. rewrite (IH _ _ H). exact (pop_front_kept _ _ _ _ _ E).
Qed.

Lemma retry_kept c coll chk e b e' :
  (forall x b' x', chk x = Ok (b', x') -> rb_contents (er_buf x') = rb_contents (er_buf x)) ->
  pop_and_retry c coll chk e = Ok (b, e') -> rb_contents (er_buf e') = rb_contents (er_buf e).
Proof.
  intros Hc H. unfold pop_and_retry in H. destruct (assert_ _ _); try discriminate. cbn [bind] in H.
  destruct (rb_empty _); [congruence|]. destruct (er_pop_front c coll 1 e) as [e1| | | |] eqn:E; try discriminate.
  cbn [bind] in H. rewrite (Hc _ _ _ H). exact (pop_front_kept _ _ _ _ _ E).
Qed.

Lemma check_fuel_kept c coll fuel : forall e b e', check_fuel fuel c coll e = Ok (b, e') ->
  rb_contents (er_buf e') = rb_contents (er_buf e).
Proof.
  induction fuel as [|fuel IH]; intros e b e' H; cbn [check_fuel] in H; [discriminate|].
  destruct (skip_to_soh _ c coll e) as [e1| | | |] eqn:E; try discriminate. cbn [bind] in H.
  apply skip_kept in E. rewrite <- E.
  destruct (rb_size _ (er_buf e1) <? 2); [congruence|].
  destruct (er_buffer c coll e1 1) as [b1| | | |]; try discriminate. cbn [bind] in H.
  change (rb_contents (er_buf e1)) with (rb_contents (er_buf (er_set_id coll b1 e1))).
  set (e2 := er_set_id coll b1 e1) in *.
  destruct (negb (er_id_valid e2)); [exact (retry_kept _ _ _ _ _ _ IH H)|].
  destruct (rb_size _ (er_buf e2) <? 3); [congruence|].
  destruct (er_buffer c coll e2 2) as [b2| | | |]; try discriminate. cbn [bind] in H.
  destruct (negb (b2 =? STX)); [exact (retry_kept _ _ _ _ _ _ IH H)|].
  destruct (er_message_length c coll e2) as [len| | | |]; try discriminate. cbn [bind] in H.
  destruct (rb_size _ (er_buf e2) <? len); [congruence|].
  destruct (trailer c coll e2 len) as [[]| | | |]; try discriminate; cbn [bind] in H; [congruence|].
  exact (retry_kept _ _ _ _ _ _ IH H).
Qed.

Lemma check_kept c coll e b e' : check c coll e = Ok (b, e') -> rb_contents (er_buf e') = rb_contents (er_buf e).
Proof. apply check_fuel_kept. Qed.

Lemma pop_message_kept c coll e e' : er_pop_message c coll e = Ok e' -> rb_contents (er_buf e') = rb_contents (er_buf e).
Proof.
  intros H. unfold er_pop_message in H.
  assert (exists e1, rb_contents (er_buf e1) = rb_contents (er_buf e) /\
    (do len <- er_message_length c coll e1; do e2 <- er_pop_front c coll len e1; Ok (ERB None (er_buf e2))) = Ok e')
    as (e1 & E1 & H1).
  { destruct (mode c).
    - exists e. split; [reflexivity|exact H].
    - destruct (check c coll e) as [[[] e1]| | | |] eqn:E; try discriminate. cbn [bind] in H.
      exists e1. split; [exact (check_kept _ _ _ _ _ E) | exact H].
    - destruct (check c coll e) as [[f e1]| | | |] eqn:E; try discriminate. cbn [bind] in H.
      exists e1. split; [exact (check_kept _ _ _ _ _ E) | exact H]. }
  rewrite <- E1. destruct (er_message_length c coll e1) as [len| | | |]; try discriminate. cbn [bind] in H1.
  destruct (er_pop_front c coll len e1) as [e2| | | |] eqn:E; try discriminate. cbn [bind] in H1.
  assert (e' = ERB None (er_buf e2)) as -> by congruence. exact (pop_front_kept _ _ _ _ _ E).
Qed.

Definition array_of (w : world) : list Z := rb_contents (er_buf (rx_recv (w_rx w))).

Lemma run_acts_kept c coll proc acts : (forall a, In a acts -> exists h, a = ASetHandler h) ->
  forall w w' t, run_acts c coll proc acts w = Ok (w', t) -> array_of w' = array_of w.
Proof.
  induction acts as [|a acts IH]; intros Ha w w' t H; cbn [run_acts] in H; [congruence|].
  destruct (Ha a (or_introl eq_refl)) as (h & ->). cbn [bind] in H.
  rewrite (IH (fun x Hx => Ha x (or_intror Hx)) _ _ _ H). reflexivity.
Qed.

Lemma process_loop_kept c coll beh : steady beh -> forall fuel n w w' p,
  process_loop fuel c coll beh n w = Ok (w', p) -> array_of w' = array_of w.
Proof.
  intros Hst. induction fuel as [|fuel IH]; intros n w w' p H; cbn [process_loop] in H; [discriminate|].
  destruct (check c coll (rx_recv (w_rx w))) as [[f e]| | | |] eqn:Ec; try discriminate. cbn [bind] in H.
  apply check_kept in Ec. unfold array_of at 2. rewrite <- Ec.
  destruct f; cbn [negb] in H.
  2:{ assert (w' = w_set_recv e w) as -> by congruence. reflexivity. }
  destruct (er_current_id c e) as [id| | | |]; try discriminate. cbn [bind] in H.
  set (w1 := w_set_last id (w_set_recv e w)) in H.
  change (rb_contents (er_buf e)) with (array_of w1).
  unfold invoke in H. destruct (rx_invoker (w_rx w1)) as [ty|], (rx_functor (w_rx w1)) as [h|]; try discriminate.
  destruct (negb (ty =? h_type h)); try discriminate.
  destruct (deserialize_message c coll (rx_recv (w_rx w1)) id) as [[[m vs]|]| | | |]; try discriminate; cbn [bind] in H.
  - match type of H with context [run_acts c coll ?p ?a ?v] => destruct (run_acts c coll p a v) as [[w2 t]| | | |] eqn:Er end;
      try discriminate. cbn [bind] in H.
    apply run_acts_kept in Er; [|intros x Hx; exact (Hst _ x Hx)].
    change (array_of _) with (array_of w1) in Er at 2. rewrite <- Er.
    destruct (t || _).
    + congruence.
    + destruct (er_pop_message c coll (rx_recv (w_rx w2))) as [e2| | | |] eqn:Ep; try discriminate. cbn [bind] in H.
      rewrite (IH _ _ _ _ H). exact (pop_message_kept _ _ _ _ Ep).
  - destruct (er_pop_message c coll (rx_recv (w_rx w1))) as [e2| | | |] eqn:Ep; try discriminate. cbn [bind] in H.
    rewrite (IH _ _ _ _ H). exact (pop_message_kept _ _ _ _ Ep).
Qed.

