(** Lemmas about the bytes moved inside the receive buffer. *)
From Verif Require Export SpecMoves DeliveryLemmas.

(** ** The counting functions return what the others return *)
Lemma cbind_fst {A B} (m : counted A) (f : A -> counted B) : fst (cbind m f) = bind (fst m) (fun a => fst (f a)).
Proof. destruct m as [[a| | | |] n]; cbn; auto. destruct (f a). reflexivity. Qed.

Lemma fst_ensure c cap n b : fst (m_ensure_space c cap n b) = rb_ensure_space c cap n b.
Proof.
  unfold m_ensure_space, rb_ensure_space. set (b1 := if rb_empty b then _ else b).
  destruct (_ <=? cap); [reflexivity|]. rewrite cbind_fst. reflexivity.
Qed.

Lemma fst_push c cap d b : fst (m_push_range c cap d b) = rb_push_range c cap d b.
Proof. unfold m_push_range, rb_push_range. rewrite cbind_fst, fst_ensure. reflexivity. Qed.

Lemma fst_functor c cap f n b : fst (m_from_functor c cap f n b) = rb_from_functor c cap f n b.
Proof. unfold m_from_functor, rb_from_functor. rewrite cbind_fst, fst_ensure. reflexivity. Qed.

Lemma same_step_lemma fuel c coll beh o w : fst (m_step fuel c coll beh o w) = step fuel c coll beh o w.
Proof.
  destruct o; cbn [m_step]; try reflexivity.
  - rewrite cbind_fst. unfold m_append, step, rx_append, er_append. rewrite cbind_fst, fst_push.
    destruct (rb_push_range _ _ _ _); reflexivity.
  - rewrite cbind_fst. unfold m_receive_from, step, rx_receive_from, er_from_functor. rewrite cbind_fst, fst_functor.
    destruct (rb_from_functor _ _ _ _ _) as [[b n]| | | |]; reflexivity.
Qed.

(** ** Processing leaves the end of the contents where it is *)
Lemma increments_end c cap n : forall b b', repeat_m n (rb_increment_begin c cap) b = Ok b' -> rb_pastEnd b' = rb_pastEnd b.
Proof.
  induction n as [|n IH]; intros b b' H; cbn [repeat_m] in H; [congruence|].
  unfold rb_increment_begin in H at 1. destruct (assert_ _ _); try discriminate. cbn [bind] in H.
  rewrite (IH _ _ H). reflexivity.
Qed.

Lemma pop_front_end c coll n e e' : er_pop_front c coll n e = Ok e' -> rb_pastEnd (er_buf e') = rb_pastEnd (er_buf e).
Proof.
  unfold er_pop_front, rb_pop_front. destruct (rb_front _ _ _); try discriminate. cbn [bind].
  destruct (repeat_m _ _ _) as [b| | | |] eqn:E; try discriminate. cbn [bind]. intros [= <-].
  exact (increments_end _ _ _ _ _ E).
Qed.

Lemma skip_end fuel c coll : forall e e', skip_to_soh fuel c coll e = Ok e' -> rb_pastEnd (er_buf e') = rb_pastEnd (er_buf e).
Proof.
  induction fuel as [|fuel IH]; intros e e' H; cbn [skip_to_soh] in H; [discriminate|].
  destruct (rb_empty _); [congruence|]. destruct (rb_front _ _ _) as [f| | | |]; try discriminate. cbn [bind] in H.
  destruct (f =? SOH); [congruence|]. destruct (er_pop_front c coll 1 e) as [e1| | | |] eqn:E; try discriminate.
  cbn [bind] in H. rewrite (IH _ _ H). exact (pop_front_end _ _ _ _ _ E).
Qed.

Lemma retry_end c coll chk e b e' :
  (forall x b' x', chk x = Ok (b', x') -> rb_pastEnd (er_buf x') = rb_pastEnd (er_buf x)) ->
  pop_and_retry c coll chk e = Ok (b, e') -> rb_pastEnd (er_buf e') = rb_pastEnd (er_buf e).
Proof.
  intros Hc H. unfold pop_and_retry in H. destruct (assert_ _ _); try discriminate. cbn [bind] in H.
  destruct (rb_empty _); [congruence|]. destruct (er_pop_front c coll 1 e) as [e1| | | |] eqn:E; try discriminate.
  cbn [bind] in H. rewrite (Hc _ _ _ H). exact (pop_front_end _ _ _ _ _ E).
Qed.

Lemma check_fuel_end c coll fuel : forall e b e', check_fuel fuel c coll e = Ok (b, e') ->
  rb_pastEnd (er_buf e') = rb_pastEnd (er_buf e).
Proof.
  induction fuel as [|fuel IH]; intros e b e' H; cbn [check_fuel] in H; [discriminate|].
  destruct (skip_to_soh _ c coll e) as [e1| | | |] eqn:E; try discriminate. cbn [bind] in H.
  apply skip_end in E. rewrite <- E.
  destruct (rb_size _ (er_buf e1) <? 2); [congruence|].
  destruct (er_buffer c coll e1 1) as [b1| | | |]; try discriminate. cbn [bind] in H.
  change (rb_pastEnd (er_buf e1)) with (rb_pastEnd (er_buf (er_set_id coll b1 e1))).
  set (e2 := er_set_id coll b1 e1) in *.
  destruct (negb (er_id_valid e2)); [exact (retry_end _ _ _ _ _ _ IH H)|].
  destruct (rb_size _ (er_buf e2) <? 3); [congruence|].
  destruct (er_buffer c coll e2 2) as [b2| | | |]; try discriminate. cbn [bind] in H.
  destruct (negb (b2 =? STX)); [exact (retry_end _ _ _ _ _ _ IH H)|].
  destruct (er_message_length c coll e2) as [len| | | |]; try discriminate. cbn [bind] in H.
  destruct (rb_size _ (er_buf e2) <? len); [congruence|].
  destruct (trailer c coll e2 len) as [[]| | | |]; try discriminate; cbn [bind] in H; [congruence|].
  exact (retry_end _ _ _ _ _ _ IH H).
Qed.

Lemma check_end c coll e b e' : check c coll e = Ok (b, e') -> rb_pastEnd (er_buf e') = rb_pastEnd (er_buf e).
Proof. apply check_fuel_end. Qed.

Lemma pop_message_end c coll e e' : er_pop_message c coll e = Ok e' -> rb_pastEnd (er_buf e') = rb_pastEnd (er_buf e).
Proof.
  intros H. unfold er_pop_message in H.
  assert (exists e1, rb_pastEnd (er_buf e1) = rb_pastEnd (er_buf e) /\
    (do len <- er_message_length c coll e1; do e2 <- er_pop_front c coll len e1; Ok (ERB None (er_buf e2))) = Ok e')
    as (e1 & E1 & H1).
  { destruct (mode c).
    - exists e. split; [reflexivity|exact H].
    - destruct (check c coll e) as [[[] e1]| | | |] eqn:E; try discriminate. cbn [bind] in H.
      exists e1. split; [exact (check_end _ _ _ _ _ E) | exact H].
    - destruct (check c coll e) as [[f e1]| | | |] eqn:E; try discriminate. cbn [bind] in H.
      exists e1. split; [exact (check_end _ _ _ _ _ E) | exact H]. }
  rewrite <- E1. destruct (er_message_length c coll e1) as [len| | | |]; try discriminate. cbn [bind] in H1.
  destruct (er_pop_front c coll len e1) as [e2| | | |] eqn:E; try discriminate. cbn [bind] in H1.
  assert (e' = ERB None (er_buf e2)) as -> by congruence. exact (pop_front_end _ _ _ _ _ E).
Qed.

Definition end_of (w : world) : Z := rb_pastEnd (er_buf (rx_recv (w_rx w))).
Definition front_of (w : world) : Z := rb_begin (er_buf (rx_recv (w_rx w))).

Lemma run_acts_end c coll proc acts : (forall a, In a acts -> exists h, a = ASetHandler h) ->
  forall w w' t, run_acts c coll proc acts w = Ok (w', t) -> end_of w' = end_of w.
Proof.
  induction acts as [|a acts IH]; intros Ha w w' t H; cbn [run_acts] in H; [congruence|].
  destruct (Ha a (or_introl eq_refl)) as (h & ->). cbn [bind] in H.
  rewrite (IH (fun x Hx => Ha x (or_intror Hx)) _ _ _ H). reflexivity.
Qed.

Lemma process_loop_end c coll beh : steady beh -> forall fuel n w w' p,
  process_loop fuel c coll beh n w = Ok (w', p) -> end_of w' = end_of w.
Proof.
  intros Hst. induction fuel as [|fuel IH]; intros n w w' p H; cbn [process_loop] in H; [discriminate|].
  destruct (check c coll (rx_recv (w_rx w))) as [[f e]| | | |] eqn:Ec; try discriminate. cbn [bind] in H.
  apply check_end in Ec. unfold end_of at 2. rewrite <- Ec.
  destruct f; cbn [negb] in H.
  2:{ assert (w' = w_set_recv e w) as -> by congruence. reflexivity. }
  destruct (er_current_id c e) as [id| | | |]; try discriminate. cbn [bind] in H.
  set (w1 := w_set_last id (w_set_recv e w)) in H.
  change (rb_pastEnd (er_buf e)) with (end_of w1).
  unfold invoke in H. destruct (rx_invoker (w_rx w1)) as [ty|], (rx_functor (w_rx w1)) as [h|]; try discriminate.
  destruct (negb (ty =? h_type h)); try discriminate.
  destruct (deserialize_message c coll (rx_recv (w_rx w1)) id) as [[[m vs]|]| | | |]; try discriminate; cbn [bind] in H.
  - match type of H with context [run_acts c coll ?p ?a ?v] => destruct (run_acts c coll p a v) as [[w2 t]| | | |] eqn:Er end;
      try discriminate. cbn [bind] in H.
    apply run_acts_end in Er; [|intros x Hx; exact (Hst _ x Hx)].
    change (end_of _) with (end_of w1) in Er at 2. rewrite <- Er.
    destruct (t || _).
    + congruence.
    + destruct (er_pop_message c coll (rx_recv (w_rx w2))) as [e2| | | |] eqn:Ep; try discriminate. cbn [bind] in H.
      rewrite (IH _ _ _ _ H). exact (pop_message_end _ _ _ _ Ep).
  - destruct (er_pop_message c coll (rx_recv (w_rx w1))) as [e2| | | |] eqn:Ep; try discriminate. cbn [bind] in H.
    rewrite (IH _ _ _ _ H). exact (pop_message_end _ _ _ _ Ep).
Qed.

(** ** Making room *)
Section Room.
Context (c : config) (cap : Z) (Hcap : cap_ok cap) (Hsafe : index_safe c cap).

(** Room for [n] more bytes: where the contents end up, and what was moved. *)
Lemma ensure_moves b X n : rep cap b X -> 0 <= n -> zlen X + n <= cap ->
  exists b', fst (m_ensure_space c cap n b) = Ok b' /\ rep cap b' X
    /\ ( (moves (m_ensure_space c cap n b) = 0 /\ (rb_begin b' = rb_begin b \/ (X = [] /\ rb_begin b' = 0)))
       \/ (moves (m_ensure_space c cap n b) = zlen X /\ rb_begin b' = 0 /\ cap < rb_begin b + zlen X + n) ).
Proof.
  intros R Hn Hfit. destruct (rep_ensure_space c cap Hcap Hsafe b X n R Hn Hfit) as (b' & H & R' & _).
  exists b'. rewrite fst_ensure. split; [assumption|]. split; [assumption|].
  unfold rb_ensure_space in H. unfold m_ensure_space, moves.
  rewrite (rep_empty _ _ _ R) in *. destruct X as [|x X].
  - left. cbn [rb_pastEnd rb_begin] in *. unfold cap_ok in Hcap. rewrite zlen_nil in *.
    rewrite (promoted_add_exact c cap Hsafe) in H |- * by lia.
    rewrite (proj2 (Z.leb_le _ _)) in H |- * by lia. injection H as <-. cbn. auto.
  - pose proof R as (A & B & _ & Hb & Hp & Hl). pose proof (zlen_nonneg A). pose proof (zlen_nonneg B). pose proof (zlen_nonneg X).
    rewrite zlen_cons in *. pose proof (rep_size cap Hcap b _ R) as Hs. rewrite zlen_cons in Hs.
    rewrite (promoted_add_exact c cap Hsafe) in H |- * by lia.
    destruct (Z.leb_spec (rb_pastEnd b + n) cap).
    + left. injection H as <-. auto.
    + right. rewrite Hs in *. rewrite (promoted_add_exact c cap Hsafe) in H |- * by lia.
      rewrite assert_true in H |- * by (apply Z.leb_le; lia). cbn [bind] in H. unfold cret. cbn [cbind].
      destruct (rep_slide cap Hcap b _ R) as (b2 & E & _ & Hb2); [right; lia|].
      cbn [snd]. rewrite E in H. injection H as <-. split; [lia|]. split; [assumption|lia].
Qed.
End Room.

(** ** All calls *)
Section Total.
Context (c : config) (coll : collection) (Hst : static_ok coll = true) (Hsafe : index_safe c (capacity coll)).
Context (beh : hbehav) (h0 : option handler).
Local Notation cap := (capacity coll).
Local Notation L := (max_message_length coll).

Lemma steady_tame : steady beh -> tame beh.
Proof. intros H log a Ha. destruct (H _ _ Ha) as (h & ->). exact I. Qed.

Lemma appended_steady : steady beh -> forall new log, appended_by beh log new = [].
Proof.
  intros H. induction new as [|d new IH]; intros log; cbn [appended_by]; [reflexivity|]. rewrite IH, app_nil_r.
  assert (forall acts, (forall a, In a acts -> exists h, a = ASetHandler h) -> appended acts = []) as HA.
  { induction acts as [|a acts IHa]; intros Hx; [reflexivity|]. destruct (Hx a (or_introl eq_refl)) as (h & ->).
    unfold appended. cbn [map concat app]. apply IHa. intros x Hi. apply Hx. right. exact Hi. }
  apply HA. intros a. apply H.
Qed.

Lemma sim_ends w : sim coll w (view w) -> 0 <= front_of w /\ front_of w + zlen (held w) = end_of w /\ end_of w <= cap.
Proof.
  intros (R & _). destruct R as (A & B & _ & Hb & Hp & Hl). cbn [view s_bytes] in *.
  pose proof (zlen_nonneg A). pose proof (zlen_nonneg B). unfold front_of, end_of. lia.
Qed.

(** What one giving of [d], with room made for [n] bytes, does. *)
Definition gives (n : Z) (d : list Z) (w w' : world) (k : Z) : Prop :=
  held w' = held w ++ d
  /\ ( (k = 0 /\ (front_of w' = front_of w \/ front_of w' = 0))
     \/ (k = zlen (held w) /\ front_of w' = 0 /\ cap < front_of w + zlen (held w) + n) ).

Lemma moves_append d w w' r fuel : sim coll w (view w) -> allowed coll (OpAppend d) w ->
  step fuel c coll beh (OpAppend d) w = Ok (w', r) -> tame beh ->
  gives (zlen d) d w w' (moves (m_step fuel c coll beh (OpAppend d) w)).
Proof.
  intros Hs (Hb & Hd) H Ht.
  destruct (other_step c coll Hst Hsafe beh Ht (OpAppend d) _ _ _ Hs (conj Hb Hd) (ex_intro _ fuel H)) as (Hh & _); [discriminate|].
  split; [exact Hh|].
  rewrite (sim_available coll Hst _ _ Hs) in Hd. cbn [view s_bytes] in Hd.
  pose proof (capacity_ok coll Hst) as Hcap. pose proof (zlen_nonneg d). pose proof (zlen_nonneg (held w)).
  destruct Hs as (R & _). cbn [view s_bytes] in R.
  destruct (ensure_moves c cap Hcap Hsafe _ _ (zlen d) R) as (b1 & E1 & R1 & Hm); [lia|lia|].
  rewrite <- same_step_lemma in H. cbn [m_step] in H |- *. unfold m_append, m_push_range in H |- *.
  rewrite (to_sz_small cap Hcap) in H |- * by lia.
  unfold moves in *. destruct (m_ensure_space c cap (zlen d) _) as [o k]. cbn [fst snd] in E1, Hm. subst o.
  cbn [cbind] in H |- *. unfold cret in H |- *.
  destruct (rb_pastEnd b1 + zlen d <=? cap); [|discriminate].
  destruct (rb_verify c cap _); try discriminate. cbn [bind cbind fst snd] in H |- *.
  assert (w' = _) as -> by (injection H as H _; symmetry; exact H).
  unfold front_of. cbn [w_rx rx_recv er_buf rb_begin]. fold (front_of w).
  rewrite !Z.add_0_r. destruct Hm as [(-> & [->|(_ & ->)])|(-> & -> & H3)]; [left; auto | left; auto | right; auto].
Qed.

Lemma moves_receive a w w' r fuel : sim coll w (view w) -> allowed coll (OpReceive a) w ->
  step fuel c coll beh (OpReceive a) w = Ok (w', r) -> tame beh ->
  gives (Z.min (ad_available a mod 256) (rx_available coll (w_rx w))) (received coll beh (OpReceive a) w w') w w'
    (moves (m_step fuel c coll beh (OpReceive a) w)).
Proof.
  intros Hs Ha H Ht.
  destruct (other_step c coll Hst Hsafe beh Ht _ _ _ _ Hs Ha (ex_intro _ fuel H)) as (Hh & _); [discriminate|].
  split; [exact Hh|]. pose proof (sim_available coll Hst _ _ Hs) as Hv. cbn [view s_bytes] in Hv.
  pose proof (capacity_ok coll Hst) as Hcap. pose proof (zlen_nonneg (held w)).
  destruct Hs as (R & _). cbn [view s_bytes] in R. pose proof (rep_size_le _ _ _ R) as Hle.
  pose proof (Z.mod_pos_bound (ad_available a) 256 eq_refl).
  set (n := Z.min (ad_available a mod 256) (rx_available coll (w_rx w))) in *.
  destruct (ensure_moves c cap Hcap Hsafe _ _ n R) as (b1 & E1 & R1 & Hm); [lia|lia|].
  rewrite <- same_step_lemma in H. cbn [m_step] in H |- *. unfold m_receive_from, m_from_functor in H |- *.
  change (Z.min (adapter_available a) (to_sz cap (rb_max_size cap - rb_size cap (er_buf (rx_recv (w_rx w)))))) with n in H |- *.
  unfold moves in *. destruct (m_ensure_space c cap n _) as [o k]. cbn [fst snd] in E1, Hm. subst o.
  cbn [cbind] in H |- *. unfold cret in H |- *.
  destruct (adapter_call a n) as [data ret].
  destruct (rb_pastEnd b1 + zlen data <=? cap); [|discriminate].
  destruct (rb_verify c cap _); try discriminate. cbn [bind cbind fst snd] in H |- *.
  assert (w' = _) as -> by (injection H as H _; symmetry; exact H).
  unfold front_of. cbn [w_rx rx_recv er_buf rb_begin]. fold (front_of w).
  rewrite !Z.add_0_r. destruct Hm as [(-> & [->|(_ & ->)])|(-> & -> & H3)]; [left; auto | left; auto | right; auto].
Qed.

Definition careful (o : op) (w : world) (r : opret) : Prop := full_read coll o w r /\ no_throw o w r.

Definition budget (a m : Z) (w : world) : Prop :=
  (exists ops S rs, history c coll beh (start coll h0) ops S rs w)
  /\ exists old new, 0 <= old < L /\ 0 <= new /\ zlen (held w) = old + new
     /\ 2 * m + zlen (held w) + front_of w + (if 0 <? front_of w then 3 * new else 0) <= 4 * a.

Lemma gives_budget a m w w' d k : budget a m w -> gives (zlen d) d w w' k -> 0 <= front_of w -> zlen (held w') <= cap ->
  (exists ops S rs, history c coll beh (start coll h0) ops S rs w') -> budget (a + zlen d) (m + k) w'.
Proof.
  intros (_ & old & new & Ho & Hn & Hh & HB) (Hg & Hk) Hf Hfit Hist. split; [assumption|].
  exists old, (new + zlen d). pose proof (zlen_nonneg d). rewrite Hg, zlen_app.
  split; [assumption|]. split; [lia|]. split; [lia|].
  assert (cap = 3 * L) as E3 by (unfold capacity, receive_buffer_size; lia). rewrite Hg, zlen_app in Hfit. rewrite E3 in Hk, Hfit.
  destruct (Z.ltb_spec 0 (front_of w)); destruct (Z.ltb_spec 0 (front_of w')); lia.
Qed.

Lemma moving_budget a m w : steady beh -> moving c coll beh careful h0 a m w -> budget a m w.
Proof.
  intros Hb. pose proof (steady_tame Hb) as Ht.
  induction 1 as [|a m w fuel o w' r HM IH Ha (Hf & Hnt) H].
  - split; [exists [], [], []; constructor|]. exists 0, 0.
    rewrite <- (sim_held _ _ _ (start_sim coll Hst h0)). cbn [s_bytes].
    assert (front_of (start coll h0) = 0) as -> by (destruct h0; reflexivity). cbn.
    pose proof (capacity_ok coll Hst) as [Hc _]. unfold capacity, receive_buffer_size in Hc. lia.
  - destruct IH as ((ops & S & rs & HH) & old & new & Ho & Hn & Hh & HB) eqn:EIH. clear EIH.
    pose proof (history_sim c coll Hst Hsafe beh Ht _ _ _ _ _ HH) as Hs.
    pose proof (hist_snoc c coll beh _ _ _ _ _ _ _ _ HH Ha (ex_intro _ fuel H)) as HH'.
    pose proof (history_sim c coll Hst Hsafe beh Ht _ _ _ _ _ HH') as Hs'.
    assert (exists ops S rs, history c coll beh (start coll h0) ops S rs w') as HX by eauto.
    destruct (sim_ends _ Hs) as (F1 & F2 & F3). destruct (sim_ends _ Hs') as (F1' & F2' & F3').
    assert (zlen (held w') <= cap) as Fit by lia.
    assert (budget a m w) as B0 by (split; [eauto|exists old, new; auto]).
    assert (match o with OpAppend _ | OpReceive _ | OpProcess => True | _ =>
              held w' = held w /\ front_of w' = front_of w end) as Hother
      by (destruct o; auto; cbn [step] in H; injection H as <- _; split; reflexivity).
    destruct o as [h| |d|ad|].
    + cbn [received m_step cret moves snd]. change (zlen []) with 0. rewrite !Z.add_0_r.
      destruct Hother as (E1 & E2). split; [assumption|]. exists old, new. rewrite E1, E2. auto.
    + cbn [received m_step cret moves snd]. change (zlen []) with 0. rewrite !Z.add_0_r.
      destruct Hother as (E1 & E2). split; [assumption|]. exists old, new. rewrite E1, E2. auto.
    + exact (gives_budget _ _ _ _ _ _ B0 (moves_append _ _ _ _ _ Hs Ha H Ht) F1 Fit HX).
    + pose proof (moves_receive _ _ _ _ _ Hs Ha H Ht) as G.
      destruct (other_step c coll Hst Hsafe beh Ht _ _ _ _ Hs Ha (ex_intro _ fuel H)) as (_ & _ & _ & _ & _ & Er);
        [discriminate|].
      cbn [full_read] in Hf. rewrite Hf in Er. injection Er as Er. rewrite Er in G.
      exact (gives_budget _ _ _ _ _ _ B0 G F1 Fit HX).
    + cbn [m_step cret moves snd]. rewrite Z.add_0_r.
      assert (received coll beh OpProcess w w' = []) as ->.
      { cbn [received]. apply appended_steady, Hb. }
      change (zlen []) with 0. rewrite Z.add_0_r. split; [assumption|].
      destruct (process_cases c coll Hst Hsafe beh Ht _ _ _ Hs (ex_intro _ fuel H)) as [(_ & -> & _)|(Hhd & k & HP & -> & _)].
      * exists old, new. auto.
      * assert (end_of w' = end_of w) as He.
        { cbn [step] in H. unfold process_messages in H. rewrite Hhd in H. cbn [negb] in H.
          destruct (process_loop fuel c coll beh 0 w) as [[w2 p]| | | |] eqn:E; try discriminate. cbn [bind] in H.
          assert (w2 = w') as <- by congruence. exact (process_loop_end _ _ _ Hb _ _ _ _ _ E). }
        destruct k as [k|]; [|exfalso; apply Hnt; reflexivity].
        assert (processed c coll beh h0 (S ++ received coll beh OpProcess w w') w') as HPr
          by (exists ops, S, rs, w, (Z.of_nat k mod 256); conj; auto; exists fuel; exact H).
        destruct (never_full_lemma c coll Hst Hsafe beh _ _ _ Ht HPr) as (HL & _).
        exists (zlen (held w')), 0. pose proof (zlen_nonneg (held w')).
        split; [lia|]. split; [lia|]. split; [lia|].
        destruct (Z.ltb_spec 0 (front_of w)); destruct (Z.ltb_spec 0 (front_of w')); lia.
Qed.

Lemma moves_lemma a m w : steady beh -> moving c coll beh careful h0 a m w -> m <= 2 * a.
Proof.
  intros Hb H. destruct (moving_budget _ _ _ Hb H) as ((ops & S & rs & HH) & old & new & Ho & Hn & Hh & HB).
  pose proof (history_sim c coll Hst Hsafe beh (steady_tame Hb) _ _ _ _ _ HH) as Hs. destruct (sim_ends _ Hs) as (F1 & _).
  pose proof (zlen_nonneg (held w)). destruct (0 <? front_of w); lia.
Qed.
End Total.

(** One call moves no more than what is held. *)
Lemma each_lemma c coll : static_ok coll = true -> index_safe c (capacity coll) ->
  forall beh h0, tame beh -> forall ops S rs w, history c coll beh (start coll h0) ops S rs w ->
  forall fuel o w' r, allowed coll o w -> step fuel c coll beh o w = Ok (w', r) ->
  moves (m_step fuel c coll beh o w) = 0 \/ moves (m_step fuel c coll beh o w) = zlen (held w) /\ held w <> []
    /\ match o with OpAppend _ | OpReceive _ => True | _ => False end.
Proof.
  intros Hst Hsafe beh h0 Ht ops S rs w HH fuel o w' r Ha H.
  pose proof (history_sim c coll Hst Hsafe beh Ht _ _ _ _ _ HH) as Hs.
  assert (forall n k d, gives coll n d w w' k -> k = 0 \/ k = zlen (held w) /\ held w <> []) as G.
  { intros n k d (_ & [(-> & _)|(-> & _)]); [left; reflexivity|].
    destruct (held w); [left; reflexivity|right]. split; [reflexivity|discriminate]. }
  destruct o as [h| |d|ad|]; try (left; reflexivity).
  - destruct (G _ _ _ (moves_append c coll Hst Hsafe beh d w w' r fuel Hs Ha H Ht)) as [->|(-> & Hx)]; auto.
  - destruct (G _ _ _ (moves_receive c coll Hst Hsafe beh ad w w' r fuel Hs Ha H Ht)) as [->|(-> & Hx)]; auto.
Qed.
