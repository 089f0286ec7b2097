(** Lemmas on ports that take only a part of a write, and on copies of the I2C transmitter. *)
From Verif Require Export SpecPort CopyLemmas.

Lemma taken_prefix n d : exists r, d = taken n d ++ r.
Proof. exists (skipn (Z.to_nat n) d). symmetry. apply firstn_skipn. Qed.
Lemma taken_all n d : zlen d <= n -> taken n d = d.
Proof. intros H. apply firstn_all2. unfold zlen in H. lia. Qed.

Lemma port_call {P} (p : port P) x s : run_call (port_tx p) x s
  = Ok (fst (p (fst s) (call_bytes x)), snd s ++ [taken (snd (p (fst s) (call_bytes x))) (call_bytes x)]).
Proof. destruct x; cbn; unfold port_write; destruct (p (fst s) _); reflexivity. Qed.

Lemma port_calls {P} (p : port P) l : forall q bl,
  exists q' news, run_calls (port_tx p) l (q, bl) = Ok (q', bl ++ news) /\ Takes p q (map call_bytes l) q' news.
Proof.
  induction l as [|x l IH]; intros q bl; cbn [run_calls].
  - exists q, []. rewrite app_nil_r. split; [reflexivity | constructor].
  - rewrite port_call. cbn [bind fst snd]. edestruct (IH (fst (p q (call_bytes x)))) as (q' & news & E & H).
    exists q', (taken (snd (p q (call_bytes x))) (call_bytes x) :: news). rewrite E, <- app_assoc.
    split; [reflexivity|]. cbn [map]. econstructor; [apply surjective_pairing | exact H].
Qed.
Lemma takes_each {P} (p : port P) ds : forall q q' news, Takes p q ds q' news ->
  Forall2 (fun b d => exists q0, d = taken (snd (p q0 b)) b) ds news.
Proof.
  intros q q' news H. induction H as [|q d q1 n ds q' ts E H IH]; constructor; [|exact IH].
  exists q. rewrite E. reflexivity.
Qed.
Lemma takes_calls {P} (p : port P) l q q' news : Takes p q (map call_bytes l) q' news ->
  Forall2 (fun x d => exists q0, d = taken (snd (p q0 (call_bytes x))) (call_bytes x)) l news.
Proof.
  intros H. apply takes_each in H. remember (map call_bytes l) as ds eqn:E. revert l E.
  induction H as [|b d ds news (q0 & ->) H IH]; intros [|x l] E; try discriminate; [constructor|].
  injection E as -> ->. constructor; [eauto | apply IH; reflexivity].
Qed.

Lemma pieces {P} (p : port P) l news :
  Forall2 (fun x d => exists q0, d = taken (snd (p q0 (call_bytes x))) (call_bytes x)) l news ->
  (length (concat news) <= length (calls_bytes l))%nat
  /\ (length (concat news) = length (calls_bytes l) -> news = map call_bytes l).
Proof.
  intros H. induction H as [|x d l news (q & ->) H (IH1 & IH2)]; [split; [reflexivity | reflexivity]|].
  change (calls_bytes (x :: l)) with (call_bytes x ++ calls_bytes l). cbn [concat map]. rewrite !app_length.
  set (n := snd (p q (call_bytes x))) in *. unfold taken. rewrite firstn_length.
  split; [lia|]. intros E. rewrite IH2 by lia. f_equal. apply firstn_all2. lia.
Qed.

(** C78 *)
Lemma port_send_lemma P (p : port P) c coll m vs : static_ok coll = true -> In m (mc_types coll) ->
  has_types vs (mt_fields m) = true ->
  exists calls, is_message_frame c coll m vs (calls_bytes calls)
    /\ forall q bl, exists q' news,
         send c coll m (port_tx p) (combine (mt_fields m) vs) (q, bl) = Ok (q', bl ++ news)
         /\ Takes p q (map call_bytes calls) q' news
         /\ (news = map call_bytes calls \/ (length (concat news) < length (calls_bytes calls))%nat).
Proof.
  intros Hst Hin Hty. destruct (send_spec c coll m vs Hst Hin Hty) as (calls & HF & H).
  exists calls. split; [exact HF|]. intros q bl. destruct (port_calls p calls q bl) as (q' & news & E & HP).
  exists q', news. rewrite H, E. split; [reflexivity|]. split; [exact HP|].
  destruct (pieces p _ _ (takes_calls _ _ _ _ _ HP)) as (A & B).
  destruct (Nat.eq_dec (length (concat news)) (length (calls_bytes calls))); [left; auto | right; lia].
Qed.

Lemma port_full_lemma P (p : port P) c coll : (forall q d, zlen d <= snd (p q d)) -> static_ok coll = true ->
  forall msgs, Forall (sendable coll) msgs -> forall q bl,
  exists fs q' news, Forall2 (fun mv f => is_message_frame c coll (fst mv) (snd mv) f) msgs fs
    /\ send_all c coll (port_tx p) msgs (q, bl) = Ok (q', bl ++ news) /\ concat news = concat fs.
Proof.
  intros Hp Hst msgs H. induction H as [|[m vs] msgs [Hin Hty] HM IH]; intros q bl.
  - exists [], q, []. split; [constructor|]. rewrite app_nil_r. split; reflexivity.
  - cbn [fst snd] in *. destruct (port_send_lemma P p c coll m vs Hst Hin Hty) as (calls & HF & HS).
    destruct (HS q bl) as (q1 & news & E & HP & _). destruct (IH q1 (bl ++ news)) as (fs & q2 & news2 & F & E2 & C).
    exists (calls_bytes calls :: fs), q2, (news ++ news2). split; [constructor; assumption|].
    cbn [send_all]. rewrite E. cbn [bind]. rewrite E2, app_assoc. split; [reflexivity|].
    rewrite concat_app, C. cbn [concat]. f_equal. apply takes_calls in HP. clear - HP Hp.
    induction HP as [|x d l news (q & ->) HP IH]; [reflexivity|].
    change (calls_bytes (x :: l)) with (call_bytes x ++ calls_bytes l). cbn [concat]. rewrite IH, taken_all by apply Hp.
    reflexivity.
Qed.

(** A port taking one byte of each write. *)
Lemma short_write_lemma c coll m vs : static_ok coll = true -> In m (mc_types coll) ->
  has_types vs (mt_fields m) = true -> (exists t, In t (mt_fields m) /\ (1 < fsize t)%nat) ->
  exists f news, is_message_frame c coll m vs f
    /\ send c coll m (port_tx (fun (q : unit) (d : list Z) => (q, 1))) (combine (mt_fields m) vs) (tt, []) = Ok (tt, news)
    /\ concat news <> f /\ (length (concat news) < length f)%nat.
Proof.
  intros Hst Hin Hty (t & Ht & Hs).
  destruct (exact_calls_lemma c coll m vs Hst Hin Hty) as (id & tail & HF & _ & H).
  set (calls := map CByte [1; id; 2] ++ map (spec_field_call (little c)) (combine (mt_fields m) vs) ++ map CByte tail) in *.
  set (p := fun (q : unit) (d : list Z) => (q, 1)).
  destruct (port_calls p calls tt []) as ([] & news & E & HP).
  exists ([1; id; 2] ++ spec_payload (little c) (mt_fields m) vs ++ tail), news. split; [exact HF|].
  rewrite H, E. split; [reflexivity|].
  assert (calls_bytes calls = [1; id; 2] ++ spec_payload (little c) (mt_fields m) vs ++ tail) as EB.
  { unfold calls. rewrite !calls_bytes_app, !calls_bytes_map_byte. do 2 f_equal.
    rewrite <- (tuple_calls_bytes c) by exact Hty. f_equal. unfold tuple_calls. clear - Hty. revert vs Hty.
    induction (mt_fields m) as [|ty ts IH]; intros [|v vs] H; simpl in H; try discriminate; [reflexivity|].
    apply andb_true_iff in H as [H1 H2]. cbn [combine map]. rewrite spec_field_call_eq, IH by assumption. reflexivity. }
  apply takes_calls in HP. rewrite <- EB. destruct (pieces p _ _ HP) as (A & B).
  assert (length (concat news) <> length (calls_bytes calls)) as HN.
  { intros EL. specialize (B EL).
    assert (exists x, In x calls /\ (1 < length (call_bytes x))%nat) as (x & Hx & Hl).
    { unfold calls. clear - Hty Ht Hs.
      assert (exists x, In x (map (spec_field_call (little c)) (combine (mt_fields m) vs)) /\ (1 < length (call_bytes x))%nat)
        as (x & Hx & Hl); [|exists x; rewrite !in_app_iff; auto].
      revert vs Hty Ht. induction (mt_fields m) as [|ty ts IH]; intros [|v vs] Hty Ht; cbn in Hty; try discriminate; [destruct Ht|].
      apply andb_true_iff in Hty as [H1 H2]. destruct Ht as [->|Ht].
      - exists (spec_field_call (little c) (t, v)). split; [left; reflexivity|].
        rewrite <- spec_field_call_eq, field_call_bytes by assumption. rewrite <- encode_spec, (encode_length c t v H1). exact Hs.
      - destruct (IH vs H2 Ht) as (x & Hx & Hl). exists x. split; [right; exact Hx | exact Hl]. }
    assert (In (call_bytes x) news) as Hi by (rewrite B; apply in_map, Hx).
    clear - Hi Hl HP. induction HP as [|y d l news (q & ->) HP IH]; [destruct Hi|].
    destruct Hi as [E|Hi]; [|auto]. apply (f_equal (@length Z)) in E. cbn [p snd] in E.
    unfold taken in E. rewrite firstn_length in E. lia. }
  split; [|lia]. intros E'. apply HN. rewrite E'. reflexivity.
Qed.

(** The I2C transmitter. *)
Lemma i2c_port_calls {P} (p : port P) l : forall q s,
  run_calls (i2c_port_tx p) l (q, s) = do s' <- run_calls i2c_tx l s; Ok (q, s').
Proof.
  induction l as [|x l IH]; intros q s; [reflexivity|]. cbn [run_calls].
  replace (run_call (i2c_port_tx p) x (q, s)) with (do s1 <- run_call i2c_tx x s; Ok (q, s1)).
  - rewrite !bind_assoc. apply bind_ext. intros s1. cbn [bind]. apply IH.
  - destruct x; cbn [run_call tx_byte tx_block i2c_port_tx i2c_tx fst snd]; rewrite bind_assoc; reflexivity.
Qed.

Lemma i2c_port_lemma P (p : port P) c coll msgs : static_ok coll = true ->
  Forall (fun mv => sendable coll mv /\ sizeof_bound coll (fst mv) <= 255) msgs -> forall q s, i2c_idle s ->
  exists fs news q' s', Forall2 (fun mv f => is_message_frame c coll (fst mv) (snd mv) f) msgs fs
    /\ send_all c coll (i2c_port_tx p) msgs (q, s) = Ok (q', s') /\ i2c_idle s' /\ i2c_bus s' = i2c_bus s ++ news
    /\ Takes p q fs q' news.
Proof.
  intros Hst H. induction H as [|[m vs] msgs [[Hin Hty] Hsz] HF IH]; intros q s Hid.
  - exists [], [], q, s. split; [constructor|]. rewrite app_nil_r. split; [reflexivity|]. split; [exact Hid|]. split; [reflexivity | constructor].
  - cbn [fst snd] in *. destruct (send_spec c coll m vs Hst Hin Hty) as (calls & Hf & H).
    pose proof (message_frame_length c coll m vs _ Hty Hf) as HL. rewrite sizeof_bound_spec in *.
    pose proof (i2c_idle_it s Hid) as H0. pose proof Hid as (Hok & HC).
    destruct (i2c_calls_ok calls s Hok) as (s1 & H1 & H2 & H3 & H4 & H5).
    { change i2c_bufsize with 255. unfold zlen. lia. }
    rewrite HC in H4. cbn [app] in H4.
    set (s2 := I2C (abuf_reset (i2c_buf s1)) (i2c_bus s1 ++ [taken (snd (p q (calls_bytes calls))) (calls_bytes calls)])).
    assert (i2c_idle s2) as Hid2 by (split; [apply abuf_reset_ok, H2 | apply abuf_content_start; reflexivity]).
    destruct (IH (fst (p q (calls_bytes calls))) s2 Hid2) as (fs & news & q' & s' & A1 & A2 & A3 & A4 & A5).
    exists (calls_bytes calls :: fs), (taken (snd (p q (calls_bytes calls))) (calls_bytes calls) :: news), q', s'.
    split; [constructor; assumption|]. split; [|split; [exact A3|split]].
    + cbn [send_all]. rewrite H, i2c_port_calls, H1. cbn [bind tx_finished i2c_port_tx fst snd]. rewrite H4.
      destruct (p q (calls_bytes calls)) as [q1 n] eqn:Ep. cbn [bind fst snd] in *. exact A2.
    + rewrite A4. unfold s2. cbn [i2c_bus]. rewrite H5, <- app_assoc. reflexivity.
    + econstructor; [apply surjective_pairing | exact A5].
Qed.

(** A bus whose buffer has [k] bytes, empty at each write. *)
Lemma i2c_buffer_lemma k c coll msgs : static_ok coll = true ->
  Forall (fun mv => sendable coll mv /\ sizeof_bound coll (fst mv) <= 255) msgs ->
  exists fs s', Forall2 (fun mv f => is_message_frame c coll (fst mv) (snd mv) f) msgs fs
    /\ send_all c coll (i2c_port_tx (fun (q : unit) (d : list Z) => (q, Z.min k (zlen d)))) msgs (tt, i2c_init) = Ok (tt, s')
    /\ i2c_bus s' = map (firstn (Z.to_nat k)) fs.
Proof.
  intros Hst HM. destruct (i2c_port_lemma unit (fun q d => (q, Z.min k (zlen d))) c coll msgs Hst HM tt i2c_init i2c_init_idle)
    as (fs & news & [] & s' & A1 & A2 & _ & A4 & A5).
  exists fs, s'. split; [exact A1|]. split; [exact A2|]. rewrite A4. cbn [app i2c_bus i2c_init]. apply takes_each in A5. clear - A5.
  induction A5 as [|f d fs news (q & ->) H IH]; [reflexivity|]. cbn [map snd]. rewrite IH. f_equal. unfold taken, zlen.
  destruct (Z.le_ge_cases k (Z.of_nat (length f))).
  - rewrite Z.min_l by assumption. reflexivity.
  - rewrite Z.min_r, Nat2Z.id, firstn_all by assumption. symmetry. apply firstn_all2. lia.
Qed.

(** ** Copies of the I2C transmitter *)
Lemma is_calls i l : forall s,
  run_calls (is_tx i) l s = do h <- run_calls (as_tx i2c_bufsize i) l (is_bufs s); Ok (I2Cs h (is_bus s)).
Proof.
  induction l as [|x l IH]; intros s; [destruct s; reflexivity|]. cbn [run_calls].
  replace (run_call (is_tx i) x s) with (do h <- run_call (as_tx i2c_bufsize i) x (is_bufs s); Ok (I2Cs h (is_bus s))).
  - rewrite !bind_assoc. apply bind_ext. intros h. cbn [bind]. rewrite IH. reflexivity.
  - destruct x; reflexivity.
Qed.

Lemma is_copy_lemma c coll m vs s i off :
  static_ok coll = true -> In m (mc_types coll) -> has_types vs (mt_fields m) = true ->
  as_ok i2c_bufsize (is_bufs s) -> (i < length (as_arrays (is_bufs s)))%nat -> nth_it i (is_bufs s) = (i, off) ->
  send c coll m (is_tx (length (as_arrays (is_bufs s)))) (combine (mt_fields m) vs) (is_copy i s) = UB.
Proof.
  intros Hst Hin Hty Hok Hi Hit. destruct (send_spec c coll m vs Hst Hin Hty) as (calls & _ & H). rewrite H.
  destruct s as [h bus]. cbn [is_bufs] in *. set (j := length (as_arrays h)).
  destruct (as_copy_its h i (proj1 Hok) Hi) as (C1 & C2 & C3). destruct (C3 i Hi) as (C4 & C5).
  pose proof (as_copy_ok _ _ _ Hok Hi) as Hok'.
  rewrite is_calls. cbn [is_bufs is_copy is_bus].
  rewrite (as_calls i2c_bufsize j i calls (as_copy i h) off); [| | |unfold j; congruence].
  2:{ unfold as_copy. cbn [as_its]. rewrite app_length. cbn [length]. destruct Hok as (-> & _). unfold j. lia. }
  2:{ unfold as_copy. cbn [as_arrays]. rewrite app_length. cbn [length]. lia. }
  assert (i < length (as_arrays (as_copy i h)))%nat as Hi'.
  { unfold as_copy. cbn [as_arrays]. rewrite app_length. cbn [length]. lia. }
  destruct (as_ok_nth _ _ _ Hok' Hi') as (B1 & _ & B3). rewrite C4, Hit in B3. cbn [snd] in B3.
  assert (abuf_ok i2c_bufsize (ABuf (nth_array i (as_copy i h)) off)) as Hab by (split; assumption).
  destruct (Z_le_gt_dec (off + zlen (calls_bytes calls)) i2c_bufsize) as [Hf|Hf].
  - destruct (abuf_calls_ok i2c_bufsize calls _ Hab Hf) as (b & -> & _). cbn [bind tx_finished is_tx is_bufs is_bus].
    unfold as_content, as_put, nth_it. cbn [as_its]. rewrite set_nth_eq.
    2:{ unfold as_copy. cbn [as_its]. rewrite app_length. cbn [length]. destruct Hok as (-> & _). unfold j. lia. }
    destruct (Nat.eqb_spec i j); [unfold j in *; lia | reflexivity].
  - rewrite (abuf_calls_ub i2c_bufsize calls _ Hab) by (cbn [ab_it]; lia). reflexivity.
Qed.

Lemma is_send_lemma c coll m vs s i :
  static_ok coll = true -> In m (mc_types coll) -> has_types vs (mt_fields m) = true ->
  as_ok i2c_bufsize (is_bufs s) -> (i < length (as_arrays (is_bufs s)))%nat -> nth_it i (is_bufs s) = (i, 0) ->
  sizeof_bound coll m <= 255 ->
  exists f s', is_message_frame c coll m vs f
    /\ send c coll m (is_tx i) (combine (mt_fields m) vs) s = Ok s'
    /\ is_bus s' = is_bus s ++ [f] /\ nth_it i (is_bufs s') = (i, 0)
    /\ length (as_arrays (is_bufs s')) = length (as_arrays (is_bufs s)) /\ as_ok i2c_bufsize (is_bufs s').
Proof.
  intros Hst Hin Hty Hok Hi Hit Hfit.
  destruct (as_send_lemma i2c_bufsize c coll m vs (is_bufs s) i i 0 Hst Hin Hty Hok Hi Hit ltac:(exact Hfit))
    as (f & h' & F1 & F2 & F3 & F4 & F5 & F6 & F7 & F8).
  destruct (send_spec c coll m vs Hst Hin Hty) as (calls & _ & H).
  rewrite H in F2. cbn [tx_finished as_tx] in F2. unfold finished_fallback in F2. rewrite bind_ret in F2.
  exists f, (I2Cs (as_reset i h') (is_bus s ++ [f])). split; [exact F1|]. split; [|split; [reflexivity|split; [|split; [exact F7|]]]].
  - rewrite H, is_calls, F2. cbn [bind tx_finished is_tx is_bufs is_bus]. unfold as_content. rewrite F3, Nat.eqb_refl.
    rewrite F4. reflexivity.
  - cbn [is_bufs]. unfold nth_it, as_reset. cbn [as_its]. apply set_nth_eq. destruct F8 as (-> & _). lia.
  - destruct F8 as (G1 & G2 & G3). unfold as_reset. cbn [is_bufs]. split; [|split]; cbn [as_its as_arrays].
    + rewrite set_nth_length. exact G1.
    + exact G2.
    + apply set_nth_Forall; [exact G3|]. cbn [fst snd]. split; [lia | unfold i2c_bufsize; lia].
Qed.

Lemma is_sends_lemma c coll i msgs : static_ok coll = true ->
  Forall (fun mv => sendable coll mv /\ sizeof_bound coll (fst mv) <= 255) msgs -> forall s,
  as_ok i2c_bufsize (is_bufs s) -> (i < length (as_arrays (is_bufs s)))%nat -> nth_it i (is_bufs s) = (i, 0) ->
  exists fs s', Forall2 (fun mv f => is_message_frame c coll (fst mv) (snd mv) f) msgs fs
    /\ send_all c coll (is_tx i) msgs s = Ok s' /\ is_bus s' = is_bus s ++ fs.
Proof.
  intros Hst H. induction H as [|[m vs] msgs [[Hin Hty] Hsz] HF IH]; intros s Hok Hi Hit.
  - exists [], s. split; [constructor|]. split; [reflexivity | symmetry; apply app_nil_r].
  - cbn [fst snd] in *. destruct (is_send_lemma c coll m vs s i Hst Hin Hty Hok Hi Hit Hsz)
      as (f & s1 & A1 & A2 & A3 & A4 & A5 & A6).
    destruct (IH s1 A6) as (fs & s2 & B1 & B2 & B3); [lia | assumption|].
    exists (f :: fs), s2. split; [constructor; assumption|]. cbn [send_all]. rewrite A2. cbn [bind]. rewrite B2.
    split; [reflexivity|]. rewrite B3, A3, <- app_assoc. reflexivity.
Qed.

Lemma is_copy_original c coll msgs s i : static_ok coll = true ->
  Forall (fun mv => sendable coll mv /\ sizeof_bound coll (fst mv) <= 255) msgs ->
  as_ok i2c_bufsize (is_bufs s) -> (i < length (as_arrays (is_bufs s)))%nat -> nth_it i (is_bufs s) = (i, 0) ->
  exists fs s', Forall2 (fun mv f => is_message_frame c coll (fst mv) (snd mv) f) msgs fs
    /\ send_all c coll (is_tx i) msgs (is_copy i s) = Ok s' /\ is_bus s' = is_bus s ++ fs.
Proof.
  intros Hst HM Hok Hi Hit.
  destruct (as_copy_its (is_bufs s) i (proj1 Hok) Hi) as (_ & _ & C3). destruct (C3 i Hi) as (C4 & _).
  apply (is_sends_lemma c coll i msgs Hst HM (is_copy i s)).
  - apply as_copy_ok; assumption.
  - unfold is_copy, as_copy. cbn [is_bufs as_arrays]. rewrite app_length. cbn [length]. lia.
  - unfold is_copy. cbn [is_bufs]. congruence.
Qed.
