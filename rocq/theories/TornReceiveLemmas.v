(** receiveFrom interrupted by processMessages does what separate calls do. *)
From Verif Require Import ReceiverProofs FeedLemmas PolledSeparate TornAppendLemmas.
From Verif Require Export TornReceive.

(** The space is the same whenever it is asked for, as far as the bytes available go. *)
Lemma room_enough cap n size : cap_ok cap -> 0 <= n -> 0 <= size -> size + n <= cap ->
  Z.min n (to_sz cap (rb_max_size cap - to_sz cap size)) = n.
Proof.
  intros Hc Hn Hs Hf. unfold rb_max_size. rewrite (to_sz_small cap Hc cap) by lia. rewrite (to_sz_small cap Hc size) by lia.
  rewrite (to_sz_small cap Hc (cap - size)) by lia. lia.
Qed.

Lemma torn_receive_lemma c coll : static_ok coll = true -> index_safe c (capacity coll) ->
  forall beh h0 ops S rs w o a coming fuel, steady beh -> bool_free coll ->
  history c coll beh (start coll h0) ops S rs w ->
  adapter_ok a -> rb_pastEnd (er_buf (rx_recv (w_rx w))) + ad_available a mod 256 <= capacity coll ->
  (forall ms r, Scan coll (held w) ms r -> r <> [])
    \/ (held w <> [] /\ (count_occ Bool.bool_dec coming true <= 1)%nat)
    \/ rb_pastEnd (er_buf (rx_recv (w_rx w))) = 0 ->
  (Z.to_nat (capacity coll) < fuel)%nat ->
  exists w' d ps qs v, d = fst (ad_read a (ad_available a mod 256))
    /\ w_receive fuel o c coll beh a coming w = Ok (w', zlen d, ps ++ qs)
    /\ history c coll beh w (map (fun _ => OpProcess) ps ++ OpReceive a :: map (fun _ => OpProcess) qs) d
         (map RetProcess ps ++ RetCount (zlen d) :: map RetProcess qs) v
    /\ same_view coll w' v
    /\ (forall ops2 S2 rs2 w2, history c coll beh w' ops2 S2 rs2 w2 ->
          exists v2, history c coll beh v ops2 S2 rs2 v2 /\ same_view coll w2 v2)
    /\ (forall ops2 S2 rs2 v2, history c coll beh v ops2 S2 rs2 v2 ->
          exists w2, history c coll beh w' ops2 S2 rs2 w2 /\ same_view coll w2 v2).
Proof.
  intros Hst Hsafe beh h0 ops S rs w o a coming fuel Hb Hbf H HA Hr Ho Hfu.
  pose proof (steady_tame _ Hb) as Ht. pose proof (capacity_ok coll Hst) as Hcap.
  pose proof (history_sim c coll Hst Hsafe beh Ht _ _ _ _ _ H) as Hs.
  assert (forall w1 v1 s, sim coll w1 s -> sim coll v1 s -> same_view coll w1 v1) as Hsame.
  { intros w1 v1 s H1 H2. pose proof (view_of coll w1 s H1) as E. apply (same_view_sim coll Hst); rewrite E; assumption. }
  assert (forall w1 v1 s, sim coll w1 s -> sim coll v1 s -> forall ops2 S2 rs2 w2, history c coll beh w1 ops2 S2 rs2 w2 ->
     exists v2, history c coll beh v1 ops2 S2 rs2 v2 /\ same_view coll w2 v2) as Hfut.
  { intros w1 v1 s H1 H2 ops2 S2 rs2 w2 H3.
    destruct (history_transfer c coll Hst Hsafe c beh Ht eq_refl Hsafe _ _ _ _ _ _ _ H1 H2 H3) as (v2 & s2 & Hv2 & Q1 & Q2).
    exists v2. split; [assumption|]. eapply Hsame; eassumption. }
  set (A := ad_available a mod 256) in *. pose proof (Z.mod_pos_bound (ad_available a) 256 ltac:(lia)) as HAb. fold A in HAb.
  set (d := fst (ad_read a A)). destruct (HA A ltac:(lia)) as (Hd & Hdl & Hdr). fold d in Hd, Hdl, Hdr.
  (* the two reads of size() *)
  destruct (interrupt_spec c coll Hst Hsafe beh Hb Hbf fuel Hfu (hd false coming) w (view w) Hs)
    as (w1 & ps1 & s1 & E1 & Hs1 & En1 & Ar1 & Ea1 & No1 & Hi1).
  destruct (interrupt_spec c coll Hst Hsafe beh Hb Hbf fuel Hfu (hd false (tl coming)) w1 s1 Hs1)
    as (w2 & ps2 & s2 & E2 & Hs2 & En2 & Ar2 & Ea2 & No2 & Hi2).
  fold (end_of w) in Hr, Ho.
  assert (good coll (s_bytes s2) (tl (tl coming)) \/ end_of w2 = 0) as HG.
  { assert (good coll (s_bytes (view w)) coming \/ end_of w = 0) as [HG|HZ] by (unfold good; cbn [view s_bytes]; tauto).
    - left. apply (good_came coll [] (tl coming) w1 s1 w2 s2); [|unfold came; auto].
      apply (good_came coll [] coming w (view w) w1 s1); [assumption|unfold came; auto].
    - right. congruence. }
  destruct (sim_indices _ _ _ Hs) as (I1 & I2 & I3 & _). destruct (sim_indices _ _ _ Hs1) as (J1 & J2 & J3 & _).
  destruct (sim_indices _ _ _ Hs2) as (L1 & L2 & L3 & _).
  pose proof (zlen_nonneg (s_bytes s1)). pose proof (zlen_nonneg (s_bytes s2)). pose proof (zlen_nonneg d).
  destruct (before_append c coll Hst Hsafe beh Hb Hbf o fuel Hfu d Hd A Hdl (OpReceive a) (RetCount (zlen d)))
    with (coming := tl (tl coming)) (w := w2) (s := s2) as (w' & ps & qs & s' & E & Hs' & HV).
  { intros v s Hv Hf. destruct s as [X h last log]. cbn [s_bytes] in Hf.
    assert (fst (ad_read a (Z.min A (capacity coll - zlen X))) = d) as Ed by (rewrite Z.min_l by lia; reflexivity).
    destruct (step_history c coll Hst Hsafe beh Hb v (SState X h last log) (OpReceive a) d (SState (X ++ d) h last log) (RetCount (zlen d)) Hv HA)
      as (v2 & Hr2 & Hv2).
    { constructor. symmetry. exact Ed. }
    exists v2. split; [|exact Hv2].
    assert (received coll beh (OpReceive a) v v2 = d) as Er.
    { cbn [received]. rewrite (sim_available coll Hst _ _ Hv). exact Ed. }
    change [OpReceive a] with ([] ++ [OpReceive a]). change [RetCount (zlen d)] with ([] ++ [RetCount (zlen d)]).
    replace d with ([] ++ received coll beh (OpReceive a) v v2) at 1 by exact Er.
    eapply hist_snoc; [constructor | exact HA | exact Hr2]. }
  { exact Hs2. } { lia. } { exact HG. }
  destruct (Hi1 w Hs) as (v1 & K1 & K2). destruct (Hi2 v1 K2) as (v2 & K3 & K4). destruct (HV v2 K4) as (v & K5 & Hsv).
  exists w', d, ((ps1 ++ ps2) ++ ps), qs, v. split; [reflexivity|]. split; [|split; [|split; [|split]]].
  - unfold w_receive, w_read_size. rewrite E1. cbn [bind]. rewrite E2. cbn [bind].
    fold (end_of w1) (end_of w2) (front_of w1) (front_of w2).
    assert (adapter_available a = A) as -> by reflexivity.
    rewrite (room_enough (capacity coll) A) by (try assumption; destruct o; lia).
    unfold adapter_call. replace (trunc 8 A) with A by (unfold trunc; rewrite Z.mod_small; [reflexivity | change (2 ^ 8) with 256; lia]).
    assert (ad_read a A = (d, zlen d)) as -> by (rewrite <- Hdr; apply surjective_pairing).
    replace (to_sz (capacity coll) (trunc 8 (zlen d))) with (zlen d).
    2:{ unfold trunc. rewrite Z.mod_small by (change (2 ^ 8) with 256; lia). rewrite (to_sz_small _ Hcap) by lia. reflexivity. }
    unfold w_functor. rewrite E. cbn [bind]. rewrite app_assoc. reflexivity.
  - unfold procs, rets in *. rewrite !map_app, <- !app_assoc.
    exact (history_app c coll beh _ _ _ _ _ _ _ _ _ K1 (history_app c coll beh _ _ _ _ _ _ _ _ _ K3 K5)).
  - eapply Hsame; eassumption.
  - eapply Hfut; eassumption.
  - assert (forall u1 u2, same_view coll u1 u2 -> same_view coll u2 u1) as Hsym.
    { unfold same_view. intros u1 u2 (P1 & P2 & P3 & P4 & P5). auto. }
    intros ops2 S2 rs2 u2 Q. destruct (Hfut _ _ _ Hsv Hs' _ _ _ _ Q) as (u3 & Q1 & Q2). exists u3. auto.
Qed.

Lemma quiet_receive_lemma c coll : static_ok coll = true -> index_safe c (capacity coll) ->
  forall beh h0 ops S rs w o a fuel, tame beh -> history c coll beh (start coll h0) ops S rs w ->
  w_receive fuel o c coll beh a [] w = (do (r, n) <- rx_receive_from c coll a (w_rx w); Ok (World r (w_log w), n, [])).
Proof.
  intros Hst Hsafe beh h0 ops S rs w o a fuel Ht H.
  pose proof (history_sim c coll Hst Hsafe beh Ht _ _ _ _ _ H) as (R & _). set (X := s_bytes (view w)) in R.
  pose proof (capacity_ok coll Hst) as Hcap.
  unfold w_receive, w_read_size. cbn [hd tl w_interrupt bind app].
  assert (forall b, to_sz (capacity coll) (if o then rb_pastEnd b - rb_begin b else rb_pastEnd b - rb_begin b) = rb_size (capacity coll) b) as ->
    by (intros b; destruct o; reflexivity).
  unfold rx_receive_from, er_from_functor, rb_from_functor.
  set (n := Z.min _ _). unfold w_functor. destruct (adapter_call a n) as [data ret].
  rewrite (quiet_ensure c coll beh o fuel _ _ w X R).
  destruct (rb_ensure_space c (capacity coll) n _) as [b1| | | |] eqn:E; cbn [bind]; try reflexivity.
  pose proof (ensure_rep c (capacity coll) _ _ X b1 Hcap R E) as R1.
  rewrite (quiet_access c coll beh fuel _ _ _ _ (acc_pastEnd c coll beh fuel _)).
  set (w1 := w_set_buf b1 w). change (end_of w1) with (rb_pastEnd b1).
  destruct (rb_pastEnd b1 + zlen data <=? capacity coll) eqn:EF; [|reflexivity]. apply Z.leb_le in EF.
  destruct (rep_inv _ _ _ R1) as (I1 & I2 & I3).
  rewrite quiet_store by (change (array_of w1) with (rb_contents b1); lia).
  rewrite (quiet_access c coll beh fuel _ _ _ _ (acc_pastEnd c coll beh fuel _)).
  rewrite (quiet_access c coll beh fuel _ _ _ _ (acc_set_pastEnd c coll beh fuel _ _)).
  unfold w_verify, rb_verify.
  change (array_of w1) with (rb_contents b1). change (end_of (with_array _ w1)) with (rb_pastEnd b1).
  set (b2 := RBuf (rb_begin b1) (to_sz (capacity coll) (rb_pastEnd b1 + to_sz (capacity coll) ret)) (arr_write (rb_contents b1) (rb_pastEnd b1) data)).
  set (w2 := w_set_buf _ _).
  rewrite (quiet_assert c coll beh fuel _ _ w2 (rb_begin b2 <=? rb_pastEnd b2)).
  2:{ intros kt. rewrite quiet_both. reflexivity. }
  destruct (assert_ c (rb_begin b2 <=? rb_pastEnd b2)) as [[]| | | |]; cbn [bind]; try reflexivity.
  rewrite (quiet_assert c coll beh fuel _ _ w2 (rb_pastEnd b2 <=? capacity coll)).
  2:{ intros kt. rewrite (quiet_access c coll beh fuel _ _ _ _ (acc_pastEnd c coll beh fuel _)). reflexivity. }
  destruct (assert_ c (rb_pastEnd b2 <=? capacity coll)) as [[]| | | |]; cbn [bind]; reflexivity.
Qed.
