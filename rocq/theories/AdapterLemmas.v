(** Lemmas about receive adapters whose port reports a read error. *)
From Verif Require Export OperationLemmas.

Section Adapters.
Context (c : config) (coll : collection).
Hypothesis Hst : static_ok coll = true.
Hypothesis Hsafe : index_safe c (capacity coll).
Let cap := capacity coll.
Let Hcap : cap_ok cap := capacity_ok coll Hst.

(** receiveFrom with the adapter of a port that stores nothing and reports -1. *)
Lemma error_read read w s : (forall n, read n = ([], -1)) -> sim coll w s ->
  exists b1, rep cap b1 (s_bytes s) /\ rb_pastEnd b1 + Z.min 255 (cap - zlen (s_bytes s)) <= cap
    /\ rx_receive_from c coll (vrpn_adapter read) (w_rx w)
       = do _ <- rb_verify c cap (RBuf (rb_begin b1) (to_sz cap (rb_pastEnd b1 + 255)) (rb_contents b1));
         Ok (Receiver (ERB (er_id (rx_recv (w_rx w))) (RBuf (rb_begin b1) (to_sz cap (rb_pastEnd b1 + 255)) (rb_contents b1)))
                      (rx_invoker (w_rx w)) (rx_functor (w_rx w)) (rx_last (w_rx w)), 255).
Proof.
  intros Hr (R & HB & Hf & Hi & Hl & Hlog).
  pose proof (rep_size_le _ _ _ R) as H1. pose proof (zlen_nonneg (s_bytes s)) as H2. unfold cap_ok in Hcap.
  destruct (rep_ensure_space c cap Hcap Hsafe (er_buf (rx_recv (w_rx w))) (s_bytes s)
              (Z.min 255 (cap - zlen (s_bytes s))) R) as (b1 & E & R1 & H3).
  { fold cap in H1. lia. } { fold cap in H1. lia. }
  exists b1. split; [assumption|]. split; [assumption|].
  unfold rx_receive_from, er_from_functor, rb_from_functor. fold cap.
  rewrite (rep_size _ Hcap _ _ R), (max_size_cap _ Hcap). fold cap in H1. rewrite (to_sz_small _ Hcap) by lia.
  change (adapter_available (vrpn_adapter read)) with 255. rewrite E. cbn [bind].
  unfold adapter_call, vrpn_adapter. cbn [ad_read]. rewrite Hr.
  assert (rb_pastEnd b1 + zlen (@nil Z) <= cap) as H4.
  { change (zlen (@nil Z)) with 0. destruct (rep_inv _ _ _ R1) as (I1 & I2 & _). lia. }
  rewrite (proj2 (Z.leb_le _ _) H4).
  assert (trunc 8 (trunc 8 (-1)) = 255) as -> by reflexivity.
  assert (to_sz cap 255 = 255) as ->.
  { unfold to_sz. apply trunc_small. unfold size_bits, uint_least_bits. repeat destruct (_ <? _); split; reflexivity || discriminate. }
  assert (arr_write (rb_contents b1) (rb_pastEnd b1) [] = rb_contents b1) as ->.
  { unfold arr_write. cbn [app length]. rewrite Nat.add_0_r. apply firstn_skipn. }
  destruct (rb_verify _ _ _); reflexivity.
Qed.

(** A read error on a receiver with 8-bit sizes drops the last byte received ... *)
Lemma error_drops beh h0 ops S rs w X x read fuel : tame beh -> history c coll beh (start coll h0) ops S rs w ->
  (forall n, read n = ([], -1)) -> capacity coll < 256 -> held w = X ++ [x] ->
  exists w', step fuel c coll beh (OpReceive (vrpn_adapter read)) w = Ok (w', RetCount 255)
    /\ held w' = X /\ w_log w' = w_log w.
Proof.
  intros Ht H Hr H256 HX. pose proof (history_sim c coll Hst Hsafe beh Ht _ _ _ _ _ H) as Hs.
  destruct (error_read read w _ Hr Hs) as (b1 & R & _ & E). cbn [view s_bytes] in R. rewrite HX in R.
  pose proof R as (A & B & HC & Hb & Hp & Hl). fold cap in H256. unfold cap_ok in Hcap.
  pose proof (zlen_nonneg A). pose proof (zlen_nonneg B). pose proof (zlen_nonneg X).
  assert (zlen A + zlen X + 1 + zlen B = cap) as HL.
  { rewrite <- Hl, zlen_app. change (zlen [x]) with 1. lia. }
  rewrite zlen_app in Hp. change (zlen [x]) with 1 in Hp.
  assert (to_sz cap (rb_pastEnd b1 + 255) = rb_pastEnd b1 - 1) as Ee.
  { unfold to_sz, trunc, size_bits, uint_least_bits. change (2 ^ 8) with 256. rewrite (proj2 (Z.ltb_lt cap 256) H256).
    change (2 ^ 8) with 256. replace (rb_pastEnd b1 + 255) with (rb_pastEnd b1 - 1 + 1 * 256) by ring.
    rewrite Z.mod_add by discriminate. apply Z.mod_small. lia. }
  rewrite Ee in E.
  assert (rep cap (RBuf (rb_begin b1) (rb_pastEnd b1 - 1) (rb_contents b1)) X) as R'.
  { exists A, ([x] ++ B). cbn [rb_begin rb_pastEnd rb_contents]. change (zlen ([x] ++ B)) with (zlen (x :: B)). rewrite zlen_cons. conj; auto; [rewrite HC, <- !app_assoc; reflexivity | lia | lia]. }
  rewrite (rep_verify c cap _ X R') in E. cbn [bind] in E.
  cbn [step]. rewrite E. cbn [bind]. eexists. split; [reflexivity|]. split; [|reflexivity].
  unfold held. cbn. apply (rep_bytes _ _ _ R').
Qed.

(** ... fails an assertion when it had none ... *)
Lemma error_asserts beh h0 ops S rs w read fuel : tame beh -> history c coll beh (start coll h0) ops S rs w ->
  (forall n, read n = ([], -1)) -> capacity coll < 255 -> held w = [] -> aborts c = true ->
  step fuel c coll beh (OpReceive (vrpn_adapter read)) w = AssertFail.
Proof.
  intros Ht H Hr H255 HX Ha. pose proof (history_sim c coll Hst Hsafe beh Ht _ _ _ _ _ H) as Hs.
  destruct (error_read read w _ Hr Hs) as (b1 & R & Hroom & E). cbn [view s_bytes] in R, Hroom. rewrite HX in R, Hroom.
  pose proof (rep_inv _ _ _ R) as (I1 & I2 & _). change (zlen (@nil Z)) with 0 in Hroom. fold cap in H255. unfold cap_ok in Hcap.
  assert (rb_pastEnd b1 = 0) as Hp by lia. assert (rb_begin b1 = 0) as Hb by lia.
  assert (to_sz cap (rb_pastEnd b1 + 255) = 255) as Ee.
  { rewrite Hp. unfold to_sz, trunc, size_bits, uint_least_bits. change (2 ^ 8) with 256. rewrite (proj2 (Z.ltb_lt cap 256)) by lia. reflexivity. }
  rewrite Ee, Hb in E. cbn [step]. rewrite E. unfold rb_verify. cbn [rb_begin rb_pastEnd].
  assert (255 <=? cap = false) as -> by (apply Z.leb_gt; lia). unfold assert_. rewrite Ha. reflexivity.
Qed.

(** ... and elsewhere makes 255 bytes of old array content appear as received. *)
Lemma error_invents beh h0 ops S rs w read fuel : tame beh -> history c coll beh (start coll h0) ops S rs w ->
  (forall n, read n = ([], -1)) -> 255 <= rx_available coll (w_rx w) ->
  exists w' d, step fuel c coll beh (OpReceive (vrpn_adapter read)) w = Ok (w', RetCount 255)
    /\ held w' = held w ++ d /\ zlen d = 255 /\ w_log w' = w_log w.
Proof.
  intros Ht H Hr H255. pose proof (history_sim c coll Hst Hsafe beh Ht _ _ _ _ _ H) as Hs.
  rewrite (sim_available coll Hst _ _ Hs) in H255.
  destruct (error_read read w _ Hr Hs) as (b1 & R & Hroom & E). cbn [view s_bytes] in R, Hroom, H255. unfold cap in Hroom.
  rewrite Z.min_l in Hroom by lia. pose proof R as (A & B & HC & Hb & Hp & Hl). unfold cap_ok in Hcap.
  pose proof (zlen_nonneg A). pose proof (zlen_nonneg (held w)).
  assert (zlen A + zlen (held w) + zlen B = cap) as HL by exact Hl.
  rewrite (to_sz_small _ Hcap) in E by (unfold cap in *; lia).
  set (d := firstn 255 B). assert (zlen d = 255) as Hd.
  { unfold d, zlen. rewrite firstn_length. unfold zlen, cap in *. lia. }
  assert (rep cap (RBuf (rb_begin b1) (rb_pastEnd b1 + 255) (rb_contents b1)) (held w ++ d)) as R'.
  { exists A, (skipn 255 B). cbn [rb_begin rb_pastEnd rb_contents]. rewrite zlen_app. conj; auto.
    - rewrite HC. unfold d. rewrite <- !app_assoc, firstn_skipn. reflexivity.
    - lia.
    - unfold zlen in *. rewrite skipn_length. lia. }
  rewrite (rep_verify c cap _ _ R') in E. cbn [bind] in E.
  cbn [step]. rewrite E. cbn [bind]. eexists. exists d. split; [reflexivity|]. split; [|auto].
  unfold held at 1. cbn. apply (rep_bytes _ _ _ R').
Qed.

(** With less room than that the end of the content becomes (size + 255) modulo the size type's range: bytes held are
    lost, or the content is made to end outside of the array. *)
Lemma error_overruns beh h0 ops S rs w read fuel bits : tame beh -> history c coll beh (start coll h0) ops S rs w ->
  (forall n, read n = ([], -1)) -> size_type (capacity coll) bits -> rx_available coll (w_rx w) < 255 ->
  let e := (zlen (held w) + 255) mod 2 ^ bits in
  if e <=? capacity coll
  then e < zlen (held w)
       /\ exists w', step fuel c coll beh (OpReceive (vrpn_adapter read)) w = Ok (w', RetCount 255)
            /\ held w' = firstn (Z.to_nat e) (held w) /\ w_log w' = w_log w
  else if aborts c then step fuel c coll beh (OpReceive (vrpn_adapter read)) w = AssertFail
  else exists w', step fuel c coll beh (OpReceive (vrpn_adapter read)) w = Ok (w', RetCount 255)
         /\ capacity coll < rb_pastEnd (er_buf (rx_recv (w_rx w'))).
Proof.
  intros Ht H Hr Hbits Hcase e. pose proof (history_sim c coll Hst Hsafe beh Ht _ _ _ _ _ H) as Hs.
  rewrite (sim_available coll Hst _ _ Hs) in Hcase.
  destruct (error_read read w _ Hr Hs) as (b1 & R & Hroom & E). cbn [view s_bytes] in R, Hroom, Hcase.
  fold cap in Hcase. rewrite Z.min_r in Hroom by lia. unfold cap_ok in Hcap.
  pose proof R as (A & B & HC & Hb & Hp & Hl). pose proof (zlen_nonneg A). pose proof (zlen_nonneg B).
  assert (zlen A + zlen (held w) + zlen B = cap) as HL by exact Hl.
  assert (zlen A = 0) as HA by lia. assert (rb_pastEnd b1 = zlen (held w)) as Hpe by lia. assert (rb_begin b1 = 0) as Hbe by lia.
  assert (to_sz cap (rb_pastEnd b1 + 255) = e) as Ee.
  { unfold to_sz, trunc, e. rewrite (size_type_bits _ _ Hcap Hbits), Hpe. reflexivity. }
  rewrite Ee, Hbe in E. fold cap. cbn [step]. rewrite E. unfold rb_verify. cbn [rb_begin rb_pastEnd].
  assert (0 < 2 ^ bits) as H2. { destruct Hbits as (Hin & _). cbn in Hin. intuition subst; reflexivity. }
  assert (0 <= e) as He by (apply Z.mod_pos_bound; exact H2).
  rewrite (proj2 (Z.leb_le 0 e) He).
  destruct (e <=? cap) eqn:Hec.
  - apply Z.leb_le in Hec.
    assert (e < zlen (held w)) as Hlt.
    { destruct (Z_lt_ge_dec (zlen (held w) + 255) (2 ^ bits)) as [Hs1|Hs1].
      - unfold e in Hec. rewrite Z.mod_small in Hec by (pose proof (zlen_nonneg (held w)); lia). lia.
      - assert (256 <= 2 ^ bits). { destruct Hbits as (Hin & _). cbn in Hin. intuition subst; vm_compute; discriminate. }
        unfold e. replace (zlen (held w) + 255) with (zlen (held w) + 255 - 2 ^ bits + 1 * 2 ^ bits) by ring.
        rewrite Z.mod_add by lia. rewrite Z.mod_small; [lia|].
        assert (cap < 2 ^ bits) by (destruct Hbits as (_ & Hc & _); exact Hc). lia. }
    assert (A = []) as HA0 by (destruct A; [reflexivity|rewrite zlen_cons in HA; pose proof (zlen_nonneg A); lia]).
    assert (zlen (firstn (Z.to_nat e) (held w)) = e) as Hfe.
    { unfold zlen in *. rewrite firstn_length. lia. }
    assert (zlen (skipn (Z.to_nat e) (held w)) = zlen (held w) - e) as Hse.
    { unfold zlen in *. rewrite skipn_length. lia. }
    assert (rep cap (RBuf 0 e (rb_contents b1)) (firstn (Z.to_nat e) (held w))) as R'.
    { exists [], (skipn (Z.to_nat e) (held w) ++ B). cbn [rb_begin rb_pastEnd rb_contents].
      rewrite zlen_app, Hfe, Hse. change (zlen (@nil Z)) with 0. conj; try lia.
      rewrite HC, HA0. cbn [app]. rewrite app_assoc, firstn_skipn. reflexivity. }
    split; [exact Hlt|]. assert (assert_ c true = Ok tt) as -> by (unfold assert_; destruct (aborts c); reflexivity).
    cbn [bind]. eexists. split; [reflexivity|]. split; [|reflexivity].
    unfold held at 1. cbn [w_rx rx_recv er_buf]. apply (rep_bytes _ _ _ R').
  - apply Z.leb_gt in Hec. unfold assert_. destruct (aborts c); cbn [bind]; [reflexivity|]. eexists. split; [reflexivity|]. exact Hec.
Qed.

(** A run into that case. *)
Lemma error_wrap_run beh h d read bits : tame beh -> bytes_ok d -> zlen d <= capacity coll -> capacity coll - zlen d < 255 ->
  size_type (capacity coll) bits -> (forall n, read n = ([], -1)) -> (zlen d + 255) mod 2 ^ bits <= capacity coll ->
  exists S rs w w', history c coll beh (start coll (Some h)) [OpAppend d] S rs w
    /\ rx_available coll (w_rx w) = capacity coll - zlen d /\ held w = d
    /\ step 1 c coll beh (OpReceive (vrpn_adapter read)) w = Ok (w', RetCount 255)
    /\ zlen (held w') = (zlen d + 255) mod 2 ^ bits.
Proof.
  intros Ht Hb Hd H255 Hbits Hr He.
  pose proof (hist_nil c coll beh (start coll (Some h))) as H0.
  destruct (space_lemma c coll Hst Hsafe _ _ _ _ _ _ Ht H0) as (H1 & _ & H2 & _).
  rewrite (held_sim coll _ _ (start_sim coll Hst (Some h))) in H1, H2. cbn [s_bytes] in H1, H2.
  change (zlen (@nil Z)) with 0 in H1. rewrite Z.sub_0_r in H1. rewrite H1 in H2.
  destruct (H2 d Hb Hd 1%nat) as (w & Hw & Hh & _ & Hav). cbn [app] in Hh.
  assert (allowed coll (OpAppend d) (start coll (Some h))) as Hal by (split; [exact Hb|rewrite H1; exact Hd]).
  pose proof (hist_snoc _ _ _ _ _ _ _ _ (OpAppend d) _ _ H0 Hal (ex_intro _ 1%nat Hw)) as H3.
  assert (rx_available coll (w_rx w) < 255) as Hav2 by (rewrite Hav; exact H255).
  pose proof (error_overruns _ _ _ _ _ _ read 1%nat _ Ht H3 Hr Hbits Hav2) as H4.
  cbv zeta in H4. rewrite Hh, (proj2 (Z.leb_le _ _) He) in H4. destruct H4 as (Hlt & w' & H4 & H5 & _).
  do 4 eexists. split; [exact H3|]. split; [exact Hav|]. split; [exact Hh|]. split; [exact H4|].
  assert (0 < 2 ^ bits) as Hp. { destruct Hbits as (Hin & _). cbn in Hin. intuition subst; reflexivity. }
  pose proof (Z.mod_pos_bound (zlen d + 255) _ Hp). rewrite H5. unfold zlen in *. rewrite firstn_length. lia.
Qed.
End Adapters.
