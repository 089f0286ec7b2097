(** Receivers whose room check can wrap (C46): the space reported is not usable. *)
From Verif Require Import Lists BufferProofs BufferLemmas ScanProofs CheckProofs MetaProofs SpecReceiver ReceiverProofs.

(** Filling a new buffer never wraps. *)
Lemma fill_new c cap d : cap_ok cap -> zlen d = cap ->
  rb_push_range c cap d (rb_init cap) = Ok (RBuf 0 cap d).
Proof.
  intros H1 L1. assert (cap < 2 ^ size_bits cap) as Hlt by (apply uint_least_bits_bound; unfold cap_ok in H1; lia).
  unfold rb_push_range. rewrite L1. rewrite to_sz_small by (auto; unfold cap_ok in H1; lia).
  unfold rb_ensure_space, rb_init, rb_empty. cbn [rb_begin rb_pastEnd rb_contents Z.eqb].
  assert (promoted_add c (size_bits cap) 0 cap = cap) as ->.
  { unfold promoted_add. rewrite Z.add_0_l. destruct (_ <? _); [reflexivity|].
    apply trunc_small. unfold cap_ok in H1. lia. }
  rewrite Z.leb_refl. cbn [bind rb_begin rb_pastEnd rb_contents].
  rewrite Z.add_0_l, Z.leb_refl. rewrite to_sz_small by (auto; unfold cap_ok in H1; lia).
  unfold rb_verify. cbn [rb_begin rb_pastEnd]. rewrite !assert_true by (apply Z.leb_le; unfold cap_ok in H1; lia). cbn [bind].
  unfold arr_write. cbn [Z.to_nat firstn app Nat.add]. rewrite skipn_all2; [rewrite app_nil_r; reflexivity|].
  rewrite repeat_length. unfold zlen in L1. lia.
Qed.

(** One byte at the end of the array: filling the rest wraps. *)
Lemma wrap_append c cap b x d : cap_ok cap -> ~ index_safe c cap -> rep cap b [x] -> rb_pastEnd b = cap ->
  zlen d = cap - 1 -> rb_push_range c cap d b = UB.
Proof.
  intros H1 H2 R HPE L2.
  assert (int_bits c <= size_bits cap /\ 2 ^ size_bits cap < 2 * cap) as (Hw & Hbig).
  { unfold index_safe in H2. split; lia. }
  assert (cap < 2 ^ size_bits cap) as Hlt by (apply uint_least_bits_bound; unfold cap_ok in H1; lia).
  unfold rb_push_range. rewrite to_sz_small by (auto; unfold cap_ok in H1; lia). unfold rb_ensure_space. rewrite (rep_empty cap _ _ R).
  rewrite HPE, L2. unfold promoted_add. rewrite (proj2 (Z.ltb_ge _ _)) by lia.
  assert (trunc (size_bits cap) (cap + (cap - 1)) <= cap) as HT.
  { unfold trunc. replace (cap + (cap - 1)) with (2 * cap - 1 - 2 ^ size_bits cap + 1 * 2 ^ size_bits cap) by lia.
    rewrite Z.mod_add by lia. rewrite Z.mod_small by lia. lia. }
  rewrite (proj2 (Z.leb_le _ _) HT). cbn [bind]. rewrite HPE.
  assert (2 <= cap). { assert (2 ^ 1 <= 2 ^ size_bits cap). { apply Z.pow_le_mono_r; [lia|]. unfold size_bits, uint_least_bits. repeat destruct (_ <? _); lia. } lia. }
  rewrite (proj2 (Z.leb_gt _ _)) by lia. reflexivity.
Qed.

(** A check does not move the end of the contents. *)
Lemma increments_end c cap n : forall b b', repeat_m n (rb_increment_begin c cap) b = Ok b' -> rb_pastEnd b' = rb_pastEnd b.
Proof.
  induction n as [|n IH]; intros b b' HE; cbn [repeat_m] in HE; [congruence|].
  unfold rb_increment_begin at 1 in HE. destruct (assert_ c _); cbn [bind] in HE; try discriminate.
  apply IH in HE. exact HE.
Qed.
Lemma er_pop_front_end c coll n e e' : er_pop_front c coll n e = Ok e' -> rb_pastEnd (er_buf e') = rb_pastEnd (er_buf e).
Proof.
  unfold er_pop_front, rb_pop_front. destruct (rb_front _ _ _); cbn [bind]; try discriminate.
  destruct (repeat_m _ _ _) as [b2| | | |] eqn:E2; cbn [bind]; try discriminate.
  intros H. assert (e' = ERB (er_id e) b2) as -> by congruence. cbn [er_buf]. exact (increments_end _ _ _ _ _ E2).
Qed.
Lemma skip_end c coll fuel : forall e e', skip_to_soh fuel c coll e = Ok e' -> rb_pastEnd (er_buf e') = rb_pastEnd (er_buf e).
Proof.
  induction fuel as [|fuel IH]; intros e e' H; cbn [skip_to_soh] in H; [discriminate|].
  destruct (rb_empty _); [congruence|]. destruct (rb_front _ _ _) as [f| | | |]; cbn [bind] in H; try discriminate.
  destruct (f =? SOH); [congruence|]. destruct (er_pop_front _ _ _ _) as [e1| | | |] eqn:E; cbn [bind] in H; try discriminate.
  apply IH in H. rewrite H. exact (er_pop_front_end _ _ _ _ _ E).
Qed.
Lemma check_end c coll fuel : forall e ok e', check_fuel fuel c coll e = Ok (ok, e') ->
  rb_pastEnd (er_buf e') = rb_pastEnd (er_buf e).
Proof.
  induction fuel as [|fuel IH]; intros e ok e' H; cbn [check_fuel] in H; [discriminate|].
  destruct (skip_to_soh _ _ _ _) as [e1| | | |] eqn:E; cbn [bind] in H; try discriminate.
  apply skip_end in E. rewrite <- E. clear e E. rename e1 into e.
  assert (forall e1 ok e', pop_and_retry c coll (check_fuel fuel c coll) e1 = Ok (ok, e') ->
            rb_pastEnd (er_buf e') = rb_pastEnd (er_buf e1)) as G.
  { intros e1 ok1 e2 G. unfold pop_and_retry in G. destruct (assert_ c _); cbn [bind] in G; try discriminate.
    destruct (rb_empty _); [congruence|]. destruct (er_pop_front _ _ _ _) as [e3| | | |] eqn:E; cbn [bind] in G; try discriminate.
    apply IH in G. rewrite G. exact (er_pop_front_end _ _ _ _ _ E). }
  destruct (_ <? 2); [congruence|].
  destruct (er_buffer c coll e 1) as [b1| | | |]; cbn [bind] in H; try discriminate.
  assert (er_buf (er_set_id coll b1 e) = er_buf e) as HB by reflexivity.
  destruct (negb (er_id_valid _)); [apply G in H; rewrite H, HB; reflexivity|].
  destruct (_ <? 3); [assert (e' = er_set_id coll b1 e) as -> by congruence; rewrite HB; reflexivity|].
  destruct (er_buffer c coll _ 2) as [b2| | | |]; cbn [bind] in H; try discriminate.
  destruct (negb (b2 =? STX)); [apply G in H; rewrite H, HB; reflexivity|].
  destruct (er_message_length _ _ _) as [len| | | |]; cbn [bind] in H; try discriminate.
  destruct (_ <? len); [assert (e' = er_set_id coll b1 e) as -> by congruence; rewrite HB; reflexivity|].
  destruct (trailer _ _ _ _) as [[|]| | | |]; cbn [bind] in H; try discriminate.
  - assert (e' = er_set_id coll b1 e) as -> by congruence. rewrite HB. reflexivity.
  - apply G in H. rewrite H, HB. reflexivity.
Qed.

(** Zeros and a start code: skipping ends in front of the start code at the latest. *)
Lemma skips_zeros coll n : forall X Y, Skips coll X Y -> X = repeat 0 n ++ [1] -> exists k, Y = repeat 0 k ++ [1].
Proof.
  intros X Y H. revert n. induction H as [s|b s s' D _ IH]; intros n E; [eauto|].
  destruct n as [|n]; cbn [repeat app] in E.
  - exfalso. destruct D as [D _]. apply D. rewrite E. exact (eq_refl 1).
  - apply (IH n). congruence.
Qed.

Lemma process_nothing fuel c coll beh w e : rx_has_handler (w_rx w) = true ->
  check c coll (rx_recv (w_rx w)) = Ok (false, e) ->
  process_messages (S fuel) c coll beh w = Ok (w_set_recv e w, Returned 0).
Proof. intros H1 H2. unfold process_messages. rewrite H1. cbn [negb process_loop]. rewrite H2. reflexivity. Qed.

Lemma narrow_receiver_lemma c coll beh h : static_ok coll = true -> ~ index_safe c (capacity coll) ->
  exists n w d, history c coll beh (start coll (Some h)) [OpAppend (repeat 0 n ++ [1]); OpProcess]
                  (repeat 0 n ++ [1]) [RetUnit; RetProcess (Returned 0)] w
    /\ held w = [1] /\ allowed coll (OpAppend d) w
    /\ forall fuel, step fuel c coll beh (OpAppend d) w = UB.
Proof.
  intros Hst Hu. set (cap := capacity coll). assert (cap_ok cap) as Hcap by (apply capacity_ok; assumption).
  set (n := Z.to_nat (cap - 1)). set (X := repeat 0 n ++ [1]).
  assert (zlen X = cap) as HL.
  { unfold X, zlen. rewrite app_length, repeat_length. cbn [length]. unfold n, cap_ok in *. lia. }
  assert (bytes_ok X) as HB.
  { apply Forall_app. split; [|constructor; [lia|constructor]]. apply Forall_forall. intros x Hx. apply repeat_spec in Hx. lia. }
  set (w1 := World (Receiver (ERB None (RBuf 0 cap X)) (Some (h_type h)) (Some h) None) []).
  assert (erep coll (ERB None (RBuf 0 cap X)) X) as R1.
  { exists [], []. cbn [er_buf rb_begin rb_pastEnd rb_contents]. rewrite app_nil_r. change (zlen (@nil Z)) with 0. fold cap. repeat split; lia. }
  destruct (check_spec c coll Hst _ _ R1 HB) as (ok & e & Y & EC & HS & _ & RY & HO).
  destruct (skips_zeros coll n X Y HS eq_refl) as (k & EY).
  assert (k = O) as Ek.
  { destruct k as [|k]; [reflexivity|]. exfalso. subst Y. destruct ok.
    - destruct HO as (f & m & id & p & s & E & F & _). destruct (is_frame_head coll f m id p F) as (f' & ->). discriminate.
    - cbn [repeat app] in HO. unfold undecided in HO. destruct (repeat 0 k ++ [1]) as [|? [|? ?]]; [discriminate | destruct HO; discriminate | destruct HO; discriminate]. }
  subst k. cbn [repeat app] in EY. subst Y.
  assert (ok = false) as ->.
  { destruct ok; [|reflexivity]. exfalso. destruct HO as (f & m & id & p & s & E & F & _).
    pose proof (is_frame_length coll f m id p F) as HF. pose proof (frame_size_ge5 (mc_env coll) m).
    apply (f_equal (@length Z)) in E. rewrite app_length in E. cbn [length] in E. lia. }
  assert (rb_pastEnd (er_buf e) = cap) as HPE. { unfold check in EC. apply check_end in EC. exact EC. }
  set (w2 := World (Receiver e (Some (h_type h)) (Some h) None) []).
  assert (rx_available coll (w_rx w2) = cap - 1) as HA.
  { unfold rx_available, er_available. cbn [w_rx w2 rx_recv]. fold cap. rewrite (rep_size cap Hcap _ _ RY), max_size_cap by assumption.
    change (zlen [1]) with 1. apply to_sz_small; [assumption|]. unfold cap_ok in Hcap. lia. }
  exists n, w2, (repeat 0 n). fold X. split; [|split; [|split]].
  - change [OpAppend X; OpProcess] with (([] ++ [OpAppend X]) ++ [OpProcess]).
    replace X with (([] ++ received coll beh (OpAppend X) (start coll (Some h)) w1) ++ received coll beh OpProcess w1 w2) at 2
      by (cbn [received app]; rewrite app_nil_r; reflexivity).
    change [RetUnit; RetProcess (Returned 0)] with (([] ++ [RetUnit]) ++ [RetProcess (Returned 0)]).
    apply hist_snoc with (w1 := w1).
    + apply hist_snoc with (w1 := start coll (Some h)); [constructor| |].
      * split; [assumption|]. unfold rx_available, er_available. cbn [start w_rx rx_init_handler rx_recv er_init er_buf]. fold cap.
        rewrite (rep_size cap Hcap _ _ (rep_init cap Hcap)), max_size_cap by assumption. change (zlen (@nil Z)) with 0.
        rewrite to_sz_small by (auto; unfold cap_ok in Hcap; lia). lia.
      * exists O. cbn [step start w_rx rx_init_handler]. unfold rx_append, er_append. cbn [rx_recv er_init er_buf er_id]. fold cap.
        rewrite fill_new by assumption. reflexivity.
    + exact I.
    + exists 1%nat. unfold step. rewrite (process_nothing _ c coll beh w1 e eq_refl EC). reflexivity.
  - unfold held. cbn [w2 w_rx rx_recv]. exact (rep_bytes cap _ _ RY).
  - split.
    + apply Forall_forall. intros x Hx. apply repeat_spec in Hx. lia.
    + rewrite HA. unfold zlen. rewrite repeat_length. unfold n. unfold cap_ok in Hcap. lia.
  - intros fuel. cbn [step]. unfold rx_append, er_append. cbn [w2 w_rx rx_recv]. fold cap.
    rewrite (wrap_append c cap (er_buf e) 1 (repeat 0 n)); [reflexivity|assumption|assumption|exact RY|assumption|].
    unfold zlen. rewrite repeat_length. unfold n. unfold cap_ok in Hcap. lia.
Qed.
