(** Corrupted and look-alike frames. *)
From Verif Require Export HandlerLemmas.

Lemma zsum_app a b : zsum (a ++ b) = zsum a + zsum b.
Proof. exact (zsum_app2 a b). Qed.

(** C33: payload bytes exchanged. *)
Lemma swap_is_frame coll m id a x b y d :
  has_id coll m id -> length (a ++ x :: b ++ y :: d) = payload_size m -> mc_env coll = BasicChecksum ->
  exists pre post, let f := spec_frame BasicChecksum id (a ++ x :: b ++ y :: d) in
    f = pre ++ x :: b ++ y :: post /\ is_frame coll (pre ++ y :: b ++ x :: post) m id (a ++ y :: b ++ x :: d).
Proof.
  intros Hid HL He. set (ck := zsum ([1; id; 2] ++ (a ++ x :: b ++ y :: d) ++ [3]) mod 256).
  exists ([1; id; 2] ++ a), (d ++ [3; ck; 4]). cbv zeta. unfold spec_frame. fold ck. split.
  - cbn [app]. repeat (rewrite <- ?app_assoc; cbn [app]). reflexivity.
  - split; [assumption|]. split.
    + rewrite <- HL. rewrite !app_length. cbn [length]. rewrite !app_length. reflexivity.
    + rewrite He. unfold spec_frame.
      replace (zsum ([1; id; 2] ++ (a ++ y :: b ++ x :: d) ++ [3]) mod 256) with ck.
      * cbn [app]. repeat (rewrite <- ?app_assoc; cbn [app]). reflexivity.
      * unfold ck. f_equal. rewrite !zsum_app. cbn [zsum fold_right]. fold (zsum b). fold (zsum d).
        change (fold_right Z.add 0 (b ++ y :: d)) with (zsum (b ++ y :: d)).
        change (fold_right Z.add 0 (b ++ x :: d)) with (zsum (b ++ x :: d)).
        rewrite !zsum_app. cbn [zsum fold_right]. fold (zsum d). lia.
Qed.

(** C34: any payload. *)
Lemma any_payload_is_frame coll m id p p' f : mc_env coll = Basic -> is_frame coll f m id p ->
  length p' = length p -> is_frame coll ([1; id; 2] ++ p' ++ [3; 4]) m id p'.
Proof.
  intros He (H1 & H2 & H3) HL. split; [assumption|]. split; [congruence|]. rewrite He. reflexivity.
Qed.

(** C31: a look-alike header in front of a frame. *)
Lemma swallow_is_frame coll m id p f m' id' : mc_env coll = Basic -> is_frame coll f m id p ->
  has_id coll m' id' -> payload_size m' = (payload_size m + 3)%nat ->
  is_frame coll ([1; id'; 2] ++ f) m' id' ([1; id; 2] ++ p).
Proof.
  intros He (H1 & H2 & H3) Hid HL. split; [assumption|]. split.
  - rewrite app_length, H2. cbn [length]. lia.
  - rewrite He in *. rewrite H3. unfold spec_frame. cbn [app]. reflexivity.
Qed.

(** C32: one byte changed. *)
Definition byte (b : Z) : Prop := 0 <= b < 256.

Lemma app_split_cons {A} (a b l1 l2 : list A) x : a ++ x :: b = l1 ++ l2 ->
  (exists t, l1 = a ++ x :: t /\ b = t ++ l2) \/ (exists t, a = l1 ++ t /\ l2 = t ++ x :: b).
Proof.
  revert l1. induction a as [|y a IH]; intros l1 H; destruct l1 as [|z l1]; cbn [app] in *.
  - right. exists []. auto.
  - left. exists l1. assert (z = x /\ b = l1 ++ l2) as (-> & ->) by (split; congruence). auto.
  - right. exists (y :: a). auto.
  - assert (y = z /\ a ++ x :: b = l1 ++ l2) as (-> & E) by (split; congruence).
    destruct (IH l1 E) as [(t & -> & ->)|(t & -> & ->)]; [left|right]; eauto.
Qed.

Lemma mod_diff a x y : byte x -> byte y -> x <> y -> (a + x) mod 256 <> (a + y) mod 256.
Proof.
  unfold byte. intros Hx Hy Hn E. apply Hn.
  assert ((x - y) mod 256 = 0).
  { replace (x - y) with ((a + x) - (a + y)) by lia. rewrite Zminus_mod, E, Z.sub_diag. reflexivity. }
  apply Z.mod_divide in H; [|lia]. destruct H as (q & Hq). lia.
Qed.

(** Frames of the same id differing in exactly one byte are not both frames. *)
Lemma one_byte_not_frame coll id p id' p' a x y b : mc_env coll = BasicChecksum ->
  length p = length p' -> byte x -> byte y -> x <> y ->
  spec_frame BasicChecksum id p = a ++ x :: b -> spec_frame BasicChecksum id' p' = a ++ y :: b -> False.
Proof.
  intros He HL Hx Hy Hn E E'. unfold spec_frame in *.
  set (h := [1; id; 2] ++ p ++ [3]) in *. set (h' := [1; id'; 2] ++ p' ++ [3]) in *.
  assert (length h = length h') as Hh by (subst h h'; rewrite !app_length; cbn [length]; lia).
  symmetry in E, E'. destruct (app_split_cons _ _ _ _ _ E) as [(t & H1 & H2)|(t & H1 & H2)].
  - destruct (app_split_cons _ _ _ _ _ E') as [(t' & H1' & H2')|(t' & H1' & H2')].
    2:{ apply (f_equal (@length Z)) in H1, H1', H2, H2'. rewrite ?app_length in *. cbn [length] in *. lia. }
    assert (t = t' /\ [zsum h mod 256; 4] = [zsum h' mod 256; 4]) as (<- & Ec).
    { rewrite H2 in H2'. apply app_eq_len in H2'; [assumption|].
      apply (f_equal (@length Z)) in H1, H1'. rewrite !app_length in *. cbn [length] in *. lia. }
    assert (zsum h mod 256 = zsum h' mod 256) as Ez by congruence. rewrite H1, H1', !zsum_app in Ez.
    cbn [zsum fold_right] in Ez. fold (zsum t) in Ez.
    apply (mod_diff (zsum a + zsum t) x y Hx Hy Hn).
    replace (zsum a + zsum t + x) with (zsum a + (x + zsum t)) by lia.
    replace (zsum a + zsum t + y) with (zsum a + (y + zsum t)) by lia. exact Ez.
  - destruct (app_split_cons _ _ _ _ _ E') as [(t' & H1' & H2')|(t' & H1' & H2')].
    { apply (f_equal (@length Z)) in H1, H1', H2, H2'. rewrite ?app_length in *. cbn [length] in *. lia. }
    assert (h = h' /\ t = t') as (Eh & <-). { rewrite H1 in H1'. apply app_eq_len in H1'; auto. }
    rewrite <- Eh in H2'. destruct t as [|z [|z2 [|? ?]]]; cbn [app] in *; try (congruence).
Qed.

Lemma corrupt_dead coll f m id p a x y b s : mc_env coll = BasicChecksum -> is_frame coll f m id p ->
  bytes_ok f -> byte y -> f = a ++ x :: b -> x <> y ->
  (length a = 1%nat -> forall m', has_id coll m' y -> payload_size m' = payload_size m) ->
  dead coll ((a ++ y :: b) ++ s).
Proof.
  intros He F HB Hy E Hn Hsz.
  assert (byte x) as Hx. { rewrite E in HB. apply Forall_app in HB as (_ & HB). inversion HB. assumption. }
  pose proof (is_frame_length _ _ _ _ _ F) as HL.
  assert (length (a ++ y :: b) = frame_size (mc_env coll) m) as HL'.
  { rewrite <- HL, E, !app_length. reflexivity. }
  destruct (is_frame_head _ _ _ _ _ F) as (t & Ef).
  destruct a as [|a0 a].
  { cbn [app]. apply not_soh_dead. rewrite Ef in E. cbn [app] in E. assert (x = 1) by congruence. congruence. }
  assert (exists id2 t2, (a0 :: a) ++ y :: b = 1 :: id2 :: t2
    /\ forall m2, has_id coll m2 id2 -> payload_size m2 = payload_size m) as (id2 & t2 & E2 & Hsz2).
  { rewrite Ef in E. cbn [app] in E. assert (a0 = 1) as -> by congruence. destruct a as [|a1 a].
    - exists y, b. split; [reflexivity|]. apply Hsz. reflexivity.
    - assert (a1 = id) as -> by (cbn [app] in E; congruence). exists id, (a ++ y :: b). split; [reflexivity|].
      intros m2 H2. assert (m2 = m) as -> by (eapply has_id_fun; [eassumption | apply F]). reflexivity. }
  destruct t2 as [|x3 t2].
  { rewrite E2 in HL'. cbn [length] in HL'. pose proof (frame_size_ge5 (mc_env coll) m). lia. }
  split.
  - rewrite E2. cbn [app]. intros U. apply undecided_long in U as (_ & _ & m2 & Hm2 & Hlt).
    specialize (Hsz2 m2 Hm2). rewrite E2 in HL'. cbn [length] in HL', Hlt. rewrite app_length in Hlt.
    unfold frame_size in *. rewrite Hsz2 in Hlt. destruct (mc_env coll); lia.
  - intros f2 m2 i2 p2 s2 F2 EE.
    destruct (is_frame_head _ _ _ _ _ F2) as (t3 & Ef2).
    assert (i2 = id2) as ->. { rewrite E2, Ef2 in EE. cbn [app] in EE. congruence. }
    assert (payload_size m2 = payload_size m) as Hp. { apply Hsz2. apply F2. }
    pose proof (is_frame_length _ _ _ _ _ F2) as HL2.
    assert (length f2 = length ((a0 :: a) ++ y :: b)) as HLe.
    { rewrite HL2, HL'. unfold frame_size. rewrite Hp. reflexivity. }
    destruct (app_eq_len _ _ _ _ EE (eq_sym HLe)) as (Ef3 & _).
    destruct F as (_ & Lp & Fe). destruct F2 as (_ & Lp2 & Fe2). rewrite He in Fe, Fe2.
    eapply (one_byte_not_frame coll id p id2 p2 (a0 :: a) x y b); eauto; congruence.
Qed.

Section Corruption.
Context (c : config) (coll : collection).
Hypothesis Hst : static_ok coll = true.
Hypothesis Hsafe : index_safe c (capacity coll).

(** C32 at the receiver. *)
Lemma corrupt_lemma beh h0 pre ms f m id p a x y b s w : tame beh -> mc_env coll = BasicChecksum ->
  is_frame coll f m id p -> bytes_ok f -> f = a ++ x :: b -> byte y -> x <> y ->
  (length a = 1%nat -> forall m', has_id coll m' y -> payload_size m' = payload_size m) ->
  Scan coll pre ms [] ->
  processed c coll beh h0 (pre ++ (a ++ y :: b) ++ s) w ->
  (forall m' id' p', ~ is_frame coll (a ++ y :: b) m' id' p')
  /\ exists b0 t ms', a ++ y :: b = b0 :: t /\ Scan coll (t ++ s) ms' (held w)
       /\ Forall2 (delivers (little c)) (ms ++ ms') (completed beh [] (w_log w)).
Proof.
  intros Ht He F HB E Hy Hn Hsz HP Hw.
  split.
  - intros m' id' p' F'. destruct (corrupt_dead coll f m id p a x y b [] He F HB Hy E Hn Hsz) as (_ & D).
    eapply D; [exact F'|]. reflexivity.
  - pose proof (corrupt_dead coll f m id p a x y b s He F HB Hy E Hn Hsz) as D.
    assert (exists b0 t, a ++ y :: b = b0 :: t) as (b0 & t & Et). { destruct a; cbn [app]; eauto. }
    rewrite Et in *. cbn [app] in Hw, D.
    destruct (dead_skipped_lemma c coll Hst Hsafe beh h0 pre ms b0 (t ++ s) w Ht HP D Hw) as (ms' & H1 & H2).
    exists b0, t, ms'. auto.
Qed.

(** C33 at the receiver. *)
Lemma swap_lemma beh h0 pre ms m id a x b y d s w : tame beh -> mc_env coll = BasicChecksum ->
  has_id coll m id -> length (a ++ x :: b ++ y :: d) = payload_size m ->
  Scan coll pre ms [] ->
  exists f1 f2, spec_frame BasicChecksum id (a ++ x :: b ++ y :: d) = f1 ++ x :: b ++ y :: f2
    /\ (processed c coll beh h0 (pre ++ (f1 ++ y :: b ++ x :: f2) ++ s) w ->
        exists ms', Scan coll s ms' (held w)
          /\ Forall2 (delivers (little c)) (ms ++ Found m id (a ++ y :: b ++ x :: d) :: ms') (completed beh [] (w_log w))).
Proof.
  intros Ht He Hid HL HP. destruct (swap_is_frame coll m id a x b y d Hid HL He) as (f1 & f2 & E & F).
  exists f1, f2. split; [exact E|]. intros Hw.
  exact (frame_delivered_lemma c coll Hst Hsafe beh h0 pre ms _ m id _ s w Ht HP F Hw).
Qed.

(** C34 at the receiver. *)
Lemma any_payload_lemma beh h0 pre ms f m id p p' s w : tame beh -> mc_env coll = Basic ->
  is_frame coll f m id p -> length p' = length p -> Scan coll pre ms [] ->
  processed c coll beh h0 (pre ++ ([1; id; 2] ++ p' ++ [3; 4]) ++ s) w ->
  exists ms', Scan coll s ms' (held w)
    /\ Forall2 (delivers (little c)) (ms ++ Found m id p' :: ms') (completed beh [] (w_log w)).
Proof.
  intros Ht He F HL HP Hw. pose proof (any_payload_is_frame coll m id p p' f He F HL) as F'.
  exact (frame_delivered_lemma c coll Hst Hsafe beh h0 pre ms _ m id p' s w Ht HP F' Hw).
Qed.

(** C31 at the receiver. *)
Lemma swallow_lemma beh h0 pre ms f m id p m' id' s w : tame beh -> mc_env coll = Basic ->
  is_frame coll f m id p -> has_id coll m' id' -> payload_size m' = (payload_size m + 3)%nat ->
  Scan coll pre ms [] ->
  processed c coll beh h0 (pre ++ [1; id'; 2] ++ f ++ s) w ->
  exists ms', Scan coll s ms' (held w)
    /\ Forall2 (delivers (little c)) (ms ++ Found m' id' ([1; id; 2] ++ p) :: ms') (completed beh [] (w_log w)).
Proof.
  intros Ht He F Hid HL HP Hw. pose proof (swallow_is_frame coll m id p f m' id' He F Hid HL) as F'.
  apply (frame_delivered_lemma c coll Hst Hsafe beh h0 pre ms _ m' id' _ s w Ht HP F').
  rewrite <- app_assoc. exact Hw.
Qed.
End Corruption.
