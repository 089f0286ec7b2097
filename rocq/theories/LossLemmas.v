(** Bytes lost from a frame and bytes inserted into one. *)
From Verif Require Export RelayLemmas.

(** Every frame ends with EOT, preceded by ETX or the checksum. *)
Lemma frame_end coll f m id p : is_frame coll f m id p ->
  exists g, f = g ++ [match mc_env coll with Basic => 3 | BasicChecksum => (id + zsum p + 6) mod 256 end; 4].
Proof.
  intros (_ & _ & ->). unfold spec_frame. destruct (mc_env coll).
  - exists ([1; id; 2] ++ p). rewrite <- app_assoc. reflexivity.
  - exists ([1; id; 2] ++ p ++ [3]). do 2 f_equal. rewrite !zsum_app. cbn [zsum fold_right].
    replace (1 + (id + (2 + 0)) + (zsum p + (3 + 0))) with (id + zsum p + 6) by lia. reflexivity.
Qed.

(** As many bytes as the id promises, the last not EOT: no frame begins here. *)
Lemma tail_dead coll m id u z s : has_id coll m id ->
  length (1 :: id :: u ++ [z]) = frame_size (mc_env coll) m -> z <> 4 -> dead coll (1 :: id :: u ++ z :: s).
Proof.
  intros Hm HL Hz. split.
  - destruct (u ++ z :: s) as [|x t] eqn:E; [destruct u; discriminate|]. intros U.
    apply undecided_long in U as (_ & _ & m' & Hm' & Hlt). rewrite <- E in Hlt.
    assert (m' = m) as -> by (eapply has_id_fun; eassumption).
    cbn [length] in HL, Hlt. rewrite app_length in HL, Hlt. cbn [length] in HL, Hlt. lia.
  - intros f m' id' p' s' F E. destruct (is_frame_head _ _ _ _ _ F) as (t' & Ef').
    assert (id' = id) as ->. { rewrite Ef' in E. cbn [app] in E. congruence. }
    assert (m' = m) as -> by (eapply has_id_fun; [apply F | eassumption]).
    pose proof (is_frame_length _ _ _ _ _ F) as HL'.
    assert ((1 :: id :: u ++ [z]) ++ s = f ++ s') as E2.
    { rewrite <- E. cbn [app]. rewrite <- app_assoc. reflexivity. }
    apply app_eq_len in E2 as [E2 _]; [|congruence].
    destruct (frame_end _ _ _ _ _ F) as (g & Eg). rewrite Eg in E2.
    match type of E2 with _ = g ++ [?k; 4] => change [k; 4] with ([k] ++ [4]) in E2 end.
    rewrite app_assoc in E2. change (1 :: id :: u ++ [z]) with ((1 :: id :: u) ++ [z]) in E2.
    apply app_inj_tail in E2 as [_ E2]. exact (Hz E2).
Qed.

Section Loss.
Context (c : config) (coll : collection).
Hypothesis Hst : static_ok coll = true.
Hypothesis Hsafe : index_safe c (capacity coll).

Lemma noise_rest noise s ms r : ~ In 1 noise -> Scan coll (noise ++ s) ms r -> Scan coll s ms r.
Proof.
  intros HN HS. destruct (scan_total coll s) as (ms' & r' & HS').
  destruct (scan_det _ _ _ _ (scan_noise coll noise s ms' r' HN HS') _ _ HS) as (<- & <-). exact HS'.
Qed.

(** C68 *)
Lemma lost_lemma beh h0 pre ms f m id p a x b y s w : tame beh -> is_frame coll f m id p ->
  f = [1; id] ++ a ++ x :: b -> y <> 4 -> Scan coll pre ms [] ->
  processed c coll beh h0 (pre ++ ([1; id] ++ a ++ b) ++ y :: s) w ->
  exists ms', Scan coll ((id :: a ++ b) ++ y :: s) ms' (held w)
    /\ Forall2 (delivers (little c)) (ms ++ ms') (completed beh [] (w_log w))
    /\ (~ In 1 (id :: a ++ b) -> Scan coll (y :: s) ms' (held w)).
Proof.
  intros Ht F E Hy HP Hw. pose proof (is_frame_length _ _ _ _ _ F) as HL.
  assert (dead coll (1 :: id :: (a ++ b) ++ y :: s)) as D.
  { apply (tail_dead coll m); [apply F | | exact Hy]. rewrite <- HL, E. cbn [app length].
    rewrite !app_length. cbn [length]. lia. }
  cbn [app] in Hw.
  destruct (dead_skipped_lemma c coll Hst Hsafe beh h0 pre ms 1 _ w Ht HP D Hw) as (ms' & H1 & H2).
  exists ms'. split; [exact H1|]. split; [exact H2|]. intros HN. eapply noise_rest; [exact HN | exact H1].
Qed.

(** C69 *)
Lemma extra_lemma beh h0 pre ms f m id p a x b s w : tame beh -> is_frame coll f m id p ->
  f = [1; id] ++ a ++ b -> b <> [] ->
  (mc_env coll = BasicChecksum -> (id + zsum p + 6) mod 256 <> 4) ->
  [1; id] ++ a ++ x :: b <> f ++ [4] -> Scan coll pre ms [] ->
  processed c coll beh h0 (pre ++ ([1; id] ++ a ++ x :: b) ++ s) w ->
  exists ms', Scan coll ((id :: a ++ x :: b) ++ s) ms' (held w)
    /\ Forall2 (delivers (little c)) (ms ++ ms') (completed beh [] (w_log w))
    /\ (~ In 1 (id :: a ++ x :: b) -> Scan coll s ms' (held w)).
Proof.
  intros Ht F E Hb Hck Hne HP Hw. pose proof (is_frame_length _ _ _ _ _ F) as HL.
  destruct (frame_end _ _ _ _ _ F) as (g & Eg).
  set (k := match mc_env coll with Basic => 3 | BasicChecksum => (id + zsum p + 6) mod 256 end) in *.
  assert (k <> 4) as Hk. { subst k. destruct (mc_env coll); [discriminate | auto]. }
  destruct (exists_last Hb) as (b' & e & ->).
  assert (e = 4 /\ g ++ [k] = [1; id] ++ a ++ b') as (-> & Eg').
  { rewrite Eg in E. change (g ++ [k; 4]) with (g ++ [k] ++ [4]) in E. rewrite !app_assoc in E.
    apply app_inj_tail in E as (E1 & E2). split; [congruence|]. rewrite E1, !app_assoc. reflexivity. }
  assert (exists u z, a ++ x :: b' = u ++ [z] /\ z <> 4) as (u & z & Eu & Hz).
  { destruct b' as [|b0 b'].
    - exists a, x. split; [reflexivity|]. intros ->. apply Hne. rewrite E. cbn [app]. rewrite <- !app_assoc. reflexivity.
    - assert (b0 :: b' <> []) as Hb' by discriminate. destruct (exists_last Hb') as (v & z & Ez). rewrite Ez in *.
      exists (a ++ x :: v), z. split; [rewrite <- app_assoc; reflexivity|].
      rewrite !app_assoc in Eg'. apply app_inj_tail in Eg' as (_ & <-). exact Hk. }
  assert (a ++ x :: b' ++ [4] = u ++ z :: [4]) as Eu4.
  { change (z :: [4]) with ([z] ++ [4]). rewrite app_assoc, <- Eu, <- app_assoc. reflexivity. }
  assert (dead coll (1 :: id :: u ++ z :: ([4] ++ s))) as D.
  { apply (tail_dead coll m); [apply F | | exact Hz]. rewrite <- HL, E, <- Eu. cbn [app length].
    rewrite !app_length. cbn [length]. rewrite ?app_length. cbn [length]. lia. }
  assert (1 :: id :: u ++ z :: [4] ++ s = ([1; id] ++ a ++ x :: b' ++ [4]) ++ s) as ED.
  { rewrite Eu4. cbn [app]. rewrite <- app_assoc. reflexivity. }
  rewrite ED in D. cbn [app] in Hw, D.
  destruct (dead_skipped_lemma c coll Hst Hsafe beh h0 pre ms 1 _ w Ht HP D Hw) as (ms' & H1 & H2).
  exists ms'. split; [exact H1|]. split; [exact H2|]. intros HN. eapply noise_rest; [exact HN | exact H1].
Qed.
End Loss.
