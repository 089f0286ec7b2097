(** One changed byte of a frame: control codes and message id. *)
From Verif Require Export LossLemmas LayoutLemmas.

(** The control codes of a frame are where they belong. *)
Lemma frame_codes coll f m id p : is_frame coll f m id p ->
  nth_error f 0 = Some 1 /\ nth_error f 1 = Some id /\ nth_error f 2 = Some 2
  /\ nth_error f (3 + payload_size m) = Some 3 /\ nth_error f (frame_size (mc_env coll) m - 1) = Some 4.
Proof.
  intros (_ & HL & ->). rewrite <- HL. assert (forall x t, nth_error (p ++ x :: t) (length p) = Some x) as HN.
  { intros x t. rewrite nth_error_app2, Nat.sub_diag by lia. reflexivity. }
  unfold frame_size, spec_frame. rewrite <- HL. destruct (mc_env coll); cbn [app nth_error].
  - split; [reflexivity|]. split; [reflexivity|]. split; [reflexivity|]. split; [apply HN|].
    replace (length p + 5 - 1)%nat with (4 + length p)%nat by lia.
    change (nth_error (p ++ [3; 4]) (S (length p)) = Some 4).
    rewrite nth_error_app2 by lia. replace (S (length p) - length p)%nat with 1%nat by lia. reflexivity.
  - rewrite <- !app_assoc. cbn [app].
    split; [reflexivity|]. split; [reflexivity|]. split; [reflexivity|]. split; [apply HN|].
    replace (length p + 6 - 1)%nat with (5 + length p)%nat by lia.
    match goal with |- nth_error (_ :: _ :: _ :: ?l) _ = _ => change (nth_error l (S (S (length p))) = Some 4) end.
    rewrite nth_error_app2 by lia. replace (S (S (length p)) - length p)%nat with 2%nat by lia. reflexivity.
Qed.

Lemma nth_error_here {A} (a b : list A) x : nth_error (a ++ x :: b) (length a) = Some x.
Proof. rewrite nth_error_app2, Nat.sub_diag by lia. reflexivity. Qed.

(** A frame with a control code changed begins no frame. *)
Lemma control_dead coll f m id p a x y b s : is_frame coll f m id p -> f = a ++ x :: b -> x <> y ->
  In (length a) [0; 2; 3 + payload_size m; frame_size (mc_env coll) m - 1]%nat ->
  dead coll ((a ++ y :: b) ++ s).
Proof.
  intros F E Hn Hi. pose proof (is_frame_length _ _ _ _ _ F) as HL.
  assert (length (a ++ y :: b) = length f) as HL' by (rewrite E, !app_length; reflexivity).
  destruct a as [|a0 a].
  { cbn [app]. apply not_soh_dead. destruct (frame_codes _ _ _ _ _ F) as (H & _). rewrite E in H. cbn in H. congruence. }
  destruct a as [|a1 a].
  { exfalso. cbn [length In] in Hi. pose proof (frame_size_ge5 (mc_env coll) m). lia. }
  destruct (frame_codes _ _ _ _ _ F) as (H0 & H1 & H2 & H3 & H4).
  assert (a0 = 1) as -> by (rewrite E in H0; cbn in H0; congruence).
  assert (a1 = id) as -> by (rewrite E in H1; cbn in H1; congruence).
  split.
  - cbn [app]. destruct (a ++ y :: b) as [|z t] eqn:Et; [destruct a; discriminate|]. cbn [app].
    intros U. apply undecided_long in U as (_ & _ & m' & Hm' & Hlt).
    assert (m' = m) as -> by (eapply has_id_fun; [eassumption | apply F]).
    cbn [app] in HL'. rewrite Et in HL'. cbn [length] in HL', Hlt. rewrite app_length in Hlt. lia.
  - intros u m' id' p' s' F' EE. destruct (is_frame_head _ _ _ _ _ F') as (t' & Eu).
    assert (id' = id) as ->. { rewrite Eu in EE. cbn [app] in EE. congruence. }
    assert (m' = m) as -> by (eapply has_id_fun; [apply F' | apply F]).
    apply app_eq_len in EE as (EE & _); [|pose proof (is_frame_length _ _ _ _ _ F'); congruence].
    destruct (frame_codes _ _ _ _ _ F') as (K0 & K1 & K2 & K3 & K4). rewrite <- EE in *. rewrite E in *.
    pose proof (nth_error_here (1 :: id :: a) b x) as Hx. pose proof (nth_error_here (1 :: id :: a) b y) as Hy.
    destruct Hi as [Hi|[Hi|[Hi|[Hi|[]]]]]; rewrite <- ?Hi in *; congruence.
Qed.

(** An id that the collection does not have. *)
Lemma no_id_dead coll y t : (forall m, ~ has_id coll m y) -> dead coll (1 :: y :: t).
Proof.
  intros HN. split.
  - intros U. destruct t as [|x t]; [destruct U as (_ & m & H) | apply undecided_long in U as (_ & _ & m & H & _)];
      exact (HN m H).
  - intros u m id p s F E. destruct (is_frame_head _ _ _ _ _ F) as (t' & Eu).
    rewrite Eu in E. cbn [app] in E. assert (id = y) as -> by congruence. apply (HN m). apply F.
Qed.

Section Damage.
Context (c : config) (coll : collection).
Hypothesis Hst : static_ok coll = true.
Hypothesis Hsafe : index_safe c (capacity coll).

(** C74 *)
Lemma control_lemma beh h0 pre ms f m id p a x y b s w : tame beh -> is_frame coll f m id p ->
  f = a ++ x :: b -> x <> y ->
  In (length a) [0; 2; 3 + payload_size m; frame_size (mc_env coll) m - 1]%nat -> Scan coll pre ms [] ->
  processed c coll beh h0 (pre ++ (a ++ y :: b) ++ s) w ->
  exists ms', Scan coll (tl (a ++ y :: b) ++ s) ms' (held w)
    /\ Forall2 (delivers (little c)) (ms ++ ms') (completed beh [] (w_log w))
    /\ (~ In 1 (tl (a ++ y :: b)) -> Scan coll s ms' (held w)).
Proof.
  intros Ht F E Hn Hi HP Hw. pose proof (control_dead coll f m id p a x y b s F E Hn Hi) as D.
  assert (exists b0 t, a ++ y :: b = b0 :: t) as (b0 & t & Et). { destruct a; cbn [app]; eauto. }
  rewrite Et in *. cbn [app tl] in *.
  destruct (dead_skipped_lemma c coll Hst Hsafe beh h0 pre ms b0 (t ++ s) w Ht HP D Hw) as (ms' & H1 & H2).
  exists ms'. split; [exact H1|]. split; [exact H2|]. intros HN. eapply noise_rest; eassumption.
Qed.

Lemma unknown_id_lemma beh h0 pre ms f m id p y t s w : tame beh -> is_frame coll f m id p ->
  f = 1 :: id :: t -> (forall m', ~ has_id coll m' y) -> Scan coll pre ms [] ->
  processed c coll beh h0 (pre ++ (1 :: y :: t) ++ s) w ->
  exists ms', Scan coll ((y :: t) ++ s) ms' (held w)
    /\ Forall2 (delivers (little c)) (ms ++ ms') (completed beh [] (w_log w))
    /\ (~ In 1 (y :: t) -> Scan coll s ms' (held w)).
Proof.
  intros Ht F E HN HP Hw. pose proof (no_id_dead coll y (t ++ s) HN) as D. cbn [app] in *.
  destruct (dead_skipped_lemma c coll Hst Hsafe beh h0 pre ms 1 _ w Ht HP D Hw) as (ms' & H1 & H2).
  exists ms'. split; [exact H1|]. split; [exact H2|]. intros HI. exact (noise_rest coll (y :: t) s ms' (held w) HI H1).
Qed.

Lemma other_id_lemma beh h0 pre ms f m id p y m' s w : tame beh -> mc_env coll = Basic -> is_frame coll f m id p ->
  has_id coll m' y -> Scan coll pre ms [] ->
  processed c coll beh h0 (pre ++ ([1; y; 2] ++ p ++ [3; 4]) ++ s) w ->
  (payload_size m' = payload_size m ->
     exists ms', Scan coll s ms' (held w)
       /\ Forall2 (delivers (little c)) (ms ++ Found m' y p :: ms') (completed beh [] (w_log w)))
  /\ (forall p' t, p = p' ++ [3; 4] ++ t -> length p' = payload_size m' ->
     exists ms', Scan coll ((t ++ [3; 4]) ++ s) ms' (held w)
       /\ Forall2 (delivers (little c)) (ms ++ Found m' y p' :: ms') (completed beh [] (w_log w)))
  /\ ((payload_size m + length s < payload_size m')%nat ->
     held w = ([1; y; 2] ++ p ++ [3; 4]) ++ s
     /\ Forall2 (delivers (little c)) ms (completed beh [] (w_log w))).
Proof.
  intros Ht He F Hy HP Hw. split; [|split].
  - intros Hsz. refine (frame_delivered_lemma c coll Hst Hsafe beh h0 pre ms ([1; y; 2] ++ p ++ [3; 4]) m' y p s w Ht HP _ Hw).
    split; [exact Hy|]. split; [rewrite Hsz; apply F|]. rewrite He. reflexivity.
  - intros p' t -> Hsz.
    replace (([1; y; 2] ++ (p' ++ [3; 4] ++ t) ++ [3; 4]) ++ s)
      with (([1; y; 2] ++ p' ++ [3; 4]) ++ (t ++ [3; 4]) ++ s) in Hw.
    2:{ rewrite <- !app_assoc. reflexivity. }
    refine (frame_delivered_lemma c coll Hst Hsafe beh h0 pre ms ([1; y; 2] ++ p' ++ [3; 4]) m' y p' _ w Ht HP _ Hw).
    split; [exact Hy|]. split; [exact Hsz|]. rewrite He. reflexivity.
  - intros Hlt. destruct (stream_lemma c coll Hst Hsafe beh Ht _ _ _ Hw) as (ms' & H3 & H4).
    assert (undecided coll (([1; y; 2] ++ p ++ [3; 4]) ++ s)) as U.
    { cbn [app]. apply undecided_long. split; [reflexivity|]. split; [reflexivity|]. exists m'. split; [assumption|].
      rewrite He. unfold frame_size. cbn [length]. rewrite !app_length. cbn [length].
      destruct F as (_ & -> & _). lia. }
    pose proof (ScanLemmas.scan_app coll pre ms _ [] _ HP (scan_undecided _ _ U)) as HS.
    rewrite app_nil_r in HS. destruct (scan_det _ _ _ _ HS _ _ H3) as (<- & <-). auto.
Qed.
End Damage.
