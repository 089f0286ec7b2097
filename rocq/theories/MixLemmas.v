(** Sender and receiver with the same message types but different envelopes. *)
From Verif Require Export LossLemmas LayoutLemmas.

Section Mix.
Context (ts : list mtype).
Notation plain := (Collection ts Basic).
Notation summed := (Collection ts BasicChecksum).

Lemma mix_id e e' m id : has_id (Collection ts e) m id -> has_id (Collection ts e') m id.
Proof. exact (fun H => H). Qed.

(** A frame with a checksum begins with a frame without one if the checksum looks like EOT ... *)
Lemma summed_eot f m id p s ms r : is_frame summed f m id p -> (id + zsum p + 6) mod 256 = 4 ->
  Scan plain s ms r -> Scan plain (f ++ s) (Found m id p :: ms) r.
Proof.
  intros F E HS.
  assert (f ++ s = ([1; id; 2] ++ p ++ [3; 4]) ++ [4] ++ s) as ->.
  { destruct F as (_ & _ & ->). cbn [mc_env]. unfold spec_frame.
    assert (zsum ([1; id; 2] ++ p ++ [3]) = id + zsum p + 6) as -> by (rewrite !zsum_app; cbn [zsum fold_right]; lia).
    rewrite E. cbn [app]. rewrite <- !app_assoc. reflexivity. }
  apply scan_frame.
  - destruct F as (F1 & F2 & _). split; [exact F1|]. split; [exact F2 | reflexivity].
  - apply scan_noise; [|exact HS]. intros [H|[]]. discriminate.
Qed.
(** ... and with none otherwise. *)
Lemma summed_dead f m id p s : is_frame summed f m id p -> (id + zsum p + 6) mod 256 <> 4 -> dead plain (f ++ s).
Proof.
  intros F E.
  assert (f ++ s = 1 :: id :: (2 :: p ++ [3]) ++ (id + zsum p + 6) mod 256 :: 4 :: s) as ->.
  { destruct F as (_ & _ & ->). cbn [mc_env]. unfold spec_frame.
    assert (zsum ([1; id; 2] ++ p ++ [3]) = id + zsum p + 6) as -> by (rewrite !zsum_app; cbn [zsum fold_right]; lia).
    cbn [app]. rewrite <- !app_assoc. reflexivity. }
  destruct F as (F1 & F2 & _). apply (tail_dead plain m); [exact F1 | | exact E].
  cbn [mc_env frame_size length app]. rewrite !app_length. cbn [length]. lia.
Qed.
(** A frame without a checksum followed by something other than EOT. *)
Lemma plain_dead f m id p y s : is_frame plain f m id p -> y <> 4 -> dead summed (f ++ y :: s).
Proof.
  intros F E.
  assert (f ++ y :: s = 1 :: id :: (2 :: p ++ [3; 4]) ++ y :: s) as ->.
  { destruct F as (_ & _ & ->). cbn [mc_env]. unfold spec_frame. cbn [app]. reflexivity. }
  destruct F as (F1 & F2 & _). apply (tail_dead summed m); [exact F1 | | exact E].
  cbn [mc_env frame_size length app]. rewrite !app_length. cbn [length]. lia.
Qed.
Lemma plain_waits f m id p : is_frame plain f m id p -> undecided summed f.
Proof.
  intros F. pose proof (is_frame_length _ _ _ _ _ F) as HL. destruct F as (F1 & F2 & ->). cbn [mc_env] in *.
  unfold spec_frame in *. cbn [app] in *. cbn [undecided]. split; [reflexivity|]. split; [reflexivity|].
  exists m. split; [exact F1|]. rewrite HL. cbn [mc_env frame_size]. lia.
Qed.

Lemma dead_scan coll b t ms r : dead coll (b :: t) -> Scan coll t ms r -> Scan coll (b :: t) ms r.
Proof. intros (H1 & H2) HS. apply scan_skip; auto. Qed.

(** C72, one frame after synchronized bytes. *)
Lemma summed_one_lemma c beh h0 pre ms f m id p s w : static_ok plain = true -> index_safe c (capacity plain) -> tame beh ->
  is_frame summed f m id p -> Scan plain pre ms [] -> processed c plain beh h0 (pre ++ f ++ s) w ->
  ((id + zsum p + 6) mod 256 = 4 -> exists ms', Scan plain s ms' (held w)
     /\ Forall2 (delivers (little c)) (ms ++ Found m id p :: ms') (completed beh [] (w_log w)))
  /\ ((id + zsum p + 6) mod 256 <> 4 -> exists ms', Scan plain (tl f ++ s) ms' (held w)
     /\ Forall2 (delivers (little c)) (ms ++ ms') (completed beh [] (w_log w))).
Proof.
  intros Hst Hsafe Ht F HP Hw. split; intros E.
  - destruct (stream_lemma c plain Hst Hsafe beh Ht _ _ _ Hw) as (MS & H1 & H2).
    destruct (scan_total plain s) as (ms' & r & HS). pose proof (ScanLemmas.scan_app _ _ _ _ _ _ HP (summed_eot f m id p s ms' r F E HS)) as H3.
    destruct (scan_det _ _ _ _ H1 _ _ H3) as (-> & ->). exists ms'. auto.
  - pose proof (summed_dead f m id p s F E) as D. destruct (is_frame_head _ _ _ _ _ F) as (t & ->).
    cbn [tl app] in *. exact (dead_skipped_lemma c plain Hst Hsafe beh h0 pre ms 1 _ w Ht HP D Hw).
Qed.

Lemma plain_one_lemma c beh h0 pre ms f m id p y s w : static_ok summed = true -> index_safe c (capacity summed) -> tame beh ->
  is_frame plain f m id p -> Scan summed pre ms [] -> y <> 4 -> processed c summed beh h0 (pre ++ f ++ y :: s) w ->
  exists ms', Scan summed (tl f ++ y :: s) ms' (held w)
     /\ Forall2 (delivers (little c)) (ms ++ ms') (completed beh [] (w_log w)).
Proof.
  intros Hst Hsafe Ht F HP E Hw. pose proof (plain_dead f m id p y s F E) as D. destruct (is_frame_head _ _ _ _ _ F) as (t & ->).
  cbn [tl app] in *. exact (dead_skipped_lemma c summed Hst Hsafe beh h0 pre ms 1 _ w Ht HP D Hw).
Qed.

(** C72, streams. *)
Lemma summed_scan cs msgs fs : Forall (sendable summed) msgs -> Forall (clean cs summed) msgs ->
  Forall2 (fun mv f => is_message_frame cs summed (fst mv) (snd mv) f) msgs fs ->
  exists fds, Scan plain (concat fs) fds []
    /\ Forall2 (fun mv fd => f_message fd = fst mv
             /\ encodes (little cs) (mt_fields (fst mv)) (snd mv) (f_payload fd))
         (map fst (filter (fun mf => nth (length (snd mf) - 2) (snd mf) 0 =? 4) (combine msgs fs))) fds.
Proof.
  intros HM HC HF. induction HF as [|mv f msgs fs Hf HF IH].
  - exists []. split; [apply scan_nil | constructor].
  - inversion HM as [|? ? (M1 & M2) HM']; subst. inversion HC as [|? ? C1 HC']; subst. destruct (IH HM' HC') as (fds & H1 & H2).
    pose proof (C1 _ Hf) as HN. destruct Hf as (id & I1 & I2 & Ef).
    assert (is_frame summed f (fst mv) id (spec_payload (little cs) (mt_fields (fst mv)) (snd mv))) as F.
    { split; [assumption|]. split; [|assumption]. apply spec_payload_length, M2. }
    set (p := spec_payload (little cs) (mt_fields (fst mv)) (snd mv)) in *.
    assert (nth (length f - 2) f 0 = (id + zsum p + 6) mod 256) as EN.
    { destruct (frame_end _ _ _ _ _ F) as (g & Eg). cbn [mc_env] in Eg. rewrite Eg, app_length. cbn [length].
      rewrite app_nth2 by lia. replace (length g + 2 - 2 - length g)%nat with 0%nat by lia. reflexivity. }
    cbn [combine filter snd concat]. rewrite EN. destruct (Z.eqb_spec ((id + zsum p + 6) mod 256) 4) as [E|E].
    + exists (Found (fst mv) id p :: fds). split; [apply summed_eot; assumption|]. cbn [map fst].
      constructor; [|exact H2]. split; [reflexivity|]. split; [exact M2 | reflexivity].
    + exists fds. split; [|exact H2]. pose proof (summed_dead f _ id p (concat fs) F E) as D.
      destruct (is_frame_head _ _ _ _ _ F) as (t & Et). rewrite Et in *. cbn [app tl] in *.
      apply dead_scan; [exact D|]. exact (scan_noise plain (id :: 2 :: t) _ _ _ HN H1).
Qed.

Lemma summed_lemma c cs beh h0 msgs S w : static_ok plain = true -> static_ok summed = true ->
  index_safe c (capacity plain) -> tame beh -> little cs = little c ->
  Forall (sendable summed) msgs -> Forall (clean cs summed) msgs ->
  send_all cs summed vector_tx msgs [] = Ok S -> processed c plain beh h0 S w ->
  exists fs, Forall2 (fun mv f => is_message_frame cs summed (fst mv) (snd mv) f) msgs fs
    /\ map content (completed beh [] (w_log w))
       = map fst (filter (fun mf => nth (length (snd mf) - 2) (snd mf) 0 =? 4) (combine msgs fs))
    /\ held w = [].
Proof.
  intros Hp Hs Hsafe Ht HE HM HC HS Hw.
  destruct (send_all_vector cs summed msgs Hs HM []) as (fs & HF & E). rewrite HS in E. cbn [app] in E.
  assert (S = concat fs) as -> by congruence. exists fs. split; [exact HF|].
  destruct (summed_scan cs msgs fs HM HC HF) as (fds & H1 & H2).
  destruct (stream_lemma c plain Hp Hsafe beh Ht _ _ _ Hw) as (ms & H3 & H4).
  destruct (scan_det _ _ _ _ H1 _ _ H3) as (<- & E2). split; [|auto].
  rewrite HE in H2. eapply (delivered_content c plain); [exact Hp | | exact H2 | exact H4].
  apply Forall_forall. intros mv Hin. apply in_map_iff in Hin as ((mv' & f) & <- & Hin). apply filter_In in Hin as (Hin & _).
  apply in_combine_l in Hin. exact (proj1 (Forall_forall _ _) HM _ Hin).
Qed.

Lemma plain_scan cs msgs fs : Forall (sendable plain) msgs -> Forall (clean cs plain) msgs ->
  Forall2 (fun mv f => is_message_frame cs plain (fst mv) (snd mv) f) msgs fs ->
  Scan summed (concat fs) [] (last fs []).
Proof.
  intros HM HC HF. induction HF as [|mv f msgs fs Hf HF IH].
  - apply scan_nil.
  - inversion HM as [|? ? (M1 & M2) HM']; subst. inversion HC as [|? ? C1 HC']; subst. specialize (IH HM' HC').
    pose proof (C1 _ Hf) as HN. destruct Hf as (id & I1 & I2 & Ef).
    assert (is_frame plain f (fst mv) id (spec_payload (little cs) (mt_fields (fst mv)) (snd mv))) as F.
    { split; [assumption|]. split; [|assumption]. apply spec_payload_length, M2. }
    destruct HF as [|mv2 f2 msgs fs Hf2 HF2].
    + cbn [concat last]. rewrite app_nil_r. apply scan_wait. eapply plain_waits, F.
    + assert (exists t2, f2 = 1 :: t2) as (t2 & E2). { destruct Hf2 as (id2 & _ & _ & ->). eexists. reflexivity. }
      change (last (f :: f2 :: fs) []) with (last (f2 :: fs) []).
      assert (concat (f :: f2 :: fs) = f ++ 1 :: t2 ++ concat fs) as -> by (cbn [concat]; rewrite E2; reflexivity).
      assert (concat (f2 :: fs) = 1 :: t2 ++ concat fs) as EC by (cbn [concat]; rewrite E2; reflexivity).
      rewrite EC in IH. pose proof (plain_dead f _ id _ 1 (t2 ++ concat fs) F ltac:(discriminate)) as D.
      destruct (is_frame_head _ _ _ _ _ F) as (t & Et). rewrite Et in *. cbn [app tl] in *.
      apply dead_scan; [exact D|]. exact (scan_noise summed (id :: 2 :: t) _ _ _ HN IH).
Qed.

Lemma plain_lemma c cs beh h0 msgs S w : static_ok plain = true -> static_ok summed = true ->
  index_safe c (capacity summed) -> tame beh ->
  Forall (sendable plain) msgs -> Forall (clean cs plain) msgs ->
  send_all cs plain vector_tx msgs [] = Ok S -> processed c summed beh h0 S w ->
  completed beh [] (w_log w) = []
  /\ (msgs <> [] -> is_message_frame cs plain (fst (last msgs (MType 0 [], []))) (snd (last msgs (MType 0 [], []))) (held w)).
Proof.
  intros Hp Hs Hsafe Ht HM HC HS Hw.
  destruct (send_all_vector cs plain msgs Hp HM []) as (fs & HF & E). rewrite HS in E. cbn [app] in E.
  assert (S = concat fs) as -> by congruence.
  destruct (stream_lemma c summed Hs Hsafe beh Ht _ _ _ Hw) as (ms & H3 & H4).
  destruct (scan_det _ _ _ _ (plain_scan cs msgs fs HM HC HF) _ _ H3) as (<- & E2). split; [inversion H4; reflexivity|]. rewrite <- E2.
  clear - HF. intros HN. induction HF as [|mv f msgs fs H HF IH]; [destruct (HN eq_refl)|].
  destruct HF as [|mv2 f2 msgs fs H2 HF2]; [exact H|]. apply IH. discriminate.
Qed.
End Mix.
