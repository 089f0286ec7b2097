(** The frame scanner: determined, total, and compositional. *)
From Verif Require Export HistoryProofs SendLemmas.

Lemma scan_consumed coll s ms r : Scan coll s ms r -> Consumed coll s ms r.
Proof.
  induction 1 as [s Hu | f m id p s ms r Hf HS IH | b s ms r Hn Hnf HS IH]; intros T ms' r' H.
  - exact H.
  - rewrite <- app_assoc. cbn [app]. apply scan_frame; [assumption|]. apply IH, H.
  - cbn [app]. destruct (dead_app coll b s T (conj Hn Hnf)) as (Hn' & Hnf').
    apply scan_skip; [assumption|assumption|]. apply IH, H.
Qed.

Lemma scan_app coll s ms t ms' r : Scan coll s ms [] -> Scan coll t ms' r -> Scan coll (s ++ t) (ms ++ ms') r.
Proof. intros H H'. apply (scan_consumed _ _ _ _ H). exact H'. Qed.

Lemma scan_nil coll : Scan coll [] [] [].
Proof. apply scan_wait. exact I. Qed.

Lemma scan_noise coll noise s ms r : ~ In 1 noise -> Scan coll s ms r -> Scan coll (noise ++ s) ms r.
Proof.
  induction noise as [|b noise IH]; intros Hn H; [exact H|]. cbn [app].
  destruct (not_soh_dead coll b (noise ++ s)) as (H1 & H2).
  - intros ->. apply Hn. left. reflexivity.
  - apply scan_skip; auto. apply IH; [|assumption]. intros Hi. apply Hn. right. exact Hi.
Qed.

(** Frames one after the other. *)
Lemma scan_frames coll (fds : list found) : forall fs,
  Forall2 (fun fd f => is_frame coll f (f_message fd) (f_id fd) (f_payload fd)) fds fs ->
  Scan coll (concat fs) fds [].
Proof.
  induction fds as [|[m id p] fds IH]; intros fs H; inversion H; subst; cbn [concat].
  - apply scan_nil.
  - apply scan_frame; [assumption|]. apply IH. assumption.
Qed.

Lemma sent_frames c coll msgs fs : Forall (sendable coll) msgs ->
  Forall2 (fun mv f => is_message_frame c coll (fst mv) (snd mv) f) msgs fs ->
  exists fds, Forall2 (fun fd f => is_frame coll f (f_message fd) (f_id fd) (f_payload fd)) fds fs
    /\ Forall2 (fun mv fd => f_message fd = fst mv
                 /\ encodes (little c) (mt_fields (fst mv)) (snd mv) (f_payload fd)) msgs fds.
Proof.
  intros HS H. revert HS. induction H as [|[m vs] f msgs fs Hf H IH]; intros HS.
  - exists []. split; constructor.
  - inversion HS as [|? ? Hs HS']; subst. destruct Hs as [Hin Hty]. cbn [fst snd] in *. destruct (IH HS') as (fds & H1 & H2).
    destruct (message_frame_is_frame c coll m vs f Hty Hf) as (id & Hid).
    exists (Found m id (spec_payload (little c) (mt_fields m) vs) :: fds). split; constructor; auto.
    cbn. repeat split. assumption.
Qed.

(** Values are determined by the frame. *)
Lemma delivers_fun c fd d d' : Forall fty_ok (mt_fields (f_message fd)) ->
  delivers (little c) fd d -> delivers (little c) fd d' -> content d = content d'.
Proof.
  intros HF (H1 & H2) (H3 & H4). unfold content. f_equal; [congruence|].
  destruct H2 as (T1 & E1). destruct H4 as (T2 & E2).
  apply (encodes_unique c (mt_fields (f_message fd)) _ _ (f_payload fd)); [exact HF | split; eassumption | split; eassumption].
Qed.

Lemma scan_frames_in coll s ms r : Scan coll s ms r ->
  Forall (fun fd => exists f, is_frame coll f (f_message fd) (f_id fd) (f_payload fd)) ms.
Proof. induction 1; [constructor | constructor; eauto | assumption]. Qed.

Lemma delivers_all_fun c coll ms : static_ok coll = true ->
  Forall (fun fd => exists f, is_frame coll f (f_message fd) (f_id fd) (f_payload fd)) ms ->
  forall l l', Forall2 (delivers (little c)) ms l -> Forall2 (delivers (little c)) ms l' ->
  map content l = map content l'.
Proof.
  intros Hst. induction 1 as [|fd ms (f & Hf) HF IH]; intros l l' H H'; inversion H; inversion H'; subst; [reflexivity|].
  cbn [map]. f_equal; [|apply IH; assumption]. eapply delivers_fun; eauto.
  apply (static_fields_ok coll); [assumption|]. destruct Hf as (Hid & _). eapply has_id_in, Hid.
Qed.

Lemma scan_occurs coll s ms r : Scan coll s ms r -> forall n, occurs coll (firstn n ms) s.
Proof.
  induction 1 as [s Hu | f m id p s ms r Hf HS IH | b s ms r Hn Hnf HS IH]; intros n.
  - rewrite firstn_nil. constructor.
  - destruct n as [|n]; cbn [firstn]; [constructor|]. apply (occ_cons coll [] f); auto.
  - specialize (IH n). destruct (firstn n ms) as [|fd l] eqn:E; [constructor|].
    inversion IH as [|g f m id p ms' s' Hf Ho]; subst. apply (occ_cons coll (b :: g) f); assumption.
Qed.

Lemma consumed_occurs coll S ms X : Consumed coll S ms X -> occurs coll ms S.
Proof.
  intros H. destruct (scan_total coll X) as (ms' & r & HS). specialize (H [] ms' r). rewrite !app_nil_r in H.
  specialize (H HS). pose proof (scan_occurs coll S (ms ++ ms') r H (length ms)) as Ho.
  rewrite firstn_app_exact in Ho by reflexivity. exact Ho.
Qed.

(** After enough bytes other than the start code nothing is kept. *)
Lemma scan_idle coll g idle ms r : static_ok coll = true -> ~ In 1 idle ->
  max_message_length coll <= zlen idle -> Scan coll (g ++ idle) ms r -> r = [].
Proof.
  intros Hst Hn Hl H. pose proof (scan_rest_undecided _ _ _ _ H) as Hu.
  destruct (scan_suffix _ _ _ _ H) as (pre & E). pose proof (undecided_lt_max _ _ Hst Hu) as Hlt.
  destruct r as [|b r]; [reflexivity|]. exfalso. apply Hn.
  assert (b = 1) as ->. { destruct r as [|? [|? ?]]; cbn in Hu; intuition. }
  assert (exists q, idle = q ++ 1 :: r) as (q & ->).
  { assert (length pre = length g + (length idle - length (1%Z :: r)))%nat as HL.
    { apply (f_equal (@length Z)) in E. rewrite !app_length in E. unfold zlen in *. lia. }
    exists (skipn (length g) pre). apply (f_equal (skipn (length g))) in E.
    rewrite skipn_app_exact in E by reflexivity. rewrite skipn_app in E.
    replace (length g - length pre)%nat with 0%nat in E by lia. exact E. }
  apply in_or_app. right. left. reflexivity.
Qed.
