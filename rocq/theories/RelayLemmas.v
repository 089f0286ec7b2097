(** Relaying delivered messages, unique decoding of streams, payload corruption in general. *)
From Verif Require Export CorruptionLemmas.

(** What is delivered can be sent. *)
Lemma delivered_sendable coll l s ms r new : Scan coll s ms r -> Forall2 (delivers l) ms new ->
  Forall (sendable coll) (map content new).
Proof.
  intros HS HF. pose proof (scan_frames_in _ _ _ _ HS) as HI. clear HS. induction HF as [|fd d ms new (D1 & D2) HF IH].
  - constructor.
  - inversion HI as [|? ? Hin HI']; subst. constructor; [|auto]. split; cbn [content fst snd].
    + rewrite D1. destruct Hin as (f & (_ & Hn) & _). eapply nth_error_In, Hn.
    + rewrite D1. apply D2.
Qed.

(** C63 *)
Lemma relay_lemma c c2 cs coll beh beh2 h0 h1 S w : static_ok coll = true ->
  index_safe c (capacity coll) -> index_safe c2 (capacity coll) -> little cs = little c2 ->
  tame beh -> tame beh2 -> processed c coll beh h0 S w ->
  exists S', send_all cs coll vector_tx (map content (completed beh [] (w_log w))) [] = Ok S'
    /\ forall v, processed c2 coll beh2 h1 S' v ->
         map content (completed beh2 [] (w_log v)) = map content (completed beh [] (w_log w)) /\ held v = [].
Proof.
  intros Hst Hs Hs2 HE Ht Ht2 Hw. destruct (stream_lemma c coll Hst Hs beh Ht _ _ _ Hw) as (ms & HS & HD).
  pose proof (delivered_sendable _ _ _ _ _ _ HS HD) as HM.
  destruct (send_all_vector cs coll _ Hst HM []) as (fs & HF & E). eexists. split; [exact E|].
  intros v Hv. eapply (lossless_lemma c2 coll Hst Hs2 cs beh2 h1); eauto.
Qed.

(** C64 *)
Lemma encoded_prefix cs coll : static_ok coll = true -> forall msgs1 msgs2 fds1 fds2,
  Forall (sendable coll) msgs1 ->
  Forall2 (fun mv fd => f_message fd = fst mv
             /\ encodes (little cs) (mt_fields (fst mv)) (snd mv) (f_payload fd)) msgs1 fds1 ->
  Forall2 (fun mv fd => f_message fd = fst mv
             /\ encodes (little cs) (mt_fields (fst mv)) (snd mv) (f_payload fd)) msgs2 (fds1 ++ fds2) ->
  exists rest, msgs2 = msgs1 ++ rest.
Proof.
  intros Hst msgs1 msgs2 fds1 fds2 HS HF. revert msgs2 HS.
  induction HF as [|[m vs] fd msgs1 fds1 (H1 & H2) HF IH]; intros msgs2 HS H.
  - exists msgs2. reflexivity.
  - cbn [app] in H. inversion H as [|mv2 fd2 msgs2' fl (G1 & G2) H'].
    destruct mv2 as [m' vs']. inversion HS as [|mv3 l3 (S1 & S2) HS']. cbn [fst snd] in *.
    destruct (IH _ HS' H') as (rest & ->). exists rest. cbn [app]. f_equal.
    assert (m' = m) as -> by congruence. f_equal.
    apply (encodes_unique cs (mt_fields m) _ _ (f_payload fd)); auto. apply (static_fields_ok coll); auto.
Qed.

Lemma unique_decoding_lemma cs cs2 coll msgs1 msgs2 S1 T : static_ok coll = true -> little cs = little cs2 ->
  Forall (sendable coll) msgs1 -> Forall (sendable coll) msgs2 ->
  send_all cs coll vector_tx msgs1 [] = Ok S1 -> send_all cs2 coll vector_tx msgs2 [] = Ok (S1 ++ T) ->
  exists rest, msgs2 = msgs1 ++ rest /\ send_all cs coll vector_tx rest [] = Ok T.
Proof.
  intros Hst HE M1 M2 E1 E2. destruct (send_all_frames cs coll msgs1 S1 Hst M1 E1) as (f1 & HS1 & HF1).
  destruct (send_all_frames cs2 coll msgs2 _ Hst M2 E2) as (f2 & HS2 & HF2). rewrite <- HE in HF2.
  destruct (scan_prefix coll S1 T f1 [] f2 [] HS1 HS2) as (f3 & ->).
  destruct (encoded_prefix cs coll Hst msgs1 msgs2 f1 f3 M1 HF1 HF2) as (rest & ->).
  exists rest. split; [reflexivity|]. apply Forall_app in M2 as (_ & M3).
  destruct (send_all_vector cs coll rest Hst M3 []) as (fs & HF3 & E3). rewrite E3. f_equal.
  destruct (send_all_vector cs2 coll (msgs1 ++ rest) Hst) with (s := @nil Z) as (fs12 & HF12 & E12);
    [apply Forall_app; auto|].
  destruct (send_all_vector cs coll msgs1 Hst M1 []) as (fs1 & HF1' & E1').
  rewrite E12 in E2. rewrite E1' in E1. cbn [app] in *.
  assert (forall a b, Forall2 (fun mv f => is_message_frame cs2 coll (fst mv) (snd mv) f) a b ->
     forall b', Forall2 (fun mv f => is_message_frame cs coll (fst mv) (snd mv) f) a b' -> b = b') as HU.
  { intros a b Hab. induction Hab as [|mv f a b F Hab IH]; intros b' Hab'; inversion Hab' as [|? ? ? ? F' Hab'']; subst;
      [reflexivity|]. f_equal; [|auto]. unfold is_message_frame in *. rewrite HE in F'.
    destruct F as (id & I & N & ->), F' as (id' & I' & N' & ->).
    eapply (message_frame_unique cs2 coll (fst mv) (snd mv)); unfold is_message_frame; eauto. }
  rewrite (HU _ _ HF12 _ (Forall2_app HF1' HF3)) in E2. rewrite concat_app in E2.
  assert (concat fs1 = S1) by congruence. subst S1. assert (concat fs1 ++ concat fs = concat fs1 ++ T) as EQ by congruence.
  apply app_inv_head in EQ. exact EQ.
Qed.

Lemma unique_messages_lemma cs cs2 coll msgs1 msgs2 S : static_ok coll = true -> little cs = little cs2 ->
  Forall (sendable coll) msgs1 -> Forall (sendable coll) msgs2 ->
  send_all cs coll vector_tx msgs1 [] = Ok S -> send_all cs2 coll vector_tx msgs2 [] = Ok S ->
  msgs1 = msgs2.
Proof.
  intros Hst HE M1 M2 E1 E2.
  destruct (unique_decoding_lemma cs cs2 coll msgs1 msgs2 S [] Hst HE M1 M2 E1) as (rest & -> & E).
  { rewrite app_nil_r. exact E2. }
  destruct rest as [|mv rest]; [symmetry; apply app_nil_r|]. exfalso.
  apply Forall_app in M2 as (_ & M2).
  destruct (send_all_frames cs coll _ _ Hst M2 E) as (fds & HS & HF).
  inversion HF; subst. destruct (scan_det _ _ _ _ HS _ _ (scan_nil coll)) as (Hc & _). discriminate.
Qed.

(** C65 *)
Lemma checksum_frame_iff coll m id p k : mc_env coll = BasicChecksum -> has_id coll m id ->
  length p = payload_size m ->
  let f := [1; id; 2] ++ p ++ [3; k; 4] in
  ((id + zsum p + 6) mod 256 = k -> is_frame coll f m id p)
  /\ ((id + zsum p + 6) mod 256 <> k -> forall s, dead coll (f ++ s)).
Proof.
  intros He Hid HL f.
  assert (zsum ([1; id; 2] ++ p ++ [3]) = id + zsum p + 6) as HZ.
  { rewrite !zsum_app. cbn [zsum fold_right]. lia. }
  split.
  - intros Hk. split; [assumption|]. split; [assumption|]. rewrite He. unfold spec_frame. rewrite HZ, Hk.
    unfold f. cbn [app]. repeat (rewrite <- ?app_assoc; cbn [app]). reflexivity.
  - intros Hk s. unfold f. split.
    + cbn [app]. intros U. apply undecided_long in U as (_ & _ & m2 & Hm2 & Hlt).
      assert (m2 = m) as -> by (eapply has_id_fun; eassumption).
      rewrite He in Hlt. unfold frame_size in Hlt. cbn [length] in Hlt. rewrite !app_length in Hlt. cbn [length] in Hlt. lia.
    + intros f2 m2 i2 p2 s2 F2 EE. destruct (is_frame_head _ _ _ _ _ F2) as (t3 & Ef2).
      assert (i2 = id) as ->. { rewrite Ef2 in EE. cbn [app] in EE. congruence. }
      assert (m2 = m) as -> by (eapply has_id_fun; [apply F2 | exact Hid]).
      destruct F2 as (_ & Lp2 & Fe2). rewrite He in Fe2. unfold spec_frame in Fe2.
      rewrite Fe2 in EE. cbn [app] in EE. repeat rewrite <- app_assoc in EE. cbn [app] in EE.
      assert (p ++ 3 :: k :: 4 :: s = p2 ++ 3 :: (zsum (1 :: id :: 2 :: p2 ++ [3]) mod 256) :: 4 :: s2) as E2 by congruence.
      destruct (app_eq_len _ _ _ _ E2) as (-> & E3); [congruence|].
      apply Hk. assert (zsum (1 :: id :: 2 :: p2 ++ [3]) mod 256 = k) as <- by congruence. f_equal. symmetry. exact HZ.
Qed.

Section Payload.
Context (c : config) (coll : collection).
Hypothesis Hst : static_ok coll = true.
Hypothesis Hsafe : index_safe c (capacity coll).

Lemma payload_corruption_lemma beh h0 pre ms m id p k s w : tame beh -> mc_env coll = BasicChecksum ->
  has_id coll m id -> length p = payload_size m -> Scan coll pre ms [] ->
  processed c coll beh h0 (pre ++ ([1; id; 2] ++ p ++ [3; k; 4]) ++ s) w ->
  ((id + zsum p + 6) mod 256 = k ->
     exists ms', Scan coll s ms' (held w)
       /\ Forall2 (delivers (little c)) (ms ++ Found m id p :: ms') (completed beh [] (w_log w)))
  /\ ((id + zsum p + 6) mod 256 <> k ->
     exists ms', Scan coll ([id; 2] ++ p ++ [3; k; 4] ++ s) ms' (held w)
       /\ Forall2 (delivers (little c)) (ms ++ ms') (completed beh [] (w_log w))).
Proof.
  intros Ht He Hid HL HP Hw. destruct (checksum_frame_iff coll m id p k He Hid HL) as (H1 & H2). split.
  - intros Hk. exact (frame_delivered_lemma c coll Hst Hsafe beh h0 pre ms _ m id p s w Ht HP (H1 Hk) Hw).
  - intros Hk. specialize (H2 Hk s). cbn [app] in H2, Hw. rewrite <- app_assoc in H2. cbn [app] in H2.
    rewrite <- app_assoc in Hw. cbn [app] in Hw.
    exact (dead_skipped_lemma c coll Hst Hsafe beh h0 pre ms _ _ w Ht HP H2 Hw).
Qed.
End Payload.
