(** The receiver refines the specification receiver. *)
From Verif Require Export SendProofs.

(** ** Buffer operations that returned normally did what they say, without conditions *)
Section Sound.
Context (c : config) (cap : Z) (Hcap : cap_ok cap).


Lemma slide_sound b X b' : rep cap b X -> rb_slide cap b = Ok b' -> rep cap b' X.
Proof.
  intros R H. unfold rb_slide in H.
  destruct ((rb_begin b =? 0) && negb (rb_empty b)); [discriminate|].
  destruct (rep_ideal_copy cap Hcap b b X X R R) as (b1 & H1 & R1 & _). congruence.
Qed.

Lemma ensure_space_sound b X n b' : rep cap b X -> rb_ensure_space c cap n b = Ok b' -> rep cap b' X.
Proof.
  intros R H. unfold rb_ensure_space in H. rewrite (rep_empty _ _ _ R) in H.
  assert (rep cap (if match X with [] => true | _ => false end
                   then RBuf 0 0 (rb_contents b) else b) X) as R1.
  { destruct X; [apply (rep_clear _ _ _ R) | assumption]. }
  revert H R1. generalize (if match X with [] => true | _ => false end then RBuf 0 0 (rb_contents b) else b).
  intros b1 H R1. destruct (_ <=? cap).
  - congruence.
  - destruct (assert_ c _); try discriminate. cbn [bind] in H. eapply slide_sound; eassumption.
Qed.

Lemma push_range_sound b X data b' : rep cap b X -> rb_push_range c cap data b = Ok b' ->
  zlen X + zlen data <= cap /\ rep cap b' (X ++ data).
Proof.
  intros R H. unfold rb_push_range in H.
  destruct (rb_ensure_space c cap _ b) as [b1| | | |] eqn:E; try discriminate. cbn [bind] in H.
  apply (ensure_space_sound b X) in E; [|assumption].
  destruct (Z.leb_spec (rb_pastEnd b1 + zlen data) cap) as [Hle|]; [|discriminate].
  pose proof (rep_write_end cap b1 X data E Hle) as R2.
  destruct (rb_verify c cap _); try discriminate. cbn [bind] in H. injection H as <-.
  destruct (rep_inv _ _ _ E) as (I1 & _). pose proof (zlen_nonneg data).
  rewrite (to_sz_small cap Hcap) by lia. split; [|assumption].
  pose proof (rep_size_le _ _ _ R2) as H2. rewrite zlen_app in H2. assumption.
Qed.
End Sound.

Section Receiver.
Context (c : config) (coll : collection) (Hst : static_ok coll = true).
Local Notation cap := (capacity coll).
Let Hcap : cap_ok cap := capacity_ok coll Hst.

(** ** Deserializing the frame at the front of the buffer *)
Lemma frame_split f m id p : is_frame coll f m id p ->
  exists t, f = [1; id; 2] ++ p ++ t.
Proof.
  intros (_ & _ & ->). unfold spec_frame. destruct (mc_env coll).
  - eexists. reflexivity.
  - cbv zeta. rewrite <- !app_assoc. eexists. reflexivity.
Qed.

Lemma deserialize_frame e f m id p s : erep coll e (f ++ s) -> is_frame coll f m id p ->
  exists A B, zlen A + zlen p + zlen B = cap /\
    deserialize_message c coll e id
    = do vs <- deserialize c cap (A ++ p ++ B) (mt_fields m) (zlen A) []; Ok (Some (m, vs)).
Proof.
  intros (A & B & HC & Hb & Hp & Hl) F. destruct (frame_split _ _ _ _ F) as (t & ->).
  exists (A ++ [1; id; 2]), (t ++ s ++ B). rewrite !zlen_app in *.
  pose proof (zlen_nonneg A). pose proof (zlen_nonneg B). pose proof (zlen_nonneg p).
  pose proof (zlen_nonneg t). pose proof (zlen_nonneg s).
  change (zlen [1; id; 2]) with 3 in *. split; [lia|].
  unfold deserialize_message.
  assert (rb_begin (er_buf e) + data_offset (mc_env coll) = zlen A + 3) as ->.
  { rewrite Hb. unfold data_offset. destruct (mc_env coll); reflexivity. }
  rewrite (proj2 (Z.ltb_ge _ _)) by lia.
  rewrite (apply_at_spec _ id _ _ m).
  - rewrite HC. rewrite <- !app_assoc. cbn [app]. reflexivity.
  - destruct (static_ok_elim _ Hst) as (Hn & _). unfold message_count in Hn. lia.
  - apply F.
  - apply F.
Qed.

Lemma frame_payload_ok f m id p s : is_frame coll f m id p -> bytes_ok (f ++ s) -> bytes_ok p.
Proof.
  intros F HB. destruct (frame_split _ _ _ _ F) as (t & ->).
  apply Forall_app in HB as [HB _]. apply Forall_app in HB as [_ HB]. apply Forall_app in HB. apply HB.
Qed.

Lemma deserialize_message_complete e f m id p s vs : erep coll e (f ++ s) -> is_frame coll f m id p ->
  encodes (little c) (mt_fields m) vs p ->
  deserialize_message c coll e id = Ok (Some (m, vs)).
Proof.
  intros R F E. destruct (deserialize_frame e f m id p s R F) as (A & B & HL & ->).
  rewrite (deserialize_encodes c cap (mt_fields m)) with (vs := vs); auto.
  apply (static_fields_ok coll); [assumption|]. eapply has_id_in, F.
Qed.

Lemma deserialize_message_sound e f m id p s x : erep coll e (f ++ s) -> is_frame coll f m id p ->
  bytes_ok (f ++ s) -> deserialize_message c coll e id = Ok x ->
  exists vs, x = Some (m, vs) /\ encodes (little c) (mt_fields m) vs p.
Proof.
  intros R F HB H. destruct (deserialize_frame e f m id p s R F) as (A & B & HL & HD).
  rewrite HD in H.
  destruct (deserialize c cap (A ++ p ++ B) (mt_fields m) (zlen A) []) as [vs'| | | |] eqn:D; try discriminate.
  cbn [bind] in H. injection H as <-.
  apply deserialize_ok_inv in D.
  - destruct D as (vs & -> & E). exists vs. auto.
  - apply (static_fields_ok coll); [assumption|]. eapply has_id_in, F.
  - eapply frame_payload_ok; eassumption.
  - apply F.
  - assumption.
Qed.

(** ** Simulation relation *)
Definition sim (w : world) (s : sstate) : Prop :=
  erep coll (rx_recv (w_rx w)) (s_bytes s)
  /\ bytes_ok (s_bytes s)
  /\ rx_functor (w_rx w) = s_handler s
  /\ rx_invoker (w_rx w) = option_map h_type (s_handler s)
  /\ rx_last (w_rx w) = s_last s
  /\ w_log w = s_log s.

Lemma appended_ok acts : (forall a, In a acts -> match a with AProcess => False | AAppend d => bytes_ok d | _ => True end) ->
  bytes_ok (appended acts).
Proof.
  induction acts as [|a acts IH]; intros H; unfold appended; cbn [map concat]; [constructor|].
  apply Forall_app. split.
  - specialize (H a (or_introl eq_refl)). destruct a; try constructor. exact H.
  - apply IH. intros a' Ha'. apply H. right. assumption.
Qed.

(** Running a tame handler's actions; the current id is not touched. *)
Lemma run_acts_complete proc acts : index_safe c cap ->
  (forall a, In a acts -> match a with AProcess => False | AAppend d => bytes_ok d | _ => True end) ->
  forall w X h last log, sim w (SState X h last log) -> zlen (X ++ appended acts) <= cap ->
  exists w', run_acts c coll proc acts w = Ok (w', false)
    /\ sim w' (SState (X ++ appended acts) (handler_after acts h) last log)
    /\ er_id (rx_recv (w_rx w')) = er_id (rx_recv (w_rx w)).
Proof.
  intros Hsafe. induction acts as [|a acts IH]; intros Ht w X h last log Hs Hfit.
  - exists w. unfold appended. cbn [map concat handler_after fold_left] in *. rewrite app_nil_r. auto.
  - assert (forall a', In a' acts -> match a' with AProcess => False | AAppend d => bytes_ok d | _ => True end) as Ht'
      by (intros a' H; apply Ht; right; assumption).
    specialize (Ht a (or_introl eq_refl)).
    unfold appended in Hfit |- *. cbn [map concat] in Hfit |- *. fold (appended acts) in Hfit |- *.
    unfold handler_after. cbn [fold_left]. fold (handler_after acts).
    destruct Hs as (R & HB & Hf & Hi & Hl & Hlog). cbn [s_bytes s_handler s_last s_log] in *.
    destruct a as [h'| |d|]; cbn [run_acts bind]; try contradiction.
    + destruct (IH Ht' (World (rx_set_handler h' (w_rx w)) (w_log w)) X (Some h') last log) as (w' & H1 & H2 & H3); auto.
      { repeat split; auto. }
      exists w'. auto.
    + destruct (IH Ht' (World (rx_clear_handler (w_rx w)) (w_log w)) X None last log) as (w' & H1 & H2 & H3); auto.
      { repeat split; auto. }
      exists w'. auto.
    + rewrite !zlen_app in Hfit. pose proof (zlen_nonneg (appended acts)).
      unfold rx_append, er_append.
      destruct (rep_push_range c cap Hcap Hsafe (er_buf (rx_recv (w_rx w))) X d R) as (b' & -> & R'); [lia|].
      cbn [bind].
      destruct (IH Ht' (World (Receiver (ERB (er_id (rx_recv (w_rx w))) b') (rx_invoker (w_rx w))
                   (rx_functor (w_rx w)) (rx_last (w_rx w))) (w_log w)) (X ++ d) h last log) as (w' & H1 & H2 & H3); auto.
      { repeat split; auto. apply Forall_app. auto. }
      { rewrite !zlen_app. lia. }
      exists w'. rewrite <- app_assoc in H2. auto.
Qed.

Lemma run_acts_sound proc acts :
  (forall a, In a acts -> match a with AProcess => False | AAppend d => bytes_ok d | _ => True end) ->
  forall w X h last log w' t, sim w (SState X h last log) ->
  run_acts c coll proc acts w = Ok (w', t) ->
  t = false /\ sim w' (SState (X ++ appended acts) (handler_after acts h) last log)
    /\ er_id (rx_recv (w_rx w')) = er_id (rx_recv (w_rx w)).
Proof.
  induction acts as [|a acts IH]; intros Ht w X h last log w' t Hs H.
  - cbn [run_acts] in H. injection H as <- <-. unfold appended. cbn [map concat handler_after fold_left] in *.
    rewrite app_nil_r. auto.
  - assert (forall a', In a' acts -> match a' with AProcess => False | AAppend d => bytes_ok d | _ => True end) as Ht'
      by (intros a' H'; apply Ht; right; assumption).
    specialize (Ht a (or_introl eq_refl)).
    unfold appended. cbn [map concat]. fold (appended acts).
    unfold handler_after. cbn [fold_left]. fold (handler_after acts).
    destruct Hs as (R & HB & Hf & Hi & Hl & Hlog). cbn [s_bytes s_handler s_last s_log] in *.
    destruct a as [h'| |d|]; cbn [run_acts bind] in H; try contradiction.
    + eapply IH in H; [exact H|assumption|]. repeat split; auto.
    + eapply IH in H; [exact H|assumption|]. repeat split; auto.
    + unfold rx_append, er_append in H.
      destruct (rb_push_range c cap d (er_buf (rx_recv (w_rx w)))) as [b'| | | |] eqn:E; try discriminate.
      cbn [bind] in H. destruct (push_range_sound c cap Hcap _ X _ _ R E) as (_ & R').
      rewrite app_assoc. eapply IH in H; [exact H|assumption|].
      repeat split; auto. apply Forall_app. auto.
Qed.

(** ** processMessages *)
Lemma no_frame_dead b X : no_frame coll b X <-> dead coll (b :: X).
Proof. reflexivity. Qed.

Lemma Proc_skips beh X Y h last log s' r : Skips coll X Y ->
  Proc coll (little c) beh (SState Y h last log) s' r ->
  Proc coll (little c) beh (SState X h last log) s' r.
Proof. induction 1; intros H1; [assumption|]. apply proc_skip; auto. Qed.

Lemma skips_ok X Y : (exists K, X = K ++ Y) -> bytes_ok X -> bytes_ok Y.
Proof. intros (K & ->) H. apply Forall_app in H. apply H. Qed.

(** Effect of one check on a simulated world. *)
Lemma check_sim w s : sim w s ->
  exists ok e Y, check c coll (rx_recv (w_rx w)) = Ok (ok, e)
    /\ Skips coll (s_bytes s) Y
    /\ sim (w_set_recv e w) (SState Y (s_handler s) (s_last s) (s_log s))
    /\ if ok then exists f m id p s0, Y = f ++ s0 /\ is_frame coll f m id p /\ er_id e = Some id
       else undecided coll Y.
Proof.
  intros (R & HB & Hf & Hi & Hl & Hlog).
  destruct (check_spec c coll Hst _ _ R HB) as (ok & e & Y & H1 & H2 & H3 & H4 & H5).
  exists ok, e, Y. split; [assumption|]. split; [assumption|]. split; [|assumption].
  repeat split; auto. eapply skips_ok; eassumption.
Qed.

Lemma process_sound beh : tame beh -> forall fuel n w s w' p, sim w s ->
  process_loop fuel c coll beh n w = Ok (w', p) -> 0 <= n < 256 ->
  exists s' r, Proc coll (little c) beh s s' r /\ sim w' s'
    /\ p = match r with Some k => Returned ((n + Z.of_nat k) mod 256) | None => Threw end.
Proof.
  intros Ht. induction fuel as [|fuel IH]; intros n w s w' p Hs H Hn; [discriminate|].
  cbn [process_loop] in H.
  destruct (check_sim w s Hs) as (ok & e & Y & HC & HS & Hs1 & HY). rewrite HC in H. cbn [bind] in H.
  destruct s as [X h last log]. cbn [s_bytes s_handler s_last s_log] in *.
  destruct ok; cbn [negb] in H.
  2:{ injection H as <- <-. exists (SState Y h last log), (Some O).
      split; [eapply Proc_skips; [eassumption | apply proc_wait, HY]|]. split; [assumption|].
      rewrite Z.add_0_r, Z.mod_small by lia. reflexivity. }
  destruct HY as (f & m & id & pl & s0 & -> & F & Hid).
  unfold er_current_id in H. rewrite Hid in H. cbn [bind] in H.
  set (w1 := w_set_last id (w_set_recv e w)) in H.
  assert (sim w1 (SState (f ++ s0) h (Some id) log)) as Hs2.
  { destruct Hs1 as (A1 & A2 & A3 & A4 & A5 & A6). repeat split; auto. }
  assert (rx_recv (w_rx w1) = e) as He by reflexivity.
  unfold invoke in H.
  pose proof Hs2 as (R & HB & Hf & Hi & Hl & Hlog). cbn [s_bytes s_handler s_last s_log] in *.
  rewrite Hf, Hi in H. destruct h as [h|]; cbn [option_map] in H; [|discriminate].
  rewrite Z.eqb_refl in H. cbn [negb] in H.
  destruct (deserialize_message c coll (rx_recv (w_rx w1)) id) as [x| | | |] eqn:D; try discriminate.
  cbn [bind] in H.
  destruct (deserialize_message_sound _ _ _ _ _ _ _ R F HB D) as (vs & -> & E).
  rewrite Hlog in H. set (log1 := log ++ [Delivery h m vs]) in *.
  destruct (run_acts c coll _ (hr_acts (beh log1)) (World (w_rx w1) log1)) as [[w2 t]| | | |] eqn:RA;
    try discriminate. cbn [bind] in H.
  eapply (run_acts_sound _ _ (Ht log1)) with (X := f ++ s0) (h := Some h) (last := Some id) (log := log1) in RA.
  2:{ repeat split; auto. }
  destruct RA as (-> & Hs3 & Hid2). cbn [orb] in H. cbn [w_rx] in Hid2. rewrite He, Hid in Hid2.
  rewrite <- app_assoc in Hs3.
  assert (zlen (f ++ s0 ++ appended (hr_acts (beh log1))) <= cap) as Hfit.
  { destruct Hs3 as (R3 & _). exact (rep_size_le _ _ _ R3). }
  destruct (hr_throws (beh log1)) eqn:HT.
  - injection H as <- <-. eexists. exists None. split.
    + eapply Proc_skips; [eassumption|]. eapply proc_throw; eassumption.
    + split; [assumption | reflexivity].
  - pose proof Hs3 as (R3 & HB3 & Hf3 & Hi3 & Hl3 & Hlog3). cbn [s_bytes s_handler s_last s_log] in *.
    destruct (pop_message_spec c coll Hst (rx_recv (w_rx w2)) f m id pl (s0 ++ appended (hr_acts (beh log1))))
      as (e3 & HP & R4 & _); auto.
    rewrite HP in H. cbn [bind] in H.
    eapply IH in H.
    + destruct H as (s' & r & HPr & Hsim & ->). exists s', (option_map S r). split.
      * eapply Proc_skips; [eassumption|]. eapply proc_frame; eassumption.
      * split; [assumption|]. destruct r as [k|]; [|reflexivity]. cbn [option_map]. f_equal.
        unfold trunc. change (2 ^ 8) with 256. rewrite Zplus_mod_idemp_l. f_equal. lia.
    + split; [exact R4|]. apply Forall_app in HB3 as [_ HB3]. repeat split; auto.
    + unfold trunc. apply Z.mod_pos_bound. reflexivity.
Qed.

Lemma Proc_log_ext beh s s' r : Proc coll (little c) beh s s' r ->
  (length (s_log s) <= length (s_log s'))%nat.
Proof.
  induction 1; cbn [s_log] in *; try subst log1; rewrite ?app_length in *; simpl length in *; lia.
Qed.

(** A frame at the front after skipping: at most one byte string fits. *)
Lemma Proc_skips_inv beh X Y h last log s' r : Skips coll X Y ->
  Proc coll (little c) beh (SState X h last log) s' r ->
  Proc coll (little c) beh (SState Y h last log) s' r.
Proof.
  induction 1 as [s|b s Y D HS IH]; intros H; [assumption|]. destruct D as [D1 D2].
  inversion H as [? ? ? ? U | ? ? ? ? ? ? ? _ HP | ? ? ? ? ? ? ? ? ? ? ? F | ? ? ? ? ? ? ? ? ? F]; subst.
  - contradiction.
  - apply IH, HP.
  - exfalso. eapply D2; [eassumption | symmetry; eassumption].
  - exfalso. eapply D2; [eassumption | symmetry; eassumption].
Qed.

Lemma process_complete beh : tame beh -> index_safe c cap -> forall fuel n w s s' r, sim w s ->
  Proc coll (little c) beh s s' r ->
  (length (s_log s') - length (s_log s) < fuel)%nat -> 0 <= n < 256 ->
  exists w', process_loop fuel c coll beh n w
             = Ok (w', match r with Some k => Returned ((n + Z.of_nat k) mod 256) | None => Threw end)
    /\ sim w' s'.
Proof.
  intros Ht Hsafe. induction fuel as [|fuel IH]; intros n w s s' r Hs HP Hf Hn; [lia|].
  cbn [process_loop].
  destruct (check_sim w s Hs) as (ok & e & Y & HC & HS & Hs1 & HY). rewrite HC. cbn [bind].
  destruct s as [X h last log]. cbn [s_bytes s_handler s_last s_log] in *.
  apply (Proc_skips_inv _ X Y) in HP; [|assumption].
  destruct ok; cbn [negb].
  2:{ inversion HP as [? ? ? ? U | ? ? ? ? ? ? ? D HP' | ? ? ? ? ? ? ? ? ? ? ? F | ? ? ? ? ? ? ? ? ? F]; subst.
      - eexists. split; [|eassumption]. change (Z.of_nat 0) with 0. rewrite Z.add_0_r, Z.mod_small by lia. reflexivity.
      - destruct D as [D _]. contradiction.
      - exfalso. eapply frame_not_undecided; eassumption.
      - exfalso. eapply frame_not_undecided; eassumption. }
  destruct HY as (f & m & id & pl & s0 & -> & F & Hid).
  assert (exists h0 vs, h = Some h0 /\ encodes (little c) (mt_fields m) vs pl /\
     let log1 := log ++ [Delivery h0 m vs] in
     let acts := hr_acts (beh log1) in
     zlen (f ++ s0 ++ appended acts) <= cap /\
     (if hr_throws (beh log1)
      then s' = SState (f ++ s0 ++ appended acts) (handler_after acts (Some h0)) (Some id) log1 /\ r = None
      else exists r', r = option_map S r'
           /\ Proc coll (little c) beh (SState (s0 ++ appended acts) (handler_after acts (Some h0)) (Some id) log1) s' r'))
    as (h0 & vs & -> & E & Hfit & Hcase).
  { inversion HP as [? ? ? ? U | ? ? ? ? ? ? ? D HP' EQ | f' m' id' p' vs ? h0 ? ? ? r' F' E' ? ? HT Hfit HP' EQ
                    | f' m' id' p' vs ? h0 ? ? F' E' ? ? HT Hfit EQ]; subst.
    - exfalso. eapply frame_not_undecided; eassumption.
    - exfalso. destruct D as [_ D]. eapply D; [eassumption|eassumption].
    - destruct (is_frame_unique _ _ _ _ _ _ _ _ _ _ _ F F' (eq_sym EQ)) as (<- & <- & <- & <- & <-).
      exists h0, vs. split; [reflexivity|]. split; [assumption|]. cbv zeta. split; [assumption|].
      subst log1 acts. rewrite HT. eauto.
    - destruct (is_frame_unique _ _ _ _ _ _ _ _ _ _ _ F F' (eq_sym EQ)) as (<- & <- & <- & <- & <-).
      exists h0, vs. split; [reflexivity|]. split; [assumption|]. cbv zeta. split; [assumption|].
      subst log1 acts. rewrite HT. eauto. }
  unfold er_current_id. rewrite Hid. cbn [bind].
  set (w1 := w_set_last id (w_set_recv e w)).
  assert (sim w1 (SState (f ++ s0) (Some h0) (Some id) log)) as Hs2.
  { destruct Hs1 as (A1 & A2 & A3 & A4 & A5 & A6). repeat split; auto. }
  assert (rx_recv (w_rx w1) = e) as He by reflexivity.
  unfold invoke. pose proof Hs2 as (R & HB & Hfn & Hi & Hl & Hlog). cbn [s_bytes s_handler s_last s_log] in *.
  rewrite Hfn, Hi. cbn [option_map]. rewrite Z.eqb_refl. cbn [negb].
  rewrite (deserialize_message_complete _ _ _ _ _ _ _ R F E). cbn [bind].
  rewrite Hlog. set (log1 := log ++ [Delivery h0 m vs]) in *.
  edestruct (run_acts_complete
      (fun w => if rx_has_handler (w_rx w) then process_loop fuel c coll beh 0 w else Ok (w, Returned 0))
      (hr_acts (beh log1)) Hsafe (Ht log1) (World (w_rx w1) log1) (f ++ s0) (Some h0) (Some id) log1)
    as (w2 & RA & Hs3 & Hid2).
  { repeat split; auto. }
  { rewrite <- app_assoc. assumption. }
  rewrite RA. cbn [bind orb]. cbn [w_rx] in Hid2. rewrite He, Hid in Hid2. rewrite <- app_assoc in Hs3.
  destruct (hr_throws (beh log1)) eqn:HT.
  - destruct Hcase as (-> & ->). eauto.
  - destruct Hcase as (r' & -> & HP').
    pose proof Hs3 as (R3 & HB3 & Hf3 & Hi3 & Hl3 & Hlog3). cbn [s_bytes s_handler s_last s_log] in *.
    destruct (pop_message_spec c coll Hst (rx_recv (w_rx w2)) f m id pl (s0 ++ appended (hr_acts (beh log1))))
      as (e3 & HPM & R4 & _); auto.
    rewrite HPM. cbn [bind].
    assert (sim (w_set_recv e3 w2) (SState (s0 ++ appended (hr_acts (beh log1)))
              (handler_after (hr_acts (beh log1)) (Some h0)) (Some id) log1)) as Hs4.
    { split; [exact R4|]. apply Forall_app in HB3 as [_ HB3]. repeat split; auto. }
    destruct (IH (trunc 8 (n + 1)) (w_set_recv e3 w2) _ _ _ Hs4 HP') as (w4 & H4 & Hs5).
    + cbn [s_log]. pose proof (Proc_log_ext _ _ _ _ HP') as HL. cbn [s_log] in HL. subst log1.
      rewrite app_length in *. simpl length in *. lia.
    + unfold trunc. apply Z.mod_pos_bound. reflexivity.
    + exists w4. split; [|assumption]. rewrite H4. destruct r' as [k|]; [|reflexivity]. cbn [option_map].
      do 3 f_equal. unfold trunc. change (2 ^ 8) with 256. rewrite Zplus_mod_idemp_l. f_equal. lia.
Qed.

(** ** Operations *)

Lemma sim_available w s : sim w s -> rx_available coll (w_rx w) = cap - zlen (s_bytes s).
Proof.
  intros (R & _). unfold rx_available, er_available.
  rewrite (max_size_cap _ Hcap), (rep_size _ Hcap _ _ R). pose proof (rep_size_le _ _ _ R).
  pose proof (zlen_nonneg (s_bytes s)). apply (to_sz_small _ Hcap). lia.
Qed.

Lemma receive_sim_at a w s : index_safe c cap -> sim w s ->
  adapter_ok_at a (Z.min (ad_available a mod 256) (cap - zlen (s_bytes s))) ->
  let d := fst (ad_read a (Z.min (ad_available a mod 256) (cap - zlen (s_bytes s)))) in
  exists r, rx_receive_from c coll a (w_rx w) = Ok (r, zlen d)
    /\ sim (World r (w_log w)) (SState (s_bytes s ++ d) (s_handler s) (s_last s) (s_log s)).
Proof.
  intros Hsafe Hs Ha d. pose proof Hs as (R & HB & Hf & Hi & Hl & Hlog).
  unfold rx_receive_from, er_from_functor.
  pose proof (rep_size_le _ _ _ R). pose proof (zlen_nonneg (s_bytes s)).
  assert (0 <= adapter_available a < 256) as Hav.
  { unfold adapter_available, trunc. apply Z.mod_pos_bound. reflexivity. }
  set (n := Z.min (ad_available a mod 256) (cap - zlen (s_bytes s))) in d.
  assert (n = Z.min (adapter_available a) (cap - zlen (s_bytes s))) as Hn by reflexivity.
  assert (0 <= n <= 255) as Hn2 by lia.
  destruct Ha as (Hd1 & Hd2 & Hd3). fold n in Hd1, Hd2, Hd3. fold d in Hd1, Hd2, Hd3.
  destruct (rep_from_functor c cap Hcap Hsafe (er_buf (rx_recv (w_rx w))) (s_bytes s) (adapter_call a)
             (adapter_available a) d R) as (b' & -> & R').
  - lia.
  - rewrite <- Hn. unfold adapter_call. rewrite trunc_small by (change (2 ^ 8) with 256; lia).
    destruct (ad_read a n) as [data ret] eqn:EA. cbn [fst snd] in *. subst d. cbn [fst].
    rewrite Hd3. rewrite trunc_small; [reflexivity|]. pose proof (zlen_nonneg data). change (2 ^ 8) with 256. lia.
  - rewrite <- Hn. lia.
  - cbn [bind]. eexists. split; [reflexivity|]. repeat split; auto. apply Forall_app. auto.
Qed.

Lemma receive_sim a w s : index_safe c cap -> adapter_ok a -> sim w s ->
  let d := fst (ad_read a (Z.min (ad_available a mod 256) (cap - zlen (s_bytes s)))) in
  exists r, rx_receive_from c coll a (w_rx w) = Ok (r, zlen d)
    /\ sim (World r (w_log w)) (SState (s_bytes s ++ d) (s_handler s) (s_last s) (s_log s)).
Proof.
  intros Hsafe Ha Hs. apply receive_sim_at; auto. apply Ha.
  destruct Hs as (R & _). pose proof (rep_size_le _ _ _ R).
  pose proof (Z.mod_pos_bound (ad_available a) 256 eq_refl). lia.
Qed.

Lemma step_sound beh fuel o w s w' r : tame beh -> index_safe c cap -> sim w s -> allowed coll o w ->
  step fuel c coll beh o w = Ok (w', r) ->
  exists d s', Step coll (little c) beh o s d s' r /\ sim w' s'.
Proof.
  intros Ht Hsafe Hs Ha H. destruct s as [X h last log].
  pose proof Hs as (R & HB & Hf & Hi & Hl & Hlog). cbn [s_bytes s_handler s_last s_log] in *.
  destruct o as [h'| |d|a|]; cbn [step allowed] in *.
  - injection H as <- <-. exists [], (SState X (Some h') last log). split; [constructor|]. repeat split; auto.
  - injection H as <- <-. exists [], (SState X None last log). split; [constructor|]. repeat split; auto.
  - unfold rx_append, er_append in H.
    destruct (rb_push_range c cap d (er_buf (rx_recv (w_rx w)))) as [b'| | | |] eqn:E; try discriminate.
    cbn [bind] in H. injection H as <- <-.
    destruct (push_range_sound c cap Hcap _ X _ _ R E) as (Hfit & R').
    exists d, (SState (X ++ d) h last log). split; [constructor; assumption|].
    repeat split; auto. apply Forall_app. split; [assumption | apply Ha].
  - destruct (receive_sim a w (SState X h last log) Hsafe Ha Hs) as (rx & HR & Hs').
    rewrite HR in H. cbn [bind] in H. injection H as <- <-.
    eexists. eexists. split; [|exact Hs']. constructor. reflexivity.
  - unfold process_messages, rx_has_handler in H. rewrite Hf in H. destruct h as [h|]; cbn [negb] in H.
    + destruct (process_loop fuel c coll beh 0 w) as [[w1 p]| | | |] eqn:E; try discriminate.
      cbn [bind] in H. injection H as <- <-.
      destruct (process_sound beh Ht _ _ _ _ _ _ Hs E) as (s' & r & HP & Hs' & ->); [lia|].
      exists [], s'. split; [|assumption].
      replace (match r with Some k => Returned ((0 + Z.of_nat k) mod 256) | None => Threw end) with (spec_result r)
        by (destruct r; reflexivity).
      constructor. assumption.
    + cbn [bind] in H. injection H as <- <-. exists [], (SState X None last log). split; [constructor|]. repeat split; auto.
Qed.

Lemma step_complete beh fuel o w s d s' r : tame beh -> index_safe c cap -> sim w s -> allowed coll o w ->
  Step coll (little c) beh o s d s' r ->
  (length (s_log s') - length (s_log s) < fuel)%nat ->
  exists w', step fuel c coll beh o w = Ok (w', r) /\ sim w' s'.
Proof.
  intros Ht Hsafe Hs Ha HS Hfuel. pose proof Hs as (R & HB & Hf & Hi & Hl & Hlog).
  inversion HS; subst; cbn [step allowed s_bytes s_handler s_last s_log] in *.
  - eexists. split; [reflexivity|]. repeat split; auto.
  - eexists. split; [reflexivity|]. repeat split; auto.
  - unfold rx_append, er_append.
    destruct (rep_push_range c cap Hcap Hsafe (er_buf (rx_recv (w_rx w))) X d R) as (b' & -> & R'); [assumption|].
    cbn [bind]. eexists. split; [reflexivity|]. repeat split; auto. apply Forall_app. split; [assumption | apply Ha].
  - destruct (receive_sim a w _ Hsafe Ha Hs) as (rx & HR & Hs'). cbn [s_bytes] in HR. rewrite HR.
    cbn [bind]. eexists. split; [reflexivity|]. assumption.
  - unfold process_messages, rx_has_handler. rewrite Hf. cbn [negb bind].
    eexists. split; [reflexivity|]. repeat split; auto.
  - unfold process_messages, rx_has_handler. rewrite Hf. cbn [negb].
    match goal with HP : Proc _ _ _ _ _ _ |- _ =>
      destruct (process_complete beh Ht Hsafe fuel 0 w _ _ _ Hs HP Hfuel) as (w' & H1 & H2) end; [lia|].
    rewrite H1. cbn [bind]. eexists. split; [|eassumption]. destruct r0; reflexivity.
Qed.
End Receiver.
