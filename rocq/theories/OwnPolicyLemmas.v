(** BitwiseCopy as a serialization policy of an application, and one that does not depend on the
    machine's byte order. *)
From Verif Require Export OwnHistoryLemmas.

Lemma takes_block n : forall acc k bs, takes (read_block n acc k) bs
  = if Nat.leb n (length bs) then takes (k (acc ++ firstn n bs)) (skipn n bs) else None.
Proof.
  induction n as [|n IH]; intros acc k bs; cbn [read_block takes Nat.leb firstn skipn].
  - rewrite app_nil_r. reflexivity.
  - destruct bs as [|b bs]; [reflexivity|]. cbn [length firstn skipn]. rewrite IH, <- app_assoc. reflexivity.
Qed.

Section Bitwise.
Context (c : config).

Lemma bitwise_takes t b1 b2 : length b1 = fsize t -> takes (po_read bitwise c t) (b1 ++ b2)
  = match decode c t b1 with Some v => Some (Some (v, b2)) | None => Some None end.
Proof.
  intros HL. cbn [po_read bitwise]. rewrite takes_block, app_length, (proj2 (Nat.leb_le _ _)) by lia. cbn [app].
  rewrite <- HL, firstn_app, skipn_app, Nat.sub_diag, firstn_all, skipn_all. cbn [firstn skipn app].
  rewrite app_nil_r. destruct (decode c t b1); reflexivity.
Qed.

Lemma bitwise_decodes ts : Forall fty_ok ts -> forall bs, bytes_ok bs -> length bs = list_sum (map fsize ts) ->
  exists r, decodes bitwise c ts bs = Some r /\ forall vs, r = Some vs <-> encodes (little c) ts vs bs.
Proof.
  induction 1 as [|t ts Ht Hts IH]; intros bs HB HL; cbn [decodes].
  - destruct bs; [|discriminate HL]. exists (Some []). split; [reflexivity|]. intros vs. split.
    + intros E. injection E as <-. split; reflexivity.
    + intros (E & _). destruct vs; [reflexivity | discriminate].
  - change (list_sum (map fsize (t :: ts))) with (fsize t + list_sum (map fsize ts))%nat in HL.
    destruct (split_at bs (Z.of_nat (fsize t))) as (b1 & b2 & -> & Hb1); [unfold zlen; lia|].
    assert (length b1 = fsize t) as Hb1' by (unfold zlen in Hb1; lia).
    rewrite app_length in HL. apply Forall_app in HB as (HB1 & HB2).
    rewrite (bitwise_takes t b1 b2 Hb1'). destruct (decode c t b1) as [v|] eqn:D.
    + destruct (IH b2 HB2 ltac:(lia)) as (r & Hr & Hv). rewrite Hr. cbn [option_map].
      exists (option_map (cons v) r). split; [reflexivity|].
      destruct (encode_decode c t b1 v Ht HB1 Hb1' D) as (D1 & D2).
      intros vs. split.
      * intros E. destruct r as [vs'|]; [|discriminate]. cbn [option_map] in E. injection E as <-.
        destruct (proj1 (Hv vs') eq_refl) as (H1 & H2). split; [cbn [has_types]; rewrite D1, H1; reflexivity|].
        rewrite spec_payload_cons, H2, <- encode_spec, D2. reflexivity.
      * intros (E1 & E2). destruct vs as [|v' vs]; [discriminate|]. cbn [has_types] in E1. apply andb_true_iff in E1 as (E1 & E3).
        rewrite spec_payload_cons, <- encode_spec in E2.
        assert (encode c t v' = b1 /\ spec_payload (little c) ts vs = b2) as (E4 & E5).
        { pose proof (encode_length c t v' E1) as HL'. split.
          - apply (f_equal (firstn (fsize t))) in E2. rewrite <- HL' in E2 at 1. rewrite <- Hb1' in E2.
            rewrite !firstn_app, !firstn_all, !Nat.sub_diag in E2. cbn [firstn] in E2. rewrite !app_nil_r in E2. exact E2.
          - apply (f_equal (skipn (fsize t))) in E2. rewrite <- HL' in E2 at 1. rewrite <- Hb1' in E2.
            rewrite !skipn_app, !skipn_all, !Nat.sub_diag in E2. exact E2. }
        assert (r = Some vs) as -> by (apply Hv; split; assumption). cbn [option_map].
        pose proof (decode_encode c t v' Ht E1) as D3. rewrite E4 in D3. congruence.
    + exists None. split; [reflexivity|]. intros vs. split; [discriminate|]. intros (E1 & E2). exfalso.
      destruct vs as [|v' vs]; [discriminate|]. cbn [has_types] in E1. apply andb_true_iff in E1 as (E1 & E3).
      rewrite spec_payload_cons, <- encode_spec in E2. pose proof (encode_length c t v' E1) as HL'.
      assert (encode c t v' = b1) as E4.
      { apply (f_equal (firstn (fsize t))) in E2. rewrite <- HL' in E2 at 1. rewrite <- Hb1' in E2.
        rewrite !firstn_app, !firstn_all, !Nat.sub_diag in E2. cbn [firstn] in E2. rewrite !app_nil_r in E2. exact E2. }
      pose proof (decode_encode c t v' Ht E1) as D3. rewrite E4 in D3. congruence.
Qed.

Lemma map_mod_bytes bs : bytes_ok bs -> map (fun b => b mod 256) bs = bs.
Proof.
  induction 1 as [|b bs Hb _ IH]; [reflexivity|]. cbn [map]. rewrite IH, Z.mod_small by lia. reflexivity.
Qed.

Lemma bitwise_written ts : forall st vs, has_types vs ts = true -> written bitwise c st ts vs = spec_payload (little c) ts vs.
Proof.
  induction ts as [|t ts IH]; intros st [|v vs] H; try discriminate; [reflexivity|].
  cbn [has_types] in H. apply andb_true_iff in H as (H1 & H2). rewrite spec_payload_cons.
  cbn [written]. rewrite (IH _ _ H2). f_equal. cbn [po_buffer bitwise fst snd]. rewrite <- encode_spec.
  destruct (fty_eqb t u8) eqn:E.
  - apply fty_eqb_eq in E. subst t. destruct v as [z| | |]; try discriminate. cbn [map write_bytes concat app encode u8].
    unfold order. cbn [bytes_le]. destruct (little c); reflexivity.
  - cbn [map write_bytes concat app]. rewrite app_nil_r. apply map_mod_bytes, encode_ok, H1.
Qed.

Lemma bitwise_run {S} (t : transmitter S) ts : forall vs st s, has_types vs ts = true ->
  run_fields c bitwise t (combine ts vs) st s = buffer_tuple c t (combine ts vs) s.
Proof.
  induction ts as [|ty ts IH]; intros [|v vs] st s H; try discriminate; [reflexivity|].
  cbn [has_types] in H. apply andb_true_iff in H as (H1 & H2). cbn [combine run_fields buffer_tuple].
  assert (run_writes t (fst (po_buffer bitwise c st (ty, v))) s = buffer_field c t (ty, v) s) as ->.
  { cbn [po_buffer bitwise fst]. unfold buffer_field. destruct (fty_eqb ty u8) eqn:E.
    - apply fty_eqb_eq in E. subst ty. destruct v; try discriminate. cbn [run_writes]. apply bind_ret.
    - cbn [run_writes]. change (map (trunc 8)) with (map (fun b => b mod 256)). rewrite map_mod_bytes by apply encode_ok, H1.
      apply bind_ret. }
  destruct (buffer_field c t (ty, v) s); cbn [bind]; try reflexivity. apply IH, H2.
Qed.
End Bitwise.

Lemma run_read_block cap contents (HC : zlen contents = cap) n : forall acc k pos, 0 <= pos ->
  run_read cap contents (read_block n acc k) pos
  = if (Z.of_nat n =? 0) || (pos + Z.of_nat n <=? cap)
    then run_read cap contents (k (acc ++ firstn n (skipn (Z.to_nat pos) contents))) (pos + Z.of_nat n)
    else UB.
Proof.
  induction n as [|n IH]; intros acc k pos Hp; cbn [read_block].
  - cbn [firstn Z.of_nat Z.eqb orb]. rewrite app_nil_r, Z.add_0_r. reflexivity.
  - cbn [run_read]. rewrite (proj2 (Z.leb_le 0 pos) Hp). cbn [andb].
    rewrite (proj2 (Z.eqb_neq (Z.of_nat (S n)) 0)) by lia. cbn [orb].
    destruct (Z.ltb_spec pos cap) as [Hlt|Hge].
    + rewrite IH by lia.
      assert ((Z.of_nat n =? 0) || (pos + 1 + Z.of_nat n <=? cap) = (pos + Z.of_nat (S n) <=? cap)) as ->.
      { destruct (Z.eqb_spec (Z.of_nat n) 0), (Z.leb_spec (pos + 1 + Z.of_nat n) cap), (Z.leb_spec (pos + Z.of_nat (S n)) cap);
          cbn [orb]; try reflexivity; lia. }
      destruct (pos + Z.of_nat (S n) <=? cap); [|reflexivity].
      replace (pos + 1 + Z.of_nat n) with (pos + Z.of_nat (S n)) by lia. f_equal. f_equal.
      rewrite <- app_assoc. f_equal. replace (Z.to_nat (pos + 1)) with (S (Z.to_nat pos)) by lia. unfold arr_get.
      assert (Z.to_nat pos < length contents)%nat as HL by (unfold zlen in HC; lia).
      clear - HL. revert contents HL. induction (Z.to_nat pos) as [|p IH]; intros [|x l] HL; cbn [length] in HL; try lia; [reflexivity|].
      cbn [nth skipn]. apply IH. lia.
    + rewrite (proj2 (Z.leb_gt _ _)) by lia. reflexivity.
Qed.

Lemma bitwise_read c cap contents t pos : zlen contents = cap -> 0 <= pos -> fty_ok t ->
  run_read cap contents (po_read bitwise c t) pos
  = do v <- unbuffer c cap contents t pos; Ok (v, pos + Z.of_nat (fsize t)).
Proof.
  intros HC Hp Ht. unfold fty_ok in Ht. cbn [po_read bitwise]. rewrite run_read_block by assumption.
  rewrite (proj2 (Z.eqb_neq (Z.of_nat (fsize t)) 0)) by lia. cbn [orb app].
  unfold unbuffer, range_ok. rewrite (proj2 (Z.leb_le 0 pos) Hp), (proj2 (Z.leb_le pos (pos + Z.of_nat (fsize t)))) by lia. cbn [andb].
  destruct (pos + Z.of_nat (fsize t) <=? cap); [|reflexivity].
  unfold arr_slice. replace (Z.to_nat (pos + Z.of_nat (fsize t) - pos)) with (fsize t) by lia.
  destruct (decode c t _); reflexivity.
Qed.

(** ** The conditions on policies *)
Section Conditions.
Context (oc : own_collection) (Hst : own_static_ok oc = true).

Lemma own_fields_ok m : In m (oc_types oc) -> Forall fty_ok (mt_fields m).
Proof.
  intros Hin. pose proof Hst as H. unfold own_static_ok in H. rewrite !andb_true_iff in H. destruct H as ((((_ & H) & _) & _) & _).
  rewrite forallb_forall in H. specialize (H m Hin). rewrite forallb_forall in H.
  apply Forall_forall. intros t Ht. specialize (H t Ht). apply Z.leb_le in H. unfold fty_ok. lia.
Qed.

Lemma bitwise_policy_reads c : oe_policy (oc_env oc) = bitwise -> policy_reads c oc.
Proof.
  intros HP m bs Hm HB HL. rewrite HP. destruct (bitwise_decodes c (mt_fields m) (own_fields_ok m Hm) bs HB HL) as (r & H & _).
  exists r. exact H.
Qed.

Lemma bitwise_policy_total c : oe_policy (oc_env oc) = bitwise -> own_bool_free oc -> policy_total c oc.
Proof.
  intros HP Hb m bs Hm HB HL. unfold own_decodes. rewrite HP.
  destruct (bitwise_decodes c (mt_fields m) (own_fields_ok m Hm) bs HB HL) as (r & H & Hr).
  destruct (encodes_total c (mt_fields m) bs (own_fields_ok m Hm)) as (vs & E); auto.
  - apply Forall_forall. intros t Ht. exact (Hb m t Hm Ht).
  - exists vs. rewrite H, (proj2 (Hr vs) E). reflexivity.
Qed.

Lemma bitwise_policy_matched cs c : oe_policy (oc_env oc) = bitwise -> little cs = little c -> policy_matched cs c oc.
Proof.
  intros HP HL m vs Hm Hv. unfold own_decodes, own_written. rewrite HP.
  rewrite bitwise_written by assumption. rewrite HL.
  pose proof (spec_payload_length c (mt_fields m) vs Hv) as HLen. split; [exact HLen|].
  destruct (bitwise_decodes c (mt_fields m) (own_fields_ok m Hm) (spec_payload (little c) (mt_fields m) vs)) as (r & H & Hr).
  - apply spec_payload_ok, Hv.
  - exact HLen.
  - rewrite H. rewrite (proj2 (Hr vs)); [reflexivity|]. split; [assumption | reflexivity].
Qed.

Lemma field_policy_matched cs c :
  (forall m t v st rest, In m (oc_types oc) -> In t (mt_fields m) -> has_type v t = true -> bytes_ok rest ->
     let bs := concat (map write_bytes (fst (po_buffer (oe_policy (oc_env oc)) cs st (t, v)))) in
     length bs = fsize t /\ takes (po_read (oe_policy (oc_env oc)) c t) (bs ++ rest) = Some (Some (v, rest))) ->
  policy_matched cs c oc.
Proof.
  intros HF m vs Hm Hv. unfold own_decodes, own_written, payload_size.
  assert (forall t, In t (mt_fields m) -> In t (mt_fields m)) as Hin by auto. revert Hin Hv.
  generalize (po_init (oe_policy (oc_env oc))). revert vs. generalize (mt_fields m) at 1 3 4 5 6 7 as ts.
  induction ts as [|t ts IH]; intros vs st Hin Hv.
  - destruct vs; [split; reflexivity | discriminate].
  - destruct vs as [|v vs]; [discriminate|]. cbn [has_types] in Hv. apply andb_true_iff in Hv as (Hv1 & Hv2).
    cbn [written decodes]. set (st' := snd _).
    destruct (IH vs st' (fun t' H' => Hin t' (or_intror H')) Hv2) as (IH1 & IH2).
    assert (bytes_ok (written (oe_policy (oc_env oc)) cs st' ts vs)) as HB by apply written_ok.
    destruct (HF m t v st _ Hm (Hin t (or_introl eq_refl)) Hv1 HB) as (H1 & H2).
    change (list_sum (map fsize (t :: ts))) with (fsize t + list_sum (map fsize ts))%nat.
    split; [rewrite app_length, H1, IH1; reflexivity|]. rewrite H2, IH2. reflexivity.
Qed.

Lemma portable_written p (HB : forall c c' st f, po_buffer p c st f = po_buffer p c' st f) c c' :
  forall ts st vs, written p c st ts vs = written p c' st ts vs.
Proof.
  induction ts as [|t ts IH]; intros st [|v vs]; try reflexivity. cbn [written]. rewrite (HB c c' st (t, v)), IH. reflexivity.
Qed.

Lemma portable_decodes p (HR : forall c c' t, po_read p c t = po_read p c' t) c c' :
  forall ts bs, decodes p c ts bs = decodes p c' ts bs.
Proof.
  induction ts as [|t ts IH]; intros bs; [reflexivity|]. cbn [decodes]. rewrite (HR c c' t).
  destruct (takes (po_read p c' t) bs) as [[[v bs']|]|]; try reflexivity. rewrite IH. reflexivity.
Qed.

Lemma portable_policy_matched : let p := oe_policy (oc_env oc) in
  (forall c c' st f, po_buffer p c st f = po_buffer p c' st f) ->
  (forall c c' t, po_read p c t = po_read p c' t) ->
  forall c0, policy_matched c0 c0 oc -> forall cs c, policy_matched cs c oc.
Proof.
  intros p HB HR c0 H cs c m vs Hm Hv. destruct (H m vs Hm Hv) as (H1 & H2). unfold own_decodes, own_written in H1, H2 |- *. fold p in H1, H2 |- *.
  rewrite (portable_written p HB cs c0), (portable_decodes p HR c c0). auto.
Qed.
End Conditions.

Lemma portable_run {T} (t : transmitter T) p (HB : forall c c' st f, po_buffer p c st f = po_buffer p c' st f) c c' contents :
  forall st s, run_fields c p t contents st s = run_fields c' p t contents st s.
Proof.
  induction contents as [|f l IH]; intros st s; [reflexivity|]. cbn [run_fields]. rewrite (HB c c' st f).
  destruct (run_writes t (fst (po_buffer p c' st f)) s); cbn [bind]; try reflexivity. apply IH.
Qed.

Lemma portable_send oc : let p := oe_policy (oc_env oc) in
  (forall c c' st f, po_buffer p c st f = po_buffer p c' st f) ->
  forall c c' m T (t : transmitter T) contents s, own_send c oc m t contents s = own_send c' oc m t contents s.
Proof.
  intros p HB c c' m T t contents s. unfold own_send. destruct (negb _); [reflexivity|].
  destruct (find_index (oc_types oc) m); [|reflexivity]. f_equal. fold p.
  generalize (oe_send (oc_env oc) (trunc 8 z)). intros k. revert s. induction k as [|b k IH|bs k IH|k IH|k IH]; intros s; cbn [run_send].
  - reflexivity.
  - apply bind_ext. intros s1. apply IH.
  - apply bind_ext. intros s1. apply IH.
  - unfold own_tuple. rewrite (portable_run _ p HB c c'). apply bind_ext. intros s1. apply IH.
  - unfold own_tuple. rewrite (portable_run _ p HB c c'). apply bind_ext. intros s1. apply IH.
Qed.
