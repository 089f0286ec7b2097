(** Lemmas on envelopes written by an application. *)
From Verif Require Export SpecOwn ReceiverLemmas DeliveryLemmas SendLemmas.

Lemma Forall_firstn {A} (P : A -> Prop) n l : Forall P l -> Forall P (firstn n l).
Proof. rewrite <- (firstn_skipn n l) at 1. intros H. apply Forall_app in H. apply H. Qed.
Lemma Forall_skipn {A} (P : A -> Prop) n l : Forall P l -> Forall P (skipn n l).
Proof. rewrite <- (firstn_skipn n l) at 1. intros H. apply Forall_app in H. apply H. Qed.

Section Own.
Context (c : config) (oc : own_collection) (Hst : own_static_ok oc = true).
Local Notation cap := (own_capacity oc).
Context (w : Z) (Hw : size_type cap w).

(** ** Metaprograms *)
Lemma own_static_elim :
  1 <= zlen (oc_types oc) <= 255
  /\ (forall m, In m (oc_types oc) -> Forall fty_ok (mt_fields m) /\ 0 <= own_sizeof oc m)
  /\ 1 <= own_max_length oc /\ cap < 2 ^ 64.
Proof.
  pose proof Hst as H. unfold own_static_ok in H. rewrite !andb_true_iff, !Z.leb_le, Z.ltb_lt, !forallb_forall in H.
  destruct H as (((((H1 & H2) & H3) & H4) & H5) & H6). repeat split; try assumption.
  - apply Forall_forall. intros t Ht. specialize (H3 m H). rewrite forallb_forall in H3. specialize (H3 t Ht).
    apply Z.leb_le in H3. unfold fty_ok. lia.
  - specialize (H4 m H). apply Z.leb_le in H4. assumption.
Qed.

Lemma own_cap_ok : cap_ok cap.
Proof. destruct own_static_elim as (_ & _ & H1 & H2). unfold cap_ok, own_capacity in *. lia. Qed.
Let Hcap : cap_ok cap := own_cap_ok.

Lemma own_max_from_ge rest : forall best m, In m (best :: rest) ->
  own_sizeof oc m <= own_sizeof oc (own_max_from oc best rest).
Proof.
  unfold own_max_from. induction rest as [|x rest IH]; intros best m Hm; cbn [fold_left].
  - destruct Hm as [<-|[]]. lia.
  - destruct (Z.ltb_spec (own_sizeof oc best) (own_sizeof oc x)) as [H|H].
    + destruct Hm as [<-|Hm]; [|apply IH, Hm]. pose proof (IH x x (or_introl eq_refl)). lia.
    + destruct Hm as [<-|[<-|Hm]].
      * apply IH. left. reflexivity.
      * pose proof (IH best best (or_introl eq_refl)). lia.
      * apply IH. right. assumption.
Qed.

Lemma own_has_id_in m i : own_has_id oc m i -> In m (oc_types oc).
Proof. intros [_ H]. eapply nth_error_In, H. Qed.

Lemma own_length_sizeof m : own_length oc m = own_sizeof oc m.
Proof. unfold own_length, own_sizeof. rewrite sizeof_fields_sum. reflexivity. Qed.

Lemma own_length_max m : In m (oc_types oc) -> 0 <= own_length oc m <= own_max_length oc.
Proof.
  intros Hm. rewrite own_length_sizeof. split; [apply own_static_elim, Hm|]. unfold own_max_length.
  destruct (oc_types oc) as [|x rest]; [contradiction|]. apply own_max_from_ge, Hm.
Qed.

Lemma own_length_cap m : In m (oc_types oc) -> 0 <= own_length oc m <= cap.
Proof. intros Hm. pose proof (own_length_max m Hm). unfold own_capacity. lia. Qed.

Lemma own_has_id_lt m i : own_has_id oc m i -> 0 <= i < zlen (oc_types oc).
Proof.
  intros [H1 H2]. assert (nth_error (oc_types oc) (Z.to_nat i) <> None) as H by congruence.
  apply nth_error_Some in H. unfold zlen. lia.
Qed.

Lemma own_valid_has_id i : 0 <= i -> own_id_valid oc i = true -> exists m, own_has_id oc m i.
Proof.
  unfold own_id_valid, zlen. intros H0 H. apply Z.ltb_lt in H.
  destruct (nth_error (oc_types oc) (Z.to_nat i)) as [m|] eqn:E.
  - exists m. split; assumption.
  - apply nth_error_None in E. lia.
Qed.

Lemma own_get_length_valid m i : own_has_id oc m i -> own_get_length oc i = Ok (own_length oc m).
Proof.
  intros Hm. unfold own_get_length. pose proof (own_has_id_lt _ _ Hm) as Hi.
  unfold own_id_valid. rewrite (proj2 (Z.ltb_lt _ _)) by lia. cbn [negb].
  rewrite (apply_at_spec _ i _ _ m).
  - rewrite <- own_length_sizeof. pose proof (own_length_max m (own_has_id_in _ _ Hm)).
    pose proof own_static_elim. pose proof (uint_least_bits_bound (own_max_length oc)).
    rewrite trunc_small; [reflexivity|]. unfold own_capacity in *. lia.
  - destruct own_static_elim as (H & _). lia.
  - apply Hm.
  - apply Hm.
Qed.

(** ** The code of a check on the buffer, and on lists *)
Lemma own_to_sz i : to_sz cap i = i mod 2 ^ w.
Proof. unfold to_sz, trunc. rewrite (size_type_bits cap w Hcap Hw). reflexivity. Qed.

Lemma own_mod_bound i : 0 <= i mod 2 ^ w.
Proof.
  destruct Hw as (Hin & _). assert (0 < 2 ^ w). { apply Z.pow_pos_nonneg; [lia|]. cbn [In] in Hin. lia. }
  apply Z.mod_pos_bound. assumption.
Qed.

Lemma assert_false : aborts c = true -> assert_ c false = AssertFail.
Proof. unfold assert_. intros ->. reflexivity. Qed.

Lemma rb_index_past b X i : rep cap b X -> zlen X <= i -> aborts c = true -> rb_index c cap b i = AssertFail.
Proof.
  intros R Hi HA. unfold rb_index, rb_ref. rewrite (rep_size cap Hcap b X R).
  rewrite (proj2 (Z.ltb_ge _ _)) by lia. rewrite assert_false by assumption. reflexivity.
Qed.

Lemma pop_past n : forall b X, rep cap b X -> (length X < n)%nat -> aborts c = true ->
  repeat_m n (rb_increment_begin c cap) b = AssertFail.
Proof.
  induction n as [|n IH]; intros b X R Hn HA; [lia|]. cbn [repeat_m]. destruct X as [|x X].
  - unfold rb_increment_begin. destruct R as (A & B & _ & Hb & Hp & _). change (zlen (@nil Z)) with 0 in Hp.
    rewrite (proj2 (Z.ltb_ge _ _)) by lia. rewrite assert_false by assumption. reflexivity.
  - destruct (rep_increment_begin c cap Hcap b x X R) as (b' & -> & R'). cbn [bind]. apply (IH b' X R'); [|assumption].
    cbn [length] in Hn. lia.
Qed.

Lemma run_check_exec k : forall e X, rep cap (er_buf e) X -> id_ok oc (er_id e) ->
  match exec w oc k X (er_id e) with
  | Some (r, Y, id) => exists e', run_check c oc k e = Ok (r, e')
      /\ rep cap (er_buf e') Y /\ er_id e' = id /\ id_ok oc id
  | None => aborts c = true -> stops (plain c) = true -> run_check c oc k e = AssertFail
  end.
Proof.
  induction k as [b|x k IH|k IH|k IH|k IH|n k IH|i k IH|i x k IH|i k IH|k IH|k IH|k IH]; intros e X R HI;
    cbn [exec run_check].
  - exists e. auto.
  - destruct x.
    + rewrite assert_true by reflexivity. apply IH; assumption.
    + intros HA HP. rewrite assert_false by assumption. reflexivity.
  - rewrite (rep_size cap Hcap _ _ R). apply IH; assumption.
  - rewrite (rep_empty _ _ _ R). apply IH; assumption.
  - destruct X as [|x X].
    + intros HA HP. unfold rb_front. rewrite (rb_index_past _ _ 0 R); [reflexivity | change (zlen (@nil Z)) with 0; lia | assumption].
    + rewrite (rep_front c cap Hcap _ _ _ R). cbn [bind]. apply IH; assumption.
  - unfold own_pop_front. rewrite own_to_sz. pose proof (own_mod_bound n) as Hn. set (j := n mod 2 ^ w) in *.
    destruct X as [|x X].
    + intros HA HP. unfold rb_pop_front, rb_front. rewrite (rb_index_past _ _ 0 R); [reflexivity | change (zlen (@nil Z)) with 0; lia | assumption].
    + destruct (Z.leb_spec j (zlen (x :: X))) as [Hle|Hgt].
      * pose proof (firstn_skipn (Z.to_nat j) (x :: X)) as E.
        destruct (rep_pop_front c cap Hcap (er_buf e) (firstn (Z.to_nat j) (x :: X)) (skipn (Z.to_nat j) (x :: X)) x j)
          as (b' & -> & R').
        { rewrite E. assumption. }
        { unfold zlen in *. rewrite firstn_length. lia. }
        { rewrite E. reflexivity. }
        cbn [bind]. apply (IH x (ERB (er_id e) b') _ R'). assumption.
      * intros HA HP. unfold rb_pop_front. rewrite (rep_front c cap Hcap _ _ _ R). cbn [bind].
        rewrite (pop_past _ _ _ R); [reflexivity | unfold zlen in *; lia | assumption].
  - rewrite own_to_sz. pose proof (own_mod_bound i) as Hn. set (j := i mod 2 ^ w) in *.
    destruct (nth_error X (Z.to_nat j)) as [x|] eqn:E.
    + assert (nth_error X (Z.to_nat j) <> None) as HL by congruence. apply nth_error_Some in HL.
      rewrite (rep_index c cap Hcap _ X j R) by (unfold zlen; lia). cbn [bind].
      rewrite (nth_error_nth X (Z.to_nat j) 0 E). apply IH; assumption.
    + intros HA HP. apply nth_error_None in E. rewrite (rb_index_past _ _ _ R); [reflexivity | unfold zlen; lia | assumption].
  - rewrite own_to_sz. pose proof (own_mod_bound i) as Hn. set (j := i mod 2 ^ w) in *.
    destruct (Z.ltb_spec j (zlen X)) as [Hlt|Hge].
    + assert (exists P y Q, X = P ++ y :: Q /\ j = zlen P) as (P & y & Q & EX & Ej).
      { assert (Z.to_nat j < length X)%nat as HL by (unfold zlen in Hlt; lia).
        destruct (nth_error X (Z.to_nat j)) as [y|] eqn:E; [|apply nth_error_None in E; lia].
        apply nth_error_split in E as (P & Q & E & EP). exists P, y, Q. split; [assumption|]. unfold zlen. lia. }
      rewrite EX in R |- *. rewrite Ej.
      destruct (rep_set c cap Hcap (er_buf e) P y (trunc 8 x) Q R) as (b' & -> & R'). cbn [bind].
      assert (Z.to_nat (zlen P) = length P) as -> by (unfold zlen; lia).
      rewrite firstn_app, Nat.sub_diag, firstn_all. cbn [firstn]. rewrite app_nil_r.
      rewrite skipn_app. rewrite (skipn_all2 P) by lia. replace (S (length P) - length P)%nat with 1%nat by lia.
      cbn [skipn app]. apply (IH (ERB (er_id e) b') _ R'). assumption.
    + intros HA HP. unfold rb_set, rb_ref. rewrite (rep_size cap Hcap _ X R). rewrite (proj2 (Z.ltb_ge _ _)) by lia.
      rewrite assert_false by assumption. reflexivity.
  - unfold own_set_id, own_id_valid. unfold trunc. change (2 ^ 8) with 256.
    apply (IH (ERB (if i mod 256 <? zlen (oc_types oc) then Some (i mod 256) else None) (er_buf e))); [assumption|].
    cbn [er_id]. intros a Ha. destruct (Z.ltb_spec (i mod 256) (zlen (oc_types oc))) as [H|]; [|discriminate].
    injection Ha as <-. apply own_valid_has_id; [apply Z.mod_pos_bound; lia | apply Z.ltb_lt, H].
  - apply IH; assumption.
  - unfold er_current_id. destruct (er_id e) as [i|] eqn:E.
    + cbn [bind]. rewrite <- E. apply IH; [assumption | rewrite E; assumption].
    + intros HA HP. rewrite HP. reflexivity.
  - unfold own_message_length, er_id_valid, er_current_id. destruct (er_id e) as [i|] eqn:E.
    + destruct (HI i eq_refl) as (m & Hm). rewrite (proj2 Hm).
      rewrite plain_true by reflexivity. cbn [bind]. rewrite (own_get_length_valid m i Hm). cbn [bind].
      rewrite <- E. apply IH; [assumption | rewrite E; assumption].
    + intros HA HP. unfold assert_plain. rewrite HP. reflexivity.
Qed.

Lemma exec_shrinks k : forall X id r Y id', exec w oc k X id = Some (r, Y, id') ->
  zlen Y <= zlen X /\ (bytes_ok X -> bytes_ok Y) /\ (id_ok oc id -> id_ok oc id').
Proof.
  induction k as [b|x k IH|k IH|k IH|k IH|n k IH|i k IH|i x k IH|i k IH|k IH|k IH|k IH]; intros X id r Y id' H;
    cbn [exec] in H; try (eapply IH; exact H).
  - injection H as <- <- <-. split; [lia|]. auto.
  - destruct x; [eapply IH; exact H | discriminate].
  - destruct X; [discriminate | eapply IH; exact H].
  - destruct X as [|x X]; [discriminate|]. destruct (_ <=? _); [|discriminate]. apply IH in H as (H1 & H2 & H3).
    split; [|split; [|assumption]].
    + unfold zlen in *. rewrite skipn_length in H1. lia.
    + intros HB. apply H2. rewrite <- (firstn_skipn (Z.to_nat (n mod 2 ^ w)) (x :: X)) in HB. apply Forall_app in HB. apply HB.
  - destruct (nth_error _ _); [eapply IH; exact H | discriminate].
  - pose proof (own_mod_bound i) as Hj. set (j := i mod 2 ^ w) in *.
    destruct (Z.ltb_spec j (zlen X)) as [Hlt|]; [|discriminate]. apply IH in H as (H1 & H2 & H3).
    split; [|split; [|assumption]].
    + unfold zlen in *. rewrite !app_length, firstn_length, skipn_length in H1. cbn [length] in H1. lia.
    + intros HB. apply H2. apply Forall_app. split; [apply Forall_firstn, HB|]. apply Forall_app. split.
      * constructor; [apply Z.mod_pos_bound; lia | constructor].
      * apply Forall_skipn, HB.
  - apply IH in H as (H1 & H2 & H3). split; [assumption|]. split; [assumption|]. intros HI. apply H3. intros a Ha.
    destruct (Z.ltb_spec (i mod 256) (zlen (oc_types oc))) as [HL|]; [|discriminate].
    injection Ha as <-. apply own_valid_has_id; [apply Z.mod_pos_bound; lia | apply Z.ltb_lt, HL].
  - destruct id; [eapply IH; exact H | discriminate].
  - destruct id as [i|]; [|discriminate]. destruct (nth_error _ _); [eapply IH; exact H | discriminate].
Qed.

(** ** Deserializing *)
Lemma run_read_takes k : forall A bs B, zlen A + zlen bs + zlen B = cap ->
  match takes k bs with
  | Some (Some (v, bs')) => exists u, bs = u ++ bs' /\ run_read cap (A ++ bs ++ B) k (zlen A) = Ok (v, zlen A + zlen u)
  | Some None => run_read cap (A ++ bs ++ B) k (zlen A) = UB
  | None => True
  end.
Proof.
  induction k as [v| |k IH]; intros A bs B HL; cbn [takes run_read].
  - exists []. split; [reflexivity|]. rewrite zlen_nil, Z.add_0_r. reflexivity.
  - reflexivity.
  - destruct bs as [|b bs]; [exact I|]. rewrite zlen_cons in HL.
    pose proof (zlen_nonneg A). pose proof (zlen_nonneg bs). pose proof (zlen_nonneg B).
    rewrite (proj2 (Z.leb_le _ _)), (proj2 (Z.ltb_lt _ _)) by lia. cbn [andb].
    assert (arr_get (A ++ (b :: bs) ++ B) (zlen A) = b) as ->.
    { unfold arr_get, zlen. rewrite Nat2Z.id, app_nth2, Nat.sub_diag by lia. reflexivity. }
    specialize (IH b (A ++ [b]) bs B). rewrite zlen_app, zlen_cons, zlen_nil, <- app_assoc in IH.
    specialize (IH ltac:(lia)). cbn [app] in *. replace (zlen A + (1 + 0)) with (zlen A + 1) in IH by lia.
    destruct (takes (k b) bs) as [[(v, bs')|]|]; auto.
    destruct IH as (u & -> & ->). exists (b :: u). split; [reflexivity|]. rewrite zlen_cons. do 2 f_equal. lia.
Qed.

Lemma own_fields_decodes ts : forall A bs B acc, zlen A + zlen bs + zlen B = cap ->
  match decodes (oe_policy (oc_env oc)) c ts bs with
  | Some (Some vs) => own_fields c oc (A ++ bs ++ B) ts (zlen A) acc = Ok (acc ++ vs)
  | Some None => own_fields c oc (A ++ bs ++ B) ts (zlen A) acc = UB
  | None => True
  end.
Proof.
  induction ts as [|t ts IH]; intros A bs B acc HL; cbn [decodes own_fields].
  - rewrite app_nil_r. reflexivity.
  - pose proof (run_read_takes (po_read (oe_policy (oc_env oc)) c t) A bs B HL) as HR.
    destruct (takes _ bs) as [[(v, bs')|]|]; [|rewrite HR; reflexivity|exact I].
    destruct HR as (u & -> & ->). cbn [bind]. specialize (IH (A ++ u) bs' B (acc ++ [v])).
    rewrite !zlen_app, <- !app_assoc in IH. rewrite zlen_app in HL. specialize (IH ltac:(lia)). rewrite <- !app_assoc.
    destruct (decodes _ c ts bs') as [[vs|]|]; cbn [option_map]; auto.
    rewrite <- app_assoc in IH. exact IH.
Qed.

Lemma own_deserialize_at e Y m i : rep cap (er_buf e) Y -> own_has_id oc m i -> room_for oc m Y ->
  exists A B, zlen A + zlen (own_payload oc m Y) + zlen B = cap /\ zlen (own_payload oc m Y) = Z.of_nat (payload_size m) /\
    own_deserialize c oc e i
    = do vs <- own_fields c oc (A ++ own_payload oc m Y ++ B) (mt_fields m) (zlen A) []; Ok (Some (m, vs)).
Proof.
  intros (A & B & HC & Hb & Hp & Hl) Hm (H0 & H1 & H2 & H3). unfold own_payload, part.
  set (off := oe_offset (oc_env oc)) in *. set (n := payload_size m) in *.
  replace (off + Z.of_nat n - off) with (Z.of_nat n) by lia. rewrite Nat2Z.id.
  exists (A ++ firstn (Z.to_nat off) Y), (skipn n (skipn (Z.to_nat off) Y) ++ B).
  assert (zlen (firstn (Z.to_nat off) Y) = off) as E1. { unfold zlen in *. rewrite firstn_length. lia. }
  assert (zlen (firstn n (skipn (Z.to_nat off) Y)) = Z.of_nat n) as E2.
  { unfold zlen in *. rewrite firstn_length, skipn_length. lia. }
  assert (Y = firstn (Z.to_nat off) Y ++ firstn n (skipn (Z.to_nat off) Y) ++ skipn n (skipn (Z.to_nat off) Y)) as E3
    by (rewrite !firstn_skipn; reflexivity).
  assert (zlen Y = off + Z.of_nat n + zlen (skipn n (skipn (Z.to_nat off) Y))) as E4.
  { rewrite E3 at 1. rewrite !zlen_app. lia. }
  split; [rewrite !zlen_app; lia|]. split; [assumption|].
  unfold own_deserialize. fold off. rewrite Hb. pose proof (zlen_nonneg A). pose proof (zlen_nonneg B).
  rewrite (proj2 (Z.ltb_ge (zlen A + off) 0)) by lia. rewrite (proj2 (Z.ltb_ge cap _)) by lia. cbn [orb].
  rewrite (apply_at_spec _ i _ _ m).
  - rewrite HC, E3 at 1. rewrite <- !app_assoc, zlen_app, E1. reflexivity.
  - destruct own_static_elim as (HH & _). lia.
  - apply Hm.
  - apply Hm.
Qed.

Lemma own_fields_ok m i : own_has_id oc m i -> Forall fty_ok (mt_fields m).
Proof. intros H. apply own_static_elim. eapply own_has_id_in, H. Qed.

Lemma own_deserialize_complete e Y m i vs : rep cap (er_buf e) Y -> own_has_id oc m i -> room_for oc m Y ->
  own_decodes c oc m (own_payload oc m Y) vs -> own_deserialize c oc e i = Ok (Some (m, vs)).
Proof.
  intros R Hm HR E. destruct (own_deserialize_at e Y m i R Hm HR) as (A & B & HL & _ & ->).
  pose proof (own_fields_decodes (mt_fields m) A (own_payload oc m Y) B [] HL) as H. rewrite E in H. rewrite H. reflexivity.
Qed.

Lemma own_payload_ok m Y : bytes_ok Y -> bytes_ok (own_payload oc m Y).
Proof. intros H. apply Forall_firstn, Forall_skipn, H. Qed.

(** The deserializer stays inside the message at the front of [Y]. *)
Definition reads_inside (m : mtype) (Y : list Z) : Prop :=
  exists r, decodes (oe_policy (oc_env oc)) c (mt_fields m) (own_payload oc m Y) = Some r.

Lemma own_deserialize_sound e Y m i x : rep cap (er_buf e) Y -> own_has_id oc m i -> room_for oc m Y -> reads_inside m Y ->
  own_deserialize c oc e i = Ok x ->
  exists vs, x = Some (m, vs) /\ own_decodes c oc m (own_payload oc m Y) vs.
Proof.
  intros R Hm HR (r & Hr) H. destruct (own_deserialize_at e Y m i R Hm HR) as (A & B & HL & HP & HD).
  rewrite HD in H. pose proof (own_fields_decodes (mt_fields m) A (own_payload oc m Y) B [] HL) as HF. rewrite Hr in HF.
  destruct r as [vs|]; rewrite HF in H; [|discriminate]. cbn [bind app] in H. injection H as <-. exists vs. auto.
Qed.

(** ** The receiver *)
Definition own_sim (id : option Z) (v : world) (s : sstate) : Prop :=
  rep cap (er_buf (rx_recv (w_rx v))) (s_bytes s)
  /\ bytes_ok (s_bytes s)
  /\ er_id (rx_recv (w_rx v)) = id
  /\ id_ok oc id
  /\ rx_functor (w_rx v) = s_handler s
  /\ rx_invoker (w_rx v) = option_map h_type (s_handler s)
  /\ rx_last (w_rx v) = s_last s
  /\ w_log v = s_log s.

Lemma own_acts_complete proc acts : index_safe c cap ->
  (forall a, In a acts -> match a with AProcess => False | AAppend d => bytes_ok d | _ => True end) ->
  forall v id X h last log, own_sim id v (SState X h last log) -> zlen (X ++ appended acts) <= cap ->
  exists v', own_acts c oc proc acts v = Ok (v', false)
    /\ own_sim id v' (SState (X ++ appended acts) (handler_after acts h) last log).
Proof.
  intros Hsafe. induction acts as [|a acts IH]; intros Ht v id X h last log Hs Hfit.
  - exists v. unfold appended. cbn [map concat handler_after fold_left] in *. rewrite app_nil_r. auto.
  - assert (forall a', In a' acts -> match a' with AProcess => False | AAppend d => bytes_ok d | _ => True end) as Ht'
      by (intros a' H; apply Ht; right; assumption).
    specialize (Ht a (or_introl eq_refl)).
    unfold appended in Hfit |- *. cbn [map concat] in Hfit |- *. fold (appended acts) in Hfit |- *.
    unfold handler_after. cbn [fold_left]. fold (handler_after acts).
    destruct Hs as (R & HB & Hid & HI & Hf & Hi & Hl & Hlog). cbn [s_bytes s_handler s_last s_log] in *.
    destruct a as [h'| |d|]; cbn [own_acts bind]; try contradiction.
    + apply (IH Ht' (World (rx_set_handler h' (w_rx v)) (w_log v)) id X (Some h') last log); auto.
      repeat split; auto.
    + apply (IH Ht' (World (rx_clear_handler (w_rx v)) (w_log v)) id X None last log); auto.
      repeat split; auto.
    + rewrite !zlen_app in Hfit. pose proof (zlen_nonneg (appended acts)).
      unfold own_append.
      destruct (rep_push_range c cap Hcap Hsafe (er_buf (rx_recv (w_rx v))) X d R) as (b' & -> & R'); [lia|].
      cbn [bind]. rewrite app_assoc.
      apply (IH Ht' (World (Receiver (ERB (er_id (rx_recv (w_rx v))) b') (rx_invoker (w_rx v))
                   (rx_functor (w_rx v)) (rx_last (w_rx v))) (w_log v)) id (X ++ d) h last log); auto.
      { repeat split; auto. apply Forall_app. auto. }
      { rewrite !zlen_app. lia. }
Qed.

Lemma own_acts_sound proc acts :
  (forall a, In a acts -> match a with AProcess => False | AAppend d => bytes_ok d | _ => True end) ->
  forall v id X h last log v' t, own_sim id v (SState X h last log) ->
  own_acts c oc proc acts v = Ok (v', t) ->
  t = false /\ own_sim id v' (SState (X ++ appended acts) (handler_after acts h) last log).
Proof.
  induction acts as [|a acts IH]; intros Ht v id X h last log v' t Hs H.
  - cbn [own_acts] in H. injection H as <- <-. unfold appended. cbn [map concat handler_after fold_left] in *.
    rewrite app_nil_r. auto.
  - assert (forall a', In a' acts -> match a' with AProcess => False | AAppend d => bytes_ok d | _ => True end) as Ht'
      by (intros a' H'; apply Ht; right; assumption).
    specialize (Ht a (or_introl eq_refl)).
    unfold appended. cbn [map concat]. fold (appended acts).
    unfold handler_after. cbn [fold_left]. fold (handler_after acts).
    destruct Hs as (R & HB & Hid & HI & Hf & Hi & Hl & Hlog). cbn [s_bytes s_handler s_last s_log] in *.
    destruct a as [h'| |d|]; cbn [own_acts bind] in H; try contradiction.
    + eapply IH in H; [exact H|assumption|]. repeat split; auto.
    + eapply IH in H; [exact H|assumption|]. repeat split; auto.
    + unfold own_append in H.
      destruct (rb_push_range c cap d (er_buf (rx_recv (w_rx v)))) as [b'| | | |] eqn:E; try discriminate.
      cbn [bind] in H. destruct (push_range_sound c cap Hcap _ X _ _ R E) as (_ & R').
      rewrite app_assoc. eapply IH in H; [exact H|assumption|].
      repeat split; auto. apply Forall_app. auto.
Qed.

(** popMessage. *)
Lemma own_pop_spec e f s m i : rep cap (er_buf e) (f ++ s) -> er_id e = Some i -> own_has_id oc m i ->
  zlen f = own_length oc m -> 0 < own_length oc m ->
  exec_check w oc (f ++ s) (Some i) = Some (true, f ++ s, Some i) ->
  exists e', own_pop_message c oc e = Ok e' /\ rep cap (er_buf e') s /\ er_id e' = None.
Proof.
  intros R Hid Hm Hf Hpos Hx. unfold own_pop_message.
  assert (exists e1, match mode c with
                     | Disabled => Ok e
                     | Aborting => do (found, e') <- own_check c oc e; if found then Ok e' else AssertFail
                     | Reporting => do (_, e') <- own_check c oc e; Ok e'
                     end = Ok e1 /\ rep cap (er_buf e1) (f ++ s) /\ er_id e1 = Some i) as (e1 & -> & R1 & H1).
  { assert (id_ok oc (er_id e)) as HI by (rewrite Hid; intros a Ha; injection Ha as <-; eauto).
    pose proof (run_check_exec (oe_check (oc_env oc)) e (f ++ s) R HI) as HC.
    unfold exec_check in Hx. rewrite Hid, Hx in HC. destruct HC as (e1 & EC & R1 & H1 & _). unfold own_check.
    destruct (mode c); [eauto| |]; rewrite EC; cbn [bind]; eauto. }
  cbn [bind]. unfold own_message_length, er_id_valid, er_current_id. rewrite H1, plain_true by reflexivity. cbn [bind].
  rewrite (own_get_length_valid m i Hm). cbn [bind]. unfold own_pop_front.
  pose proof (own_length_cap m (own_has_id_in _ _ Hm)). rewrite (to_sz_small cap Hcap) by lia.
  destruct f as [|x f]; [change (zlen (@nil Z)) with 0 in Hf; lia|].
  destruct (rep_pop_front c cap Hcap (er_buf e1) (x :: f) s x (own_length oc m) R1 (eq_sym Hf) eq_refl) as (b' & -> & R').
  cbn [bind]. eexists. split; [reflexivity|]. split; [exact R' | reflexivity].
Qed.

(** One round of processMessages: no message ... *)
Lemma own_loop_wait beh fuel n v id X h last log Y id' :
  own_sim id v (SState X h last log) -> exec_check w oc X id = Some (false, Y, id') ->
  exists v', own_loop (S fuel) c oc beh n v = Ok (v', Returned n) /\ own_sim id' v' (SState Y h last log).
Proof.
  intros (R & HB & Hid & HI & Hf & Hi & Hl & Hlog) Hx. cbn [s_bytes s_handler s_last s_log] in *.
  pose proof (run_check_exec (oe_check (oc_env oc)) (rx_recv (w_rx v)) X R ltac:(rewrite Hid; assumption)) as HC.
  unfold exec_check in Hx. rewrite Hid, Hx in HC. destruct HC as (e1 & EC & R1 & H1 & I1).
  cbn [own_loop]. unfold own_check. rewrite EC. cbn [bind negb]. eexists. split; [reflexivity|].
  destruct (exec_shrinks _ _ _ _ _ _ Hx) as (_ & HB' & _). repeat split; auto.
Qed.

(** ... or one. *)
Lemma own_loop_found beh fuel n v id X h last log Y i m :
  tame beh -> own_sim id v (SState X (Some h) last log) ->
  exec_check w oc X id = Some (true, Y, Some i) -> own_has_id oc m i -> room_for oc m Y -> stays_found w oc Y i ->
  reads_inside m Y ->
  forall res, own_loop (S fuel) c oc beh n v = Ok res ->
  exists vs, own_decodes c oc m (own_payload oc m Y) vs
    /\ let log1 := log ++ [Delivery h m vs] in
       let acts := hr_acts (beh log1) in
       zlen (Y ++ appended acts) <= cap
       /\ exists v',
          if hr_throws (beh log1)
          then res = (v', Threw) /\ own_sim (Some i) v' (SState (Y ++ appended acts) (handler_after acts (Some h)) (Some i) log1)
          else own_loop fuel c oc beh (trunc 8 (n + 1)) v' = Ok res
            /\ own_sim None v' (SState (skipn (Z.to_nat (own_length oc m)) Y ++ appended acts)
                                       (handler_after acts (Some h)) (Some i) log1).
Proof.
  intros Ht (R & HB & Hid & HI & Hf & Hi & Hl & Hlog) Hx Hm HR HS HIn res H. cbn [s_bytes s_handler s_last s_log] in *.
  pose proof (run_check_exec (oe_check (oc_env oc)) (rx_recv (w_rx v)) X R ltac:(rewrite Hid; assumption)) as HC.
  unfold exec_check in Hx. rewrite Hid, Hx in HC. destruct HC as (e1 & EC & R1 & H1 & I1).
  destruct (exec_shrinks _ _ _ _ _ _ Hx) as (_ & HB' & _). specialize (HB' HB).
  cbn [own_loop] in H. unfold own_check in H. rewrite EC in H. cbn [bind negb] in H.
  unfold er_current_id in H. rewrite H1 in H. cbn [bind] in H. unfold own_invoke in H.
  set (w1 := w_set_last i (w_set_recv e1 v)) in H.
  assert (rx_invoker (w_rx w1) = Some (h_type h)) as EI by (exact Hi).
  assert (rx_functor (w_rx w1) = Some h) as EF by (exact Hf).
  rewrite EI, EF, Z.eqb_refl in H. cbn [negb] in H.
  destruct (own_deserialize c oc (rx_recv (w_rx w1)) i) as [x| | | |] eqn:D; try discriminate. cbn [bind] in H.
  destruct (own_deserialize_sound _ Y m i x R1 Hm HR HIn D) as (vs & -> & E).
  exists vs. split; [assumption|]. cbv zeta. rewrite (eq_refl : w_log w1 = w_log v), Hlog in H.
  set (log1 := log ++ [Delivery h m vs]) in *.
  destruct (own_acts c oc _ (hr_acts (beh log1)) (World (w_rx w1) log1)) as [[w2 t]| | | |] eqn:RA;
    try discriminate. cbn [bind] in H.
  eapply (own_acts_sound _ _ (Ht log1)) with (id := Some i) (X := Y) (h := Some h) (last := Some i) (log := log1) in RA.
  2:{ repeat split; auto. }
  destruct RA as (-> & Hs3). cbn [orb] in H.
  assert (zlen (Y ++ appended (hr_acts (beh log1))) <= cap) as Hfit.
  { destruct Hs3 as (R3 & _). exact (rep_size_le _ _ _ R3). }
  split; [assumption|].
  destruct (hr_throws (beh log1)) eqn:HT.
  - injection H as <-. exists w2. auto.
  - pose proof Hs3 as (R3 & HB3 & Hid3 & HI3 & Hf3 & Hi3 & Hl3 & Hlog3). cbn [s_bytes s_handler s_last s_log] in *.
    set (ap := appended (hr_acts (beh log1))) in *. destruct HR as (_ & _ & HR1 & HR2).
    set (L := Z.to_nat (own_length oc m)) in *.
    assert (Y ++ ap = firstn L Y ++ skipn L Y ++ ap) as EY by (rewrite app_assoc, firstn_skipn; reflexivity).
    destruct (own_pop_spec (rx_recv (w_rx w2)) (firstn L Y) (skipn L Y ++ ap) m i) as (e3 & HP & R4 & I4).
    { rewrite <- EY. assumption. }
    { assumption. }
    { assumption. }
    { unfold zlen in *. rewrite firstn_length. lia. }
    { assumption. }
    { rewrite <- EY. apply HS; [|assumption]. apply appended_ok, Ht. }
    rewrite HP in H. cbn [bind] in H. exists (w_set_recv e3 w2). split; [exact H|].
    assert (bytes_ok (skipn L Y ++ ap)) as HB4.
    { rewrite EY in HB3. apply Forall_app in HB3. apply HB3. }
    repeat split; auto. intros a Ha. discriminate.
Qed.

Lemma own_loop_found_complete beh fuel n v id X h last log Y i m vs :
  tame beh -> index_safe c cap -> own_sim id v (SState X (Some h) last log) ->
  exec_check w oc X id = Some (true, Y, Some i) -> own_has_id oc m i -> room_for oc m Y -> stays_found w oc Y i ->
  own_decodes c oc m (own_payload oc m Y) vs ->
  let log1 := log ++ [Delivery h m vs] in
  let acts := hr_acts (beh log1) in
  zlen (Y ++ appended acts) <= cap ->
  exists v',
    if hr_throws (beh log1)
    then own_loop (S fuel) c oc beh n v = Ok (v', Threw)
      /\ own_sim (Some i) v' (SState (Y ++ appended acts) (handler_after acts (Some h)) (Some i) log1)
    else own_loop (S fuel) c oc beh n v = own_loop fuel c oc beh (trunc 8 (n + 1)) v'
      /\ own_sim None v' (SState (skipn (Z.to_nat (own_length oc m)) Y ++ appended acts)
                                 (handler_after acts (Some h)) (Some i) log1).
Proof.
  intros Ht Hsafe (R & HB & Hid & HI & Hf & Hi & Hl & Hlog) Hx Hm HR HS E log1 acts Hfit.
  cbn [s_bytes s_handler s_last s_log] in *.
  pose proof (run_check_exec (oe_check (oc_env oc)) (rx_recv (w_rx v)) X R ltac:(rewrite Hid; assumption)) as HC.
  unfold exec_check in Hx. rewrite Hid, Hx in HC. destruct HC as (e1 & EC & R1 & H1 & I1).
  destruct (exec_shrinks _ _ _ _ _ _ Hx) as (_ & HB' & _). specialize (HB' HB).
  cbn [own_loop]. unfold own_check. rewrite EC. cbn [bind negb].
  unfold er_current_id. rewrite H1. cbn [bind]. unfold own_invoke.
  set (w1 := w_set_last i (w_set_recv e1 v)).
  assert (rx_invoker (w_rx w1) = Some (h_type h)) as EI by (exact Hi).
  assert (rx_functor (w_rx w1) = Some h) as EF by (exact Hf).
  rewrite EI, EF, Z.eqb_refl. cbn [negb].
  rewrite (own_deserialize_complete (rx_recv (w_rx w1)) Y m i vs R1 Hm HR E). cbn [bind].
  rewrite (eq_refl : w_log w1 = w_log v), Hlog. fold log1. fold acts.
  edestruct (own_acts_complete
      (fun v => if rx_has_handler (w_rx v) then own_loop fuel c oc beh 0 v else Ok (v, Returned 0))
      acts Hsafe (Ht log1) (World (w_rx w1) log1) (Some i) Y (Some h) (Some i) log1) as (w2 & RA & Hs3).
  { repeat split; auto. }
  { assumption. }
  rewrite RA. cbn [bind orb].
  destruct (hr_throws (beh log1)) eqn:HT.
  - exists w2. auto.
  - pose proof Hs3 as (R3 & HB3 & Hid3 & HI3 & Hf3 & Hi3 & Hl3 & Hlog3). cbn [s_bytes s_handler s_last s_log] in *.
    set (ap := appended acts) in *. destruct HR as (_ & _ & HR1 & HR2).
    set (L := Z.to_nat (own_length oc m)) in *.
    assert (Y ++ ap = firstn L Y ++ skipn L Y ++ ap) as EY by (rewrite app_assoc, firstn_skipn; reflexivity).
    destruct (own_pop_spec (rx_recv (w_rx w2)) (firstn L Y) (skipn L Y ++ ap) m i) as (e3 & HP & R4 & I4).
    { rewrite <- EY. assumption. }
    { assumption. }
    { assumption. }
    { unfold zlen in *. rewrite firstn_length. lia. }
    { assumption. }
    { rewrite <- EY. apply HS; [|assumption]. apply appended_ok, Ht. }
    rewrite HP. cbn [bind]. exists (w_set_recv e3 w2). split; [reflexivity|].
    assert (bytes_ok (skipn L Y ++ ap)) as HB4.
    { rewrite EY in HB3. apply Forall_app in HB3. apply HB3. }
    repeat split; auto. intros a Ha. discriminate.
Qed.

(** A message and no handler. *)
Lemma own_loop_no_handler beh fuel n v id X last log Y i :
  own_sim id v (SState X None last log) -> exec_check w oc X id = Some (true, Y, Some i) ->
  own_loop (S fuel) c oc beh n v = UB.
Proof.
  intros (R & HB & Hid & HI & Hf & Hi & Hl & Hlog) Hx. cbn [s_bytes s_handler s_last s_log] in *.
  pose proof (run_check_exec (oe_check (oc_env oc)) (rx_recv (w_rx v)) X R ltac:(rewrite Hid; assumption)) as HC.
  unfold exec_check in Hx. rewrite Hid, Hx in HC. destruct HC as (e1 & EC & R1 & H1 & I1).
  cbn [own_loop]. unfold own_check. rewrite EC. cbn [bind negb].
  unfold er_current_id. rewrite H1. cbn [bind]. unfold own_invoke.
  set (w1 := w_set_last i (w_set_recv e1 v)).
  assert (rx_invoker (w_rx w1) = None) as -> by (exact Hi). reflexivity.
Qed.
End Own.
