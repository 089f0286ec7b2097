(** Sending and receiving with an envelope written by an application. *)
From Verif Require Export OwnStreamLemmas FeedLemmas.

(** ** Sending *)
Section Send.
Context (c : config) (oc : own_collection) (Hst : own_static_ok oc = true).

Lemma compose_vector_calls {S} (t : transmitter S) l : forall a s,
  run_calls (compose_tx vector_tx t) l (a, s) = do s' <- run_calls t l s; Ok (a ++ calls_bytes l, s').
Proof.
  induction l as [|x l IH]; intros a s; cbn [run_calls].
  - cbn [bind]. unfold calls_bytes. cbn [map concat]. rewrite app_nil_r. reflexivity.
  - rewrite compose_call.
    assert (run_call vector_tx x a = Ok (a ++ call_bytes x)) as -> by (destruct x; reflexivity).
    cbn [bind]. rewrite bind_assoc, !bind_assoc. apply bind_ext. intros s1. cbn [bind]. rewrite IH.
    apply bind_ext. intros s2. unfold calls_bytes. cbn [map concat]. rewrite app_assoc. reflexivity.
Qed.

(** What a serializer's calls amount to. *)
Definition call_of (x : write) : call :=
  match x with WByte b => CByte (trunc 8 b) | WBlock bs => CBlock (map (trunc 8) bs) end.

Lemma run_writes_calls {S} (t : transmitter S) ws : forall s, run_writes t ws s = run_calls t (map call_of ws) s.
Proof.
  induction ws as [|[b|bs] ws IH]; intros s; [reflexivity|..]; cbn [run_writes map call_of run_calls run_call];
    apply bind_ext; exact IH.
Qed.

Lemma call_of_bytes ws : calls_bytes (map call_of ws) = concat (map write_bytes ws).
Proof.
  unfold calls_bytes. rewrite map_map. f_equal. apply map_ext. intros [b|bs]; reflexivity.
Qed.

Lemma run_fields_calls p ts : forall vs st, length vs = length ts ->
  exists l, calls_bytes l = written p c st ts vs
    /\ forall S (t : transmitter S) s, run_fields c p t (combine ts vs) st s = run_calls t l s.
Proof.
  induction ts as [|ty ts IH]; intros [|v vs] st HL; try discriminate; cbn [combine run_fields written].
  - exists []. split; reflexivity.
  - destruct (IH vs (snd (po_buffer p c st (ty, v)))) as (l & El & Hl); [cbn [length] in HL; lia|].
    exists (map call_of (fst (po_buffer p c st (ty, v))) ++ l). split.
    + rewrite calls_bytes_app, call_of_bytes, El. reflexivity.
    + intros S t s. rewrite run_writes_calls, run_calls_app. apply bind_ext. intros s1. apply Hl.
Qed.

Lemma run_send_calls p ts vs : has_types vs ts = true -> forall k,
  exists l, calls_bytes l = sent k (written p c (po_init p) ts vs)
    /\ forall S (t : transmitter S) s, run_send c p t (combine ts vs) k s = run_calls t l s.
Proof.
  intros H. destruct (run_fields_calls p ts vs (po_init p) (has_types_length _ _ H)) as (lt & Et & Ht).
  induction k as [|b k IH|bs k IH|k IH|k IH].
  - exists []. split; reflexivity.
  - destruct IH as (l & El & IH). exists (CByte (trunc 8 b) :: l). split.
    + cbn [sent]. rewrite <- El. reflexivity.
    + intros S t s. cbn [run_send run_calls run_call]. apply bind_ext. apply IH.
  - destruct IH as (l & El & IH). exists (CBlock (map (trunc 8) bs) :: l). split.
    + cbn [sent]. rewrite <- El. reflexivity.
    + intros S t s. cbn [run_send run_calls run_call]. apply bind_ext. apply IH.
  - destruct (IH (calls_bytes lt)) as (l & El & IH').
    exists (lt ++ l). split.
    + rewrite calls_bytes_app. cbn [sent]. rewrite El, Et. reflexivity.
    + intros S t s. cbn [run_send]. unfold own_tuple. rewrite Ht, compose_vector_calls.
      rewrite run_calls_app, bind_assoc. apply bind_ext. intros s1. cbn [bind fst snd]. apply IH'.
  - destruct (IH (calls_bytes lt)) as (l & El & IH').
    exists l. split; [rewrite El, Et; reflexivity|]. intros S t s. cbn [run_send]. unfold own_tuple.
    rewrite Ht, vector_calls. apply IH'.
Qed.

Lemma written_ok p ts : forall st vs, bytes_ok (written p c st ts vs).
Proof.
  induction ts as [|t ts IH]; intros st [|v vs]; cbn [written]; try constructor.
  apply Forall_app. split; [|apply IH]. apply Forall_concat, Forall_map, Forall_forall. intros [b|bs] _; cbn [write_bytes].
  - constructor; [apply Z.mod_pos_bound; lia | constructor].
  - apply Forall_map, Forall_forall. intros b _. apply Z.mod_pos_bound. lia.
Qed.

Lemma own_first_id m i : find_index (oc_types oc) m = Some i ->
  own_has_id oc m i /\ forall j, own_has_id oc m j -> i <= j.
Proof.
  intros H. split; [apply find_index_some in H; exact H|].
  intros j Hj. exact (find_index_first (Collection (oc_types oc) Basic) m i j H Hj).
Qed.

Lemma own_send_calls m vs : In m (oc_types oc) -> has_types vs (mt_fields m) = true ->
  exists f l, own_frame c oc m vs f /\ calls_bytes l = f
    /\ forall S (t : transmitter S) s, own_send c oc m t (combine (mt_fields m) vs) s = do s' <- run_calls t l s; tx_finished t s'.
Proof.
  intros Hm Hv. destruct (find_index_in _ _ Hm) as (i & Hi). destruct (own_first_id m i Hi) as (H1 & H2).
  destruct (run_send_calls (oe_policy (oc_env oc)) (mt_fields m) vs Hv (oe_send (oc_env oc) i)) as (l & El & HR).
  exists (calls_bytes l), l. split; [|split; [reflexivity|]].
  - exists i. auto.
  - intros S t s. unfold own_send. rewrite Hst, contents_ok_combine by assumption. cbn [andb negb]. rewrite Hi.
    pose proof (own_has_id_lt oc m i H1). destruct (own_static_elim oc Hst) as (HL & _).
    rewrite trunc_small by (change (2 ^ 8) with 256; lia). rewrite HR. reflexivity.
Qed.

Lemma own_frame_fun m vs f f' : own_frame c oc m vs f -> own_frame c oc m vs f' -> f = f'.
Proof.
  intros (i & H1 & H2 & ->) (j & J1 & J2 & ->). assert (i = j) as ->; [|reflexivity].
  specialize (H2 j J1). specialize (J2 i H1). lia.
Qed.

Lemma own_send_vector m vs s : In m (oc_types oc) -> has_types vs (mt_fields m) = true ->
  exists f, own_frame c oc m vs f /\ own_send c oc m vector_tx (combine (mt_fields m) vs) s = Ok (s ++ f).
Proof.
  intros Hm Hv. destruct (own_send_calls m vs Hm Hv) as (f & l & HF & El & H).
  exists f. split; [assumption|]. rewrite H, vector_calls, El. reflexivity.
Qed.

Lemma own_send_all_vector msgs : Forall (own_sendable oc) msgs -> forall s,
  exists F, Forall2 (fun mv f => own_frame c oc (fst mv) (snd mv) f) msgs F
    /\ own_send_all c oc vector_tx msgs s = Ok (s ++ concat F).
Proof.
  induction msgs as [|(m, vs) msgs IH]; intros HS s.
  - exists []. split; [constructor|]. cbn [own_send_all concat]. rewrite app_nil_r. reflexivity.
  - inversion HS as [|? ? (S1 & S2) HS']; subst. cbn [fst snd] in *.
    destruct (own_send_vector m vs s S1 S2) as (f & Hf & E). destruct (IH HS' (s ++ f)) as (F & HF & E').
    exists (f :: F). split; [constructor; assumption|]. cbn [own_send_all]. rewrite E. cbn [bind]. rewrite E'.
    cbn [concat]. rewrite app_assoc. reflexivity.
Qed.
End Send.

(** ** Receiving what was sent *)
Section Match.
Context (c cs : config) (oc : own_collection) (Hst : own_static_ok oc = true).
Local Notation cap := (own_capacity oc).
Context (w : Z) (Hw : size_type cap w).
Let Hcap : cap_ok cap := own_cap_ok oc Hst.
Context (HM : matched oc) (He : policy_matched cs c oc) (Hsafe : index_safe c cap).

Definition frames_of (msgs : list (mtype * list value)) (F : list (list Z)) : Prop :=
  Forall2 (fun mv f => has_types (snd mv) (mt_fields (fst mv)) = true /\ own_frame cs oc (fst mv) (snd mv) f) msgs F.

Definition short (X : list Z) (F : list (list Z)) : Prop :=
  match F with [] => X = [] | f :: _ => zlen X < zlen f end.

Lemma own_payload_app m f s : room_for oc m f -> own_payload oc m (f ++ s) = own_payload oc m f.
Proof.
  intros (H0 & H1 & H2 & H3). unfold own_payload, part, zlen in *.
  rewrite skipn_app, firstn_app, skipn_length.
  replace (Z.to_nat _ - (length f - Z.to_nat (oe_offset (oc_env oc))))%nat with O by lia.
  cbn [firstn]. rewrite app_nil_r. reflexivity.
Qed.

Lemma own_frame_facts m vs f : has_types vs (mt_fields m) = true -> own_frame cs oc m vs f ->
  exists i, own_has_id oc m i /\ zlen f = own_length oc m /\ room_for oc m f
    /\ own_decodes c oc m (own_payload oc m f) vs
    /\ (forall id, id_ok oc id ->
        (forall s, bytes_ok s -> zlen (f ++ s) <= cap -> exec_check w oc (f ++ s) id = Some (true, f ++ s, Some i))
        /\ (forall q t, f = q ++ t -> t <> [] -> exists id', exec_check w oc q id = Some (false, q, id'))).
Proof.
  intros Hv (i & H1 & H2 & Hf). exists i. split; [assumption|].
  destruct (He m vs (own_has_id_in oc m i H1) Hv) as (P1 & P2).
  destruct (HM m i _ f H1 P1 (written_ok cs _ _ _ _) Hf) as (M1 & M2 & M3 & M4).
  split; [assumption|]. split; [assumption|]. split.
  - rewrite M3. exact P2.
  - intros id Hid. exact (M4 w id Hw Hid).
Qed.

(** A beginning of frames starts with the first of them or is short. *)
Lemma head_or_short (F : list (list Z)) X T : X ++ T = concat F ->
  match F with
  | [] => X = [] /\ T = []
  | f :: F' => (exists s, X = f ++ s /\ s ++ T = concat F') \/ (exists t, f = X ++ t /\ t <> [])
  end.
Proof.
  intros H. destruct F as [|f F']; cbn [concat] in H; [apply app_eq_nil, H|].
  destruct (le_lt_dec (length f) (length X)) as [Hl|Hl].
  - left. exists (skipn (length f) X).
    assert (firstn (length f) (X ++ T) = firstn (length f) (f ++ concat F')) as E by (f_equal; exact H).
    rewrite firstn_app, firstn_app, Nat.sub_diag, firstn_all in E. cbn [firstn] in E.
    replace (length f - length X)%nat with O in E by lia. cbn [firstn] in E. rewrite !app_nil_r in E.
    rewrite <- (firstn_skipn (length f) X) in H at 1. rewrite E, <- app_assoc in H. apply app_inv_head in H.
    split; [|assumption]. transitivity (firstn (length f) X ++ skipn (length f) X); [symmetry; apply firstn_skipn|].
    rewrite E. reflexivity.
  - right. exists (skipn (length X) f).
    assert (firstn (length X) (X ++ T) = firstn (length X) (f ++ concat F')) as E by (f_equal; exact H).
    rewrite firstn_app, firstn_app, Nat.sub_diag, firstn_all in E. cbn [firstn] in E.
    replace (length X - length f)%nat with O in E by lia. cbn [firstn] in E. rewrite !app_nil_r in E.
    split.
    + transitivity (firstn (length X) f ++ skipn (length X) f); [symmetry; apply firstn_skipn|].
      rewrite <- E. reflexivity.
    + intros H0. apply (f_equal (@length Z)) in H0. rewrite skipn_length in H0. cbn in H0. lia.
Qed.

Lemma own_wait_nil id : id_ok oc id -> exists id', exec_check w oc [] id = Some (false, [], id').
Proof.
  intros Hid. destruct (own_static_elim oc Hst) as (HL & _).
  destruct (oc_types oc) as [|m rest] eqn:E; [change (zlen (@nil mtype)) with 0 in HL; lia|].
  assert (own_has_id oc m 0) as H0 by (split; [lia | rewrite E; reflexivity]).
  remember (sent (oe_send (oc_env oc) 0) (repeat 0 (payload_size m))) as f eqn:Ef.
  destruct (HM m 0 (repeat 0 (payload_size m)) f H0 (repeat_length _ _)
              ltac:(apply Forall_forall; intros x Hx; apply repeat_spec in Hx; lia) Ef)
    as (M1 & (_ & _ & M2) & _ & M4).
  destruct (M4 w id Hw Hid) as (_ & M5). apply (M5 [] f); [reflexivity|].
  intros ->. change (zlen (@nil Z)) with 0 in M1. lia.
Qed.

Lemma matched_wait id X T F msgs : id_ok oc id -> frames_of msgs F -> X ++ T = concat F -> short X F ->
  exists id', exec_check w oc X id = Some (false, X, id').
Proof.
  intros Hid HF HX HS. destruct HF as [|(m, vs) f msgs F (Hv & Hf) HF]; cbn [short] in HS.
  - subst X. apply own_wait_nil, Hid.
  - destruct (own_frame_facts m vs f Hv Hf) as (i & _ & _ & _ & _ & H). destruct (H id Hid) as (_ & H2).
    destruct (head_or_short _ _ _ HX) as [(s & -> & _)|(t & E & Ht)].
    + rewrite zlen_app in HS. pose proof (zlen_nonneg s). lia.
    + exact (H2 X t E Ht).
Qed.

(** processMessages on a beginning of what was sent. *)
Lemma matched_loop beh : steady beh -> forall fuel n id v X h last log F msgs T,
  own_sim oc id v (SState X (Some h) last log) -> frames_of msgs F -> X ++ T = concat F -> 0 <= n < 256 ->
  (zlen X < Z.of_nat fuel -> exists r, own_loop fuel c oc beh n v = Ok r)
  /\ forall v' p, own_loop fuel c oc beh n v = Ok (v', p) ->
     exists id' X' h' last' new done rest Fd Fr,
       own_sim oc id' v' (SState X' (Some h') last' (log ++ new))
       /\ msgs = done ++ rest /\ F = Fd ++ Fr /\ frames_of rest Fr
       /\ map content (completed beh log new) = done
       /\ X = concat Fd ++ X' /\ X' ++ T = concat Fr
       /\ match p with Returned k => short X' Fr /\ k = (n + zlen done) mod 256 | Threw => True end.
Proof.
  intros Hb. pose proof (steady_tame _ Hb) as Ht.
  induction fuel as [|fuel IH]; intros n id v X h last log F msgs T Hs HF HX Hn.
  { split; [pose proof (zlen_nonneg X); lia | discriminate]. }
  pose proof Hs as (R & HB & _ & Hid & _). cbn [s_bytes] in R, HB. pose proof (rep_size_le _ _ _ R) as HLe.
  assert ((exists id', exec_check w oc X id = Some (false, X, id')) /\ short X F
          \/ exists m vs f s msgs' F' i, msgs = (m, vs) :: msgs' /\ F = f :: F' /\ X = f ++ s /\ s ++ T = concat F'
               /\ frames_of msgs' F' /\ own_has_id oc m i /\ zlen f = own_length oc m /\ room_for oc m f
               /\ own_decodes c oc m (own_payload oc m f) vs
               /\ forall id d, id_ok oc id -> bytes_ok d -> zlen (f ++ d) <= cap ->
                    exec_check w oc (f ++ d) id = Some (true, f ++ d, Some i)) as [((id' & Hx) & HS)|HC].
  { pose proof (head_or_short F X T HX) as HH. destruct HF as [|(m, vs) f msgs F (Hv & Hf) HF].
    - left. destruct HH as (-> & ->). split; [apply own_wait_nil, Hid | reflexivity].
    - cbn [fst snd] in *. destruct (own_frame_facts m vs f Hv Hf) as (i & F1 & F2 & F3 & F4 & F5).
      destruct HH as [(s & -> & HX')|(t & E & Htn)].
      + right. exists m, vs, f, s, msgs, F, i. repeat (split; [first [reflexivity | assumption]|]).
        intros id0 d Hid0 Hd. destruct (F5 id0 Hid0) as (F6 & _). apply F6, Hd.
      + left. destruct (F5 id Hid) as (_ & F7). split; [exact (F7 X t E Htn)|].
        cbn [short]. rewrite E, zlen_app. destruct t as [|x t]; [contradiction|].
        pose proof (zlen_nonneg t). rewrite zlen_cons. lia. }
  - destruct (own_loop_wait c oc Hst w Hw beh fuel n v id X (Some h) last log X id' Hs Hx) as (v1 & H1 & Hs1).
    split; [intros _; eauto|]. intros v' p H. rewrite H1 in H. injection H as <- <-.
    exists id', X, h, last, [], [], msgs, [], F. rewrite app_nil_r. cbn [completed map concat app].
    repeat (split; [first [reflexivity | assumption]|]).
    change (zlen (@nil (mtype * list value))) with 0. rewrite Z.add_0_r, Z.mod_small by assumption. reflexivity.
  - destruct HC as (m & vs & f & s & msgs' & F' & i & -> & -> & -> & HX' & HF' & Hm & HL & HR & E & Hfound).
    assert (bytes_ok f /\ bytes_ok s) as (HBf & HBs) by (apply Forall_app in HB; exact HB).
    assert (room_for oc m (f ++ s)) as HR'.
    { destruct HR as (R0 & R1 & R2 & R3). repeat split; try assumption. rewrite zlen_app. pose proof (zlen_nonneg s). lia. }
    assert (id_ok oc (Some i)) as Hidi by (intros a Ha; injection Ha as <-; eauto).
    assert (stays_found w oc (f ++ s) i) as HSt.
    { intros d Hd Hle. rewrite <- app_assoc in *. apply Hfound; auto. apply Forall_app. auto. }
    destruct (own_loop_found_complete c oc Hst w Hw beh fuel n v id (f ++ s) h last log (f ++ s) i m vs Ht Hsafe Hs
                (Hfound id s Hid HBs HLe) Hm HR' HSt) as (v1 & HC).
    { rewrite own_payload_app by assumption. exact E. }
    { rewrite (steady_appended _ _ Hb), app_nil_r. exact HLe. }
    set (log1 := log ++ [Delivery h m vs]) in *.
    destruct (steady_handler beh log1 h Hb) as (h1 & Hh). rewrite (steady_appended _ _ Hb), Hh, !app_nil_r in HC.
    destruct (hr_throws (beh log1)) eqn:HT.
    + destruct HC as (H1 & Hs1). split; [intros _; eauto|]. intros v' p H. rewrite H1 in H. injection H as <- <-.
      exists (Some i), (f ++ s), h1, (Some i), [Delivery h m vs], [], ((m, vs) :: msgs'), [], (f :: F').
      split; [exact Hs1|]. repeat (split; [reflexivity|]). split; [|split; [|split; [reflexivity|]]].
      * constructor; [|assumption]. inversion HF; subst. assumption.
      * cbn [completed]. fold log1. rewrite HT. reflexivity.
      * split; [exact HX | exact I].
    + destruct HC as (H1 & Hs1).
      assert (skipn (Z.to_nat (own_length oc m)) (f ++ s) = s) as Esk.
      { rewrite <- HL. unfold zlen. rewrite Nat2Z.id, skipn_app, Nat.sub_diag, skipn_all. reflexivity. }
      rewrite Esk in Hs1.
      destruct (IH (trunc 8 (n + 1)) None v1 s h1 (Some i) log1 F' msgs' T Hs1 HF' HX' (trunc8_bound _)) as (IH1 & IH2).
      rewrite H1. split.
      * intros Hfu. apply IH1. rewrite zlen_app in Hfu. destruct HR as (_ & _ & HR0 & _). lia.
      * intros v' p H.
        destruct (IH2 v' p H) as (id' & X' & h' & last' & new & done & rest & Fd & Fr & Q1 & Q2 & Q3 & Q4 & Q5 & Q6 & Q7 & Q8).
        exists id', X', h', last', (Delivery h m vs :: new), ((m, vs) :: done), rest, (f :: Fd), Fr.
        split; [unfold log1 in Q1; rewrite <- app_assoc in Q1; exact Q1|].
        split; [rewrite Q2; reflexivity|]. split; [rewrite Q3; reflexivity|]. split; [assumption|].
        split; [cbn [completed]; fold log1; rewrite HT; cbn [app map]; rewrite Q5; reflexivity|].
        split; [cbn [concat]; rewrite Q6, app_assoc; reflexivity|]. split; [assumption|].
        destruct p as [k|]; [|exact I]. destruct Q8 as (Q8 & ->). split; [assumption|].
        unfold trunc. change (2 ^ 8) with 256. rewrite Zplus_mod_idemp_l. f_equal.
        rewrite zlen_cons. lia.
Qed.
End Match.
