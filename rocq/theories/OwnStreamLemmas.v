(** Receiving with an envelope written by an application. *)
From Verif Require Export OwnLemmas.

Section Own.
Context (c : config) (oc : own_collection) (Hst : own_static_ok oc = true).
Local Notation cap := (own_capacity oc).
Context (w : Z) (Hw : size_type cap w).
Let Hcap : cap_ok cap := own_cap_ok oc Hst.

Lemma option_map_result n r : 0 <= n < 256 ->
  match r with Some k => Returned ((trunc 8 (n + 1) + Z.of_nat k) mod 256) | None => Threw end
  = match option_map S r with Some k => Returned ((n + Z.of_nat k) mod 256) | None => Threw end.
Proof.
  intros Hn. destruct r as [k|]; [|reflexivity]. cbn [option_map]. f_equal.
  unfold trunc. change (2 ^ 8) with 256. rewrite Zplus_mod_idemp_l. f_equal. lia.
Qed.

Lemma trunc8_bound x : 0 <= trunc 8 x < 256.
Proof. unfold trunc. apply Z.mod_pos_bound. reflexivity. Qed.

Lemma firstn_split_len (Y : list Z) n : 0 <= n <= zlen Y ->
  Y = firstn (Z.to_nat n) Y ++ skipn (Z.to_nat n) Y /\ zlen (firstn (Z.to_nat n) Y) = n.
Proof.
  intros H. split; [symmetry; apply firstn_skipn|]. unfold zlen in *. rewrite firstn_length. lia.
Qed.

(** ** Well-behaved envelopes *)
Section Well.
Context (WB : well_behaved oc).

Lemma own_sim_exec id v s : own_sim oc id v s ->
  exists b Y id', exec_check w oc (s_bytes s) id = Some (b, Y, id')
    /\ (b = true -> exists i m, id' = Some i /\ own_has_id oc m i /\ room_for oc m Y /\ stays_found w oc Y i).
Proof.
  intros (R & HB & _ & HI & _). apply WB; auto. exact (rep_size_le _ _ _ R).
Qed.

Lemma own_payload_length m Y : room_for oc m Y -> length (own_payload oc m Y) = payload_size m.
Proof.
  intros (H0 & H1 & H2 & H3). unfold own_payload, part. replace (_ + _ - _) with (Z.of_nat (payload_size m)) by lia.
  rewrite Nat2Z.id, firstn_length, skipn_length. unfold payload_size in *. unfold zlen in H3. lia.
Qed.

Lemma own_process_sound beh : policy_reads c oc -> tame beh -> forall fuel n id v s v' p, own_sim oc id v s ->
  own_loop fuel c oc beh n v = Ok (v', p) -> 0 <= n < 256 ->
  exists s' r id', OProc w oc c beh id s id' s' r /\ own_sim oc id' v' s'
    /\ p = match r with Some k => Returned ((n + Z.of_nat k) mod 256) | None => Threw end.
Proof.
  intros HP Ht. induction fuel as [|fuel IH]; intros n id v s v' p Hs H Hn; [discriminate|].
  destruct (own_sim_exec id v s Hs) as (b & Y & id1 & Hx & Hb).
  destruct (exec_shrinks oc w Hw _ _ _ _ _ _ Hx) as (_ & HBY & _). destruct s as [X h last log]. cbn [s_bytes s_handler] in *.
  destruct b.
  - destruct (Hb eq_refl) as (i & m & -> & Hm & HR & HS). destruct h as [h|].
    2:{ rewrite (own_loop_no_handler c oc Hst w Hw beh fuel n v id X last log Y i Hs Hx) in H. discriminate. }
    assert (reads_inside c oc m Y) as HIn.
    { apply HP; [exact (own_has_id_in oc m i Hm)| |exact (own_payload_length m Y HR)].
      apply own_payload_ok, HBY. apply Hs. }
    destruct (own_loop_found c oc Hst w Hw beh fuel n v id X h last log Y i m Ht Hs Hx Hm HR HS HIn _ H)
      as (vs & E & Hfit & v1 & HC). cbv zeta in HC.
    set (log1 := log ++ [Delivery h m vs]) in *. set (acts := hr_acts (beh log1)) in *.
    destruct (hr_throws (beh log1)) eqn:HT.
    + destruct HC as (HE & Hs1). injection HE as -> ->. do 2 eexists. exists (Some i). split; [|split; [exact Hs1|]].
      * eapply oproc_throw; eassumption.
      * reflexivity.
    + destruct HC as (H1 & Hs1). pose proof HR as (_ & _ & HR1 & HR2).
      destruct (firstn_split_len Y (own_length oc m) ltac:(lia)) as (EY & EL).
      set (f := firstn (Z.to_nat (own_length oc m)) Y) in *. set (s0 := skipn (Z.to_nat (own_length oc m)) Y) in *.
      destruct (IH (trunc 8 (n + 1)) None v1 _ v' p Hs1 H1 (trunc8_bound _)) as (s' & r & id' & HP' & Hs' & ->).
      exists s', (option_map S r), id'. split; [|split; [assumption | apply option_map_result, Hn]].
      eapply oproc_message with (f := f) (s := s0); try eassumption.
      * rewrite <- EY. exact Hx.
      * rewrite <- EY. exact E.
      * rewrite app_assoc, <- EY. exact Hfit.
  - destruct (own_loop_wait c oc Hst w Hw beh fuel n v id X h last log Y id1 Hs Hx) as (v1 & H1 & Hs1).
    rewrite H1 in H. injection H as <- <-. exists (SState Y h last log), (Some O), id1.
    split; [apply oproc_wait, Hx|]. split; [assumption|]. rewrite Z.add_0_r, Z.mod_small by lia. reflexivity.
Qed.

Lemma own_process_total beh : steady beh -> index_safe c cap -> policy_total c oc ->
  forall fuel n id v X h last log, own_sim oc id v (SState X (Some h) last log) -> zlen X < Z.of_nat fuel ->
  exists v' p, own_loop fuel c oc beh n v = Ok (v', p).
Proof.
  intros Hb Hsafe HF. pose proof (steady_tame _ Hb) as Ht.
  induction fuel as [|fuel IH]; intros n id v X h last log Hs Hfuel; [pose proof (zlen_nonneg X); lia|].
  destruct (own_sim_exec id v _ Hs) as (b & Y & id1 & Hx & HY). cbn [s_bytes] in *.
  destruct (exec_shrinks oc w Hw _ _ _ _ _ _ Hx) as (HL & HBY & _).
  destruct b.
  - destruct (HY eq_refl) as (i & m & -> & Hm & HR & HS).
    destruct (HF m (own_payload oc m Y) (own_has_id_in oc m i Hm)) as (vs & E).
    { apply own_payload_ok, HBY, Hs. }
    { exact (own_payload_length m Y HR). }
    destruct (own_loop_found_complete c oc Hst w Hw beh fuel n v id X h last log Y i m vs Ht Hsafe Hs Hx Hm HR HS E)
      as (v1 & HC).
    { rewrite (steady_appended _ _ Hb), app_nil_r. destruct Hs as (R & _). pose proof (rep_size_le _ _ _ R) as HR'.
      cbn [s_bytes] in HR'. lia. }
    set (log1 := log ++ [Delivery h m vs]) in *. destruct (hr_throws (beh log1)).
    + destruct HC as (-> & _). eauto.
    + destruct HC as (-> & Hs1). rewrite (steady_appended _ _ Hb), app_nil_r in Hs1.
      destruct (steady_handler beh log1 h Hb) as (h1 & Hh). rewrite Hh in Hs1.
      eapply IH; [exact Hs1|]. destruct HR as (_ & _ & H1 & H2). unfold zlen in *. rewrite skipn_length. lia.
  - destruct (own_loop_wait c oc Hst w Hw beh fuel n v id X (Some h) last log Y id1 Hs Hx) as (v1 & -> & _). eauto.
Qed.
End Well.

(** ** Operations other than processMessages *)
Lemma own_sim_available id v s : own_sim oc id v s -> own_available oc (w_rx v) = cap - zlen (s_bytes s).
Proof.
  intros (R & _). unfold own_available.
  rewrite (max_size_cap _ Hcap), (rep_size _ Hcap _ _ R). pose proof (rep_size_le _ _ _ R).
  pose proof (zlen_nonneg (s_bytes s)). apply (to_sz_small _ Hcap). lia.
Qed.

Lemma own_step_other beh fuel o id v X h last log : index_safe c cap -> o <> OpProcess ->
  own_sim oc id v (SState X h last log) -> own_allowed oc o v ->
  exists v' r, own_step fuel c oc beh o v = Ok (v', r)
    /\ own_sim oc id v' (SState (X ++ own_received oc beh o v v')
         (match o with OpSetHandler h' => Some h' | OpClearHandler => None | _ => h end) last log).
Proof.
  intros Hsafe Ho Hs Ha. pose proof Hs as (R & HB & Hid & HI & Hf & Hi & Hl & Hlog).
  cbn [s_bytes s_handler s_last s_log] in *. pose proof (rep_size_le _ _ _ R) as Hle. pose proof (zlen_nonneg X).
  destruct o as [h'| |d|a|]; cbn [own_step own_received own_allowed] in *; [| | | |contradiction].
  - do 2 eexists. split; [reflexivity|]. rewrite app_nil_r. repeat split; auto.
  - do 2 eexists. split; [reflexivity|]. rewrite app_nil_r. repeat split; auto.
  - destruct Ha as (Hd & Hfit). rewrite (own_sim_available _ _ _ Hs) in Hfit. cbn [s_bytes] in Hfit. unfold own_append.
    destruct (rep_push_range c cap Hcap Hsafe (er_buf (rx_recv (w_rx v))) X d R ltac:(lia)) as (b' & -> & R').
    cbn [bind]. do 2 eexists. split; [reflexivity|]. repeat split; auto. apply Forall_app. auto.
  - rewrite (own_sim_available _ _ _ Hs). cbn [s_bytes]. unfold own_receive_from.
    assert (0 <= adapter_available a < 256) as Hav.
    { unfold adapter_available, trunc. apply Z.mod_pos_bound. reflexivity. }
    set (n := Z.min (ad_available a mod 256) (cap - zlen X)).
    assert (n = Z.min (adapter_available a) (cap - zlen X)) as Hn by reflexivity.
    destruct (Ha n ltac:(lia)) as (Hd1 & Hd2 & Hd3). set (d := fst (ad_read a n)) in *.
    destruct (rep_from_functor c cap Hcap Hsafe (er_buf (rx_recv (w_rx v))) X (adapter_call a)
               (adapter_available a) d R) as (b' & -> & R').
    + lia.
    + rewrite <- Hn. unfold adapter_call. rewrite trunc_small by (change (2 ^ 8) with 256; lia).
      destruct (ad_read a n) as [data ret] eqn:EA. cbn [fst snd] in *. subst d. cbn [fst].
      rewrite Hd3. rewrite trunc_small; [reflexivity|]. pose proof (zlen_nonneg data). change (2 ^ 8) with 256. lia.
    + rewrite <- Hn. lia.
    + cbn [bind]. do 2 eexists. split; [reflexivity|]. repeat split; auto. apply Forall_app. auto.
Qed.

Lemma own_step_fuel beh o fuel fuel' v : o <> OpProcess -> own_step fuel c oc beh o v = own_step fuel' c oc beh o v.
Proof. destruct o; try reflexivity. contradiction. Qed.

Lemma own_start_sim h : own_sim oc None (own_start oc h) (SState [] h None []).
Proof.
  split; [apply rep_init, Hcap|]. repeat split; auto; [constructor|]. intros i H. discriminate.
Qed.
End Own.
