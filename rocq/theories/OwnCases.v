(** Envelopes of an application, for the cases. *)
From Verif Require Export OwnShippedCheck.

(** An envelope of one byte, the id; [p] is its serialization policy. *)
Fixpoint bare_code (fuel : nat) : check_code :=
  match fuel with
  | O => KReturn false
  | S fuel' =>
      KEmpty (fun empty => if empty then KReturn false else
      KFront (fun x => KSetId x (KIdValid (fun valid =>
        if negb valid then KPop 1 (fun _ => bare_code fuel')
        else KLength (fun len => KSize (fun n => KReturn (len <=? n)))))))
  end.
Definition bare (p : policy) : own_envelope :=
  OwnEnvelope p (fun n => 1 + n) 1 (KSize (fun n => bare_code (S (Z.to_nat n))))
    (fun id => SByte id (STuple (fun _ => SDone))).

(** As [bare], but a message is found as soon as its id is there. *)
Definition hasty : own_envelope :=
  OwnEnvelope bitwise (fun n => 1 + n) 1
    (KEmpty (fun empty => if empty then KReturn false else
       KFront (fun x => KSetId x (KIdValid (fun valid => KReturn valid)))))
    (fun id => SByte id (STuple (fun _ => SDone))).

(** As [bare], but the id is never set. *)
Definition nameless : own_envelope :=
  OwnEnvelope bitwise (fun n => 1 + n) 1
    (KSize (fun n => KReturn (4 <=? n)))
    (fun id => SByte id (STuple (fun _ => SDone))).

(** The id, the fields and 42, all bytes but the id complemented; the check complements them again in place. *)
Fixpoint flip_code (n : nat) (i : Z) (k : check_code) : check_code :=
  match n with
  | O => k
  | S n' => KAt i (fun x => KPut i (255 - x) (flip_code n' (i + 1) k))
  end.
Definition flipped : own_envelope :=
  OwnEnvelope bitwise (fun n => 2 + n) 1
    (KEmpty (fun empty => if empty then KReturn false else
       KFront (fun x => KSetId x (KIdValid (fun valid => if negb valid then KReturn false else
       KLength (fun len => KSize (fun n => if n <? len then KReturn false else
       KAt (len - 1) (fun last => if negb (last =? 255 - 42) then KReturn false else
       flip_code (Z.to_nat (len - 1)) 1 (KReturn true)))))))))
    (fun id => SByte id (SCollect (fun payload =>
       SBlock (map (fun x => 255 - x) payload) (SByte (255 - 42) SDone)))).

Section Bare.
Context (p : policy) (types : list mtype).
Local Notation oc := (Own types (bare p)).

Lemma bare_exec w n : (0 < w) -> forall X id, bytes_ok X -> (length X < n)%nat ->
  exists b Y id' P, exec w oc (bare_code n) X id = Some (b, Y, id') /\ X = P ++ Y
    /\ match Y with
       | [] => b = false
       | i :: tl => exists m, own_has_id oc m i /\ id' = Some i /\ b = (own_length oc m <=? zlen Y)
       end
    /\ forall i Y', P = i :: Y' -> forall m, ~ own_has_id oc m i.
Proof.
  intros Hpow. induction n as [|n IH]; intros X id HB Hn; [lia|]. cbn [bare_code exec].
  destruct X as [|i X]; [exists false, [], id, []; repeat split; discriminate|]. cbn [exec].
  assert (0 <= i < 256) as Hi by apply (Forall_inv HB). rewrite (Z.mod_small i 256) by lia.
  cbn [oc_types]. destruct (i <? zlen types) eqn:E; cbn [exec negb].
  - apply Z.ltb_lt in E. unfold zlen in E. destruct (nth_error types (Z.to_nat i)) as [m|] eqn:Em.
    2:{ apply nth_error_None in Em. lia. }
    exists (own_length oc m <=? zlen (i :: X)), (i :: X), (Some i), []. split; [cbn [oc_types]; rewrite Em; reflexivity|]. split; [reflexivity|].
    split; [|intros; discriminate]. exists m. split; [split; [lia|assumption]|]. split; reflexivity.
  - apply Z.ltb_ge in E. rewrite (Z.mod_small 1) by (change 1 with (2 ^ 0) at 1; pose proof (Z.pow_lt_mono_r 2 0 w); lia).
    rewrite (proj2 (Z.leb_le _ _)) by (rewrite zlen_cons; pose proof (zlen_nonneg X); lia). change (skipn (Z.to_nat 1) (i :: X)) with X.
    destruct (IH X None (Forall_inv_tail HB)) as (b & Y & id' & P & HE & -> & HY & _); [cbn [length] in Hn; lia|].
    exists b, Y, id', (i :: P). repeat split; try assumption. intros j Y' Ej m Hm. injection Ej as -> _.
    apply own_has_id_lt in Hm. cbn [oc_types] in Hm. lia.
Qed.

Lemma size_type_pos cap w : size_type cap w -> 0 < w.
Proof. intros (H & _). cbn [In] in H. lia. Qed.

Lemma bare_room m Y : own_length oc m <= zlen Y -> room_for oc m Y.
Proof. intros H. unfold room_for, own_length in *. cbn [oc_env oe_offset oe_size bare] in *. lia. Qed.

Lemma bare_check w X id : size_type (own_capacity oc) w -> bytes_ok X ->
  exists b Y id' P, exec_check w oc X id = Some (b, Y, id') /\ X = P ++ Y
    /\ match Y with
       | [] => b = false
       | i :: tl => exists m, own_has_id oc m i /\ id' = Some i /\ b = (own_length oc m <=? zlen Y)
       end
    /\ forall i Y', P = i :: Y' -> forall m, ~ own_has_id oc m i.
Proof.
  intros Hw HB. unfold exec_check. cbn [oc_env oe_check bare exec].
  apply bare_exec; [exact (size_type_pos _ _ Hw) | assumption | unfold zlen; lia].
Qed.

Lemma own_has_id_fun m m' i : own_has_id oc m i -> own_has_id oc m' i -> m = m'.
Proof. intros (_ & H) (_ & H'). congruence. Qed.

Lemma bare_at w m i tl id : size_type (own_capacity oc) w -> bytes_ok (i :: tl) -> own_has_id oc m i ->
  exec_check w oc (i :: tl) id = Some (own_length oc m <=? zlen (i :: tl), i :: tl, Some i).
Proof.
  intros Hw HB Hm. destruct (bare_check w (i :: tl) id Hw HB) as (b & Y & id' & P & HE & E & HY & HP).
  destruct P as [|j P].
  - cbn [app] in E. subst Y. destruct HY as (m' & Hm' & -> & ->). rewrite (own_has_id_fun _ _ _ Hm' Hm) in *. exact HE.
  - injection E as <- _. destruct (HP i P eq_refl m Hm).
Qed.

Lemma bare_well_behaved : well_behaved oc.
Proof.
  intros w X id Hw HB HX HI. destruct (bare_check w X id Hw HB) as (b & Y & id' & P & HE & EX & HY & _).
  exists b, Y, id'. split; [assumption|]. intros ->. destruct Y as [|i Y]; [discriminate|].
  destruct HY as (m & Hm & -> & Hb). exists i, m. split; [reflexivity|]. split; [assumption|].
  symmetry in Hb. apply Z.leb_le in Hb. split; [apply bare_room, Hb|].
  intros d Hd HL. cbn [app]. rewrite (bare_at w m i (Y ++ d)); auto.
  - rewrite (proj2 (Z.leb_le _ _)); [reflexivity|]. rewrite app_comm_cons, zlen_app. pose proof (zlen_nonneg d). lia.
  - rewrite app_comm_cons. apply Forall_app. split; [|assumption]. rewrite EX in HB. apply Forall_app in HB. tauto.
Qed.

Lemma bare_matched : zlen types <= 255 -> matched oc.
Proof.
  intros HT m i q0 f Hm Hp HB ->. pose proof (own_has_id_lt oc m i Hm) as Hi. cbn [oc_types] in Hi.
  cbn [oc_env oe_send bare sent]. rewrite app_nil_r, (Z.mod_small i) by lia.
  assert (own_length oc m = zlen (i :: q0)) as HL.
  { unfold own_length. cbn [oc_env oe_size bare]. rewrite <- Hp. rewrite zlen_cons. unfold zlen. lia. }
  assert (bytes_ok (i :: q0)) as HBf by (constructor; [lia | assumption]).
  split; [symmetry; assumption|]. split; [apply bare_room; lia|]. split.
  { unfold own_payload, part. cbn [oc_env oe_offset bare]. rewrite <- Hp.
    replace (Z.to_nat (1 + Z.of_nat (length q0) - 1)) with (length q0) by lia. change (skipn (Z.to_nat 1) (i :: q0)) with q0. apply firstn_all. }
  intros w id Hw HI. split.
  - intros s Hs _. cbn [app]. rewrite (bare_at w m i); auto.
    + rewrite (proj2 (Z.leb_le _ _)); [reflexivity|]. rewrite HL, app_comm_cons, zlen_app. pose proof (zlen_nonneg s). lia.
    + rewrite app_comm_cons. apply Forall_app. auto.
  - intros q t E Ht. destruct q as [|j q]; [exists id; reflexivity|]. injection E as <- E.
    exists (Some i). rewrite (bare_at w m i); auto.
    + rewrite (proj2 (Z.leb_gt _ _)); [reflexivity|]. rewrite HL, E, !zlen_cons, zlen_app. destruct t; [congruence|].
      rewrite zlen_cons. pose proof (zlen_nonneg t). lia.
    + constructor; [lia|]. rewrite E in HB. apply Forall_app in HB. tauto.
Qed.
End Bare.

(** Histories by computation. *)
Definition own_allowedb (oc : own_collection) (o : op) (w : world) : bool :=
  match o with
  | OpAppend d => forallb (fun b => (0 <=? b) && (b <? 256)) d && (zlen d <=? own_available oc (w_rx w))
  | OpReceive _ => false
  | _ => true
  end.
Fixpoint own_checked (fuel : nat) (c : config) (oc : own_collection) (beh : hbehav) (ops : list op) (w : world)
  : option (world * list Z * list opret) :=
  match ops with
  | [] => Some (w, [], [])
  | o :: rest =>
      if own_allowedb oc o w then
        match own_step fuel c oc beh o w with
        | Ok (w1, r) =>
            match own_checked fuel c oc beh rest w1 with
            | Some (w2, s, rs) => Some (w2, own_received oc beh o w w1 ++ s, r :: rs)
            | None => None
            end
        | _ => None
        end
      else None
  end.

Lemma own_checked_app fuel c oc beh w0 : forall ops w w' s rs ops0 S0 rs0,
  own_history c oc beh w0 ops0 S0 rs0 w ->
  own_checked fuel c oc beh ops w = Some (w', s, rs) ->
  own_history c oc beh w0 (ops0 ++ ops) (S0 ++ s) (rs0 ++ rs) w'.
Proof.
  induction ops as [|o ops IH]; intros w w' s rs ops0 S0 rs0 H0 H; cbn [own_checked] in H.
  - injection H as <- <- <-. rewrite !app_nil_r. assumption.
  - destruct (own_allowedb oc o w) eqn:Ea; [|discriminate].
    destruct (own_step fuel c oc beh o w) as [[w1 r]| | | |] eqn:Es; try discriminate.
    destruct (own_checked fuel c oc beh ops w1) as [[[w2 s2] rs2]|] eqn:Ec; [|discriminate].
    injection H as <- <- <-.
    assert (own_allowed oc o w) as Ho.
    { destruct o; cbn [own_allowedb own_allowed] in *; try exact I; try discriminate.
      apply andb_true_iff in Ea as (E1 & E2). rewrite forallb_forall in E1. split; [|apply Z.leb_le, E2].
      apply Forall_forall. intros x Hx. specialize (E1 x Hx). lia. }
    assert (own_returns c oc beh o w w1 r) as Hr by (exists fuel; exact Es).
    pose proof (ohist_snoc c oc beh w0 _ _ _ _ o r w1 H0 Ho Hr) as H1.
    pose proof (IH _ _ _ _ _ _ _ H1 Ec) as H2. rewrite <- !app_assoc in H2. exact H2.
Qed.

Lemma own_checked_history fuel c oc beh ops w w' s rs :
  own_checked fuel c oc beh ops w = Some (w', s, rs) -> own_history c oc beh w ops s rs w'.
Proof. intros H. exact (own_checked_app fuel c oc beh w ops w w' s rs [] [] [] (ohist_nil _ _ _ _) H). Qed.

(** Serialization policies of an application: most significant byte first on every machine; *)
Definition network : policy :=
  Policy unit tt (fun _ _ f => po_buffer bitwise (Config 16 false Disabled Disabled Disabled) tt f)
    (fun _ ty => po_read bitwise (Config 16 false Disabled Disabled Disabled) ty).

(** two-byte integers in one byte, others as BitwiseCopy; *)
Definition compact : policy :=
  Policy unit tt
    (fun c _ f => match f with
                  | (TInt true 2, VInt z) => ([WByte z], tt)
                  | _ => po_buffer bitwise c tt f
                  end)
    (fun c ty => match ty with TInt true 2 => RByte (fun b => RReturn (VInt b)) | _ => po_read bitwise c ty end).

(** bytes as the difference to the field before; *)
Definition differences : policy :=
  Policy Z 0
    (fun c last f => match f with
                     | (TInt false 1, VInt z) => ([WByte (z - last)], z)
                     | _ => (fst (po_buffer bitwise c tt f), last)
                     end)
    (po_read bitwise).

(** the deserializer reads a hundred bytes for each field. *)
Definition greedy : policy :=
  Policy unit tt (po_buffer bitwise) (fun c ty => read_block 100 [] (fun bs => RReturn (VInt (nth 0 bs 0)))).

Lemma network_matched types env : oe_policy env = network -> own_static_ok (Own types env) = true ->
  forall cs c, policy_matched cs c (Own types env).
Proof.
  intros HP Hst. assert (let p := oe_policy (oc_env (Own types env)) in
    (forall c c' st f, po_buffer p c st f = po_buffer p c' st f) /\ (forall c c' t, po_read p c t = po_read p c' t)) as (HB & HR).
  { cbn [oc_env]. rewrite HP. split; reflexivity. }
  apply (portable_policy_matched (Own types env) HB HR (Config 16 false Disabled Disabled Disabled)).
  set (c0 := Config 16 false Disabled Disabled Disabled).
  assert (own_static_ok (Own types (OwnEnvelope bitwise (oe_size env) (oe_offset env) (oe_check env) (oe_send env))) = true) as Hst' by exact Hst.
  intros m vs Hm Hv. pose proof (bitwise_policy_matched _ Hst' c0 c0 eq_refl eq_refl m vs Hm Hv) as H.
  unfold own_decodes, own_written in *. cbn [oc_env oe_policy oc_types] in *. rewrite HP.
  assert (forall ts vs st st', written network c0 st ts vs = written bitwise c0 st' ts vs) as HW.
  { induction ts as [|t ts IH]; intros [|v vs'] st st'; try reflexivity. cbn [written]. f_equal. apply IH. }
  assert (forall ts bs, decodes network c0 ts bs = decodes bitwise c0 ts bs) as HD.
  { induction ts as [|t ts IH]; intros bs; [reflexivity|]. cbn [decodes].
    change (po_read network c0 t) with (po_read bitwise c0 t).
    destruct (takes (po_read bitwise c0 t) bs) as [[[v bs']|]|]; try reflexivity. rewrite IH. reflexivity. }
  rewrite (HW _ _ _ (po_init bitwise)), HD. exact H.
Qed.
