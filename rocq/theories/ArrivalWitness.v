(** Arrivals that do harm. *)
From Verif Require Import ArrivalHistory Runs.

(** Bytes that arrive at one kind of moment, as far as there is room. *)
Definition at_moment (q : moment) (l : list Z) : arrival := fun p n =>
  match q, p with
  | Between, Between | Emptied, Emptied | Reading, Reading => firstn (Z.to_nat n) l
  | _, _ => []
  end.
Definition silent : arrival := fun _ _ => [].

Lemma firstn_fits (l : list Z) n : bytes_ok l -> 0 <= n -> bytes_ok (firstn (Z.to_nat n) l) /\ zlen (firstn (Z.to_nat n) l) <= n.
Proof.
  intros H Hn. split.
  - rewrite <- (firstn_skipn (Z.to_nat n) l) in H. apply Forall_app in H as [H _]. exact H.
  - unfold zlen. rewrite firstn_length. lia.
Qed.

Lemma at_moment_fits q l : bytes_ok l -> fits (at_moment q l).
Proof.
  intros H p n Hn. pose proof (firstn_fits l n H Hn) as HF.
  assert (bytes_ok [] /\ zlen (@nil Z) <= n) as H0 by (split; [constructor | exact Hn]).
  destruct q, p; cbn [at_moment]; assumption.
Qed.

Lemma silent_fits : fits silent.
Proof. intros p n Hn. split; [constructor | exact Hn]. Qed.

Lemma all_fits l : Forall (fun f => f = silent \/ exists q d, bytes_ok d /\ f = at_moment q d) l -> Forall fits l.
Proof.
  apply Forall_impl. intros f [->|(q & d & H & ->)]; [apply silent_fits | apply at_moment_fits, H].
Qed.

Lemma at_moment_one q l p n : (match q with Emptied => zlen l <=? 1 | _ => match p with Emptied => true | _ => false end end) = true ->
  zlen (at_moment q l p n) <= 1.
Proof.
  intros H. assert (zlen (@nil Z) <= 1) as H0 by (apply Z.leb_le; reflexivity).
  destruct q, p; cbn [at_moment]; try exact H0; try discriminate.
  apply Z.leb_le in H. unfold zlen in *. rewrite firstn_length. lia.
Qed.

Lemma no_bools e : bool_free (Collection test_types e).
Proof.
  intros m t Hm Ht. cbn in Hm. repeat (destruct Hm as [<-|Hm]; [cbn in Ht; intuition (subst; discriminate)|]). contradiction.
Qed.

Lemma bytes_ok_ok l : forallb is_byte l = true -> bytes_ok l.
Proof. apply forallb_bytes. Qed.

(** A MessageEmpty that does not begin with SOH. *)
Definition headless (e : envelope) : list Z :=
  match e with Basic => [9; 4; 2; 3; 4] | BasicChecksum => [9; 4; 2; 3; 18; 4] end.

Lemma headless_none e : Scan (Collection test_types e) (headless e) [] [].
Proof.
  apply (skips_scan _ _ []); [|apply scan_wait; exact I].
  destruct e; cbn [headless]; repeat (constructor; [apply not_soh_dead; discriminate|]); constructor.
Qed.

Lemma emptied_witness : forall e, exists coll coming w d w' rest,
  mc_env coll = e /\ static_ok coll = true /\ bool_free coll
  /\ Forall fits coming /\ Forall (fun f => forall n, f Reading n = []) coming
  /\ w = start coll (Some hd1)
  /\ a_process 200 (desktop true) coll quiet (AWorld w coming []) = AssertFail
  /\ a_process 200 (desktop false) coll quiet (AWorld w coming []) = Ok (AWorld w' rest d, Returned 1)
  /\ map content (w_log w') = [(MessageEmpty, [])]
  /\ forall ops rs v, history (desktop false) coll quiet w ops d rs v -> w_log v = [].
Proof.
  intros e.
  assert (exists w' rest, a_process 200 (desktop false) (Collection test_types e) quiet
            (AWorld (start (Collection test_types e) (Some hd1)) [silent; at_moment Emptied (headless e)] [])
            = Ok (AWorld w' rest (headless e), Returned 1) /\ map content (w_log w') = [(MessageEmpty, [])]) as (w' & rest & E & EL).
  { destruct e; eexists; eexists; (split; [vm_compute; reflexivity|]); vm_compute; reflexivity. }
  exists (Collection test_types e), [silent; at_moment Emptied (headless e)], (start (Collection test_types e) (Some hd1)), (headless e), w', rest.
  split; [reflexivity|]. assert (static_ok (Collection test_types e) = true) as Hst by (destruct e; reflexivity).
  split; [exact Hst|]. split; [apply no_bools|]. split.
  { apply all_fits. constructor; [left; reflexivity|]. constructor; [|constructor]. right. eexists. eexists. split; [|reflexivity].
    destruct e; apply bytes_ok_ok; reflexivity. }
  split; [repeat constructor|]. split; [reflexivity|].
  split; [destruct e; vm_compute; reflexivity|]. split; [exact E|]. split; [exact EL|].
  intros ops rs v H.
  assert (index_safe (desktop false) (capacity (Collection test_types e))) as Hsafe by (destruct e; left; reflexivity).
  destruct (calls_of_stream (desktop false) _ quiet _ _ _ _ _ [] [] Hst Hsafe quiet_tame (fun _ => eq_refl) H (headless_none e))
    as (ms1 & ms2 & E1 & HF). destruct ms1; [|discriminate]. inversion HF. reflexivity.
Qed.

(** Three messages, and ten bytes that arrive while the second is read. *)
Definition nine (k : Z) : list Z := [k; k + 1; k + 2; k + 3; k + 4; k + 5; k + 6; k + 7; k + 8].
Definition three_messages : list Z := concat (map (fun k => [1; 5; 2] ++ nine k ++ [3; 4]) [10; 20; 30]).
Definition burst : arrival := fun p n =>
  match p with Reading => if n =? 23 then [9; 9; 9; 9; 9; 9; 9; 9; 9; 9] else [] | _ => [] end.

Lemma three_found : exists r, Scan test_basic (three_messages ++ repeat 9 10)
  [Found MessageMaxArity 5 (nine 10); Found MessageMaxArity 5 (nine 20); Found MessageMaxArity 5 (nine 30)] r.
Proof.
  assert (forall k, is_frame test_basic ([1; 5; 2] ++ nine k ++ [3; 4]) MessageMaxArity 5 (nine k)) as HF.
  { intros k. split; [split; [lia | reflexivity]|]. split; reflexivity. }
  exists []. change (three_messages ++ repeat 9 10) with
    (([1; 5; 2] ++ nine 10 ++ [3; 4]) ++ ([1; 5; 2] ++ nine 20 ++ [3; 4]) ++ ([1; 5; 2] ++ nine 30 ++ [3; 4]) ++ repeat 9 10).
  do 3 (apply scan_frame; [apply HF|]).
  apply (skips_scan _ _ []); [|apply scan_wait; exact I].
  cbn [repeat]. repeat (constructor; [apply not_soh_dead; discriminate|]). constructor.
Qed.

Lemma reading_witness : exists coming S rs w d w' rest,
  Forall fits coming /\ Forall (fun f => forall n, f Emptied n = []) coming
  /\ history (desktop true) test_basic quiet (start test_basic (Some hd1)) [OpAppend S] S rs w
  /\ a_process 2000 (desktop true) test_basic quiet (AWorld w coming []) = Ok (AWorld w' rest d, Returned 3)
  /\ map content (w_log w')
     = [(MessageMaxArity, map VInt (nine 10)); (MessageMaxArity, map VInt (nine 30)); (MessageMaxArity, map VInt (nine 30))]
  /\ forall ops rs v, history (desktop true) test_basic quiet (start test_basic (Some hd1)) ops (S ++ d) rs v ->
       map content (w_log v) <> map content (w_log w').
Proof.
  exists (repeat burst 200), three_messages. eexists. eexists. exists (repeat 9 10). eexists. eexists.
  split. { apply Forall_forall. intros f Hf. apply repeat_spec in Hf. subst f. intros p n Hn.
           assert (bytes_ok [] /\ zlen (@nil Z) <= n) as H0 by (split; [constructor | exact Hn]).
           destruct p; cbn [burst]; try assumption. destruct (Z.eqb_spec n 23) as [->|_]; [|assumption].
           split; [apply bytes_ok_ok; reflexivity | change (10 <= 23); lia]. }
  split. { apply Forall_forall. intros f Hf. apply repeat_spec in Hf. subst f. reflexivity. }
  split; [apply (checked_history 60); vm_compute; reflexivity|].
  split; [vm_compute; reflexivity|].
  split; [vm_compute; reflexivity|].
  intros ops rs v H EQ.
  assert (static_ok test_basic = true) as Hst by reflexivity.
  assert (index_safe (desktop true) (capacity test_basic)) as Hsafe by (left; reflexivity).
  destruct three_found as (r & HS).
  destruct (calls_of_stream (desktop true) _ quiet _ _ _ _ _ _ _ Hst Hsafe quiet_tame (fun _ => eq_refl) H HS)
    as (ms1 & ms2 & E1 & HF).
  match type of EQ with _ = ?R => let R' := eval vm_compute in R in change (map content (w_log v) = R') in EQ end.
  revert HF EQ. generalize (w_log v). intros log HF EQ.
  destruct HF as [|x1 y1 l1 k1 D1 HF]; [discriminate|]. destruct HF as [|x2 y2 l2 k2 D2 HF]; [discriminate|].
  cbn [map] in EQ. injection EQ as _ _ _ EV _. injection E1 as _ <- _.
  destruct D2 as (_ & _ & D2). cbn [f_payload f_message] in D2. rewrite EV in D2. vm_compute in D2. discriminate.
Qed.
