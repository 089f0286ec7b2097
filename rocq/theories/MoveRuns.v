(** Executable runs with the bytes given and moved. *)
From Verif Require Export MoveLemmas Runs.

Definition okb (coll : collection) (o : op) (w : world) (r : opret) : bool :=
  match r with RetProcess Threw => false | _ => true end
  && match o, r with
     | OpReceive a, RetCount n => n =? Z.min (ad_available a mod 256) (rx_available coll (w_rx w))
     | OpReceive _, _ => false
     | _, _ => true
     end.

Lemma okb_careful coll o w r : okb coll o w r = true -> careful coll o w r.
Proof.
  unfold okb, careful. rewrite andb_true_iff. intros (H1 & H2). split.
  - destruct o; cbn; auto. destruct r; try discriminate. apply Z.eqb_eq in H2. congruence.
  - intros ->. discriminate.
Qed.

(** Calls, the adapters' contract left aside. *)
Fixpoint m_run (okb : op -> world -> opret -> bool) (fuel : nat) (c : config) (coll : collection) (beh : hbehav)
         (ops : list op) (a m : Z) (w : world) : option (Z * Z * world) :=
  match ops with
  | [] => Some (a, m, w)
  | o :: rest =>
      if match o with OpReceive _ => true | _ => allowedb coll o w end then
        match m_step fuel c coll beh o w with
        | (Ok (w', r), k) =>
            if okb o w r then m_run okb fuel c coll beh rest (a + zlen (received coll beh o w w')) (m + k) w' else None
        | _ => None
        end
      else None
  end.

Definition adapters_ok (ops : list op) : Prop := Forall (fun o => match o with OpReceive a => adapter_ok a | _ => True end) ops.

Lemma m_run_moving (f : op -> world -> opret -> bool) (ok : op -> world -> opret -> Prop) fuel c coll beh h0 :
  (forall o w r, f o w r = true -> ok o w r) ->
  forall ops a m w a' m' w', adapters_ok ops -> moving c coll beh ok h0 a m w ->
  m_run f fuel c coll beh ops a m w = Some (a', m', w') -> moving c coll beh ok h0 a' m' w'.
Proof.
  intros Hf. induction ops as [|o ops IH]; intros a m w a' m' w' Ha HM H; cbn [m_run] in H.
  - injection H as <- <- <-. exact HM.
  - apply Forall_cons_iff in Ha as (Ho & Ha).
    destruct (match o with OpReceive _ => true | _ => allowedb coll o w end) eqn:Eal; [|discriminate].
    destruct (m_step fuel c coll beh o w) as [[[w1 r]| | | |] k] eqn:Es; try discriminate.
    destruct (f o w r) eqn:Ef; [|discriminate].
    refine (IH _ _ _ _ _ _ Ha _ H).
    replace k with (moves (m_step fuel c coll beh o w)) by (rewrite Es; reflexivity).
    eapply moving_step; [exact HM | | exact (Hf _ _ _ Ef) | rewrite <- same_step_lemma, Es; reflexivity].
    destruct o; try exact Ho; apply allowedb_ok; exact Eal.
Qed.

Lemma run_counts (x : option (Z * Z * world)) a m : option_map fst x = Some (a, m) -> exists w, x = Some (a, m, w).
Proof. destruct x as [[[a' m'] w]|]; cbn; [|discriminate]. intros [= -> ->]. eauto. Qed.

(** A port that hands out one byte at a time. *)
Definition one (x n : Z) : list Z * Z := if n <=? 0 then ([], 0) else ([x], 1).

Lemma one_ok x : 0 <= x < 256 -> adapter_ok (vrpn_adapter (one x)).
Proof.
  intros Hx n Hn. unfold adapter_ok_at, vrpn_adapter, one. cbn [ad_read].
  destruct (Z.leb_spec n 0); cbn; (conj; [repeat constructor; lia | lia | reflexivity]).
Qed.

(** Polls: receiveFrom a serial port that has the next byte, then processMessages. *)
Definition polls (s : list Z) : list op := flat_map (fun x => [OpReceive (vrpn_adapter (one x)); OpProcess]) s.

Lemma polls_ok s : bytes_ok s -> adapters_ok (polls s).
Proof.
  induction 1 as [|x s Hx Hs IH]; [constructor|]. cbn. constructor; [apply one_ok, Hx|]. constructor; [exact I|exact IH].
Qed.

Definition cycle (s : list Z) (n : nat) : list Z := flat_map (fun _ => s) (seq 0 n).

(** Chunks of a cycled text, each appended and, if so marked, processed. *)
Fixpoint chunks (s : list Z) (l : list (nat * bool)) : list op :=
  match l with
  | [] => []
  | (n, p) :: rest => [OpAppend (firstn n s)] ++ (if p then [OpProcess] else []) ++ chunks (skipn n s) rest
  end.

Definition every_other : hbehav := fun log => HResult [] (Nat.even (List.length log)).
Definition big : collection := Collection [MType 1 [TRaw 250]] Basic.
Definition uneven : collection := Collection [MType 1 [TRaw 250]; MType 2 []] Basic.

Definition medium : collection := Collection [MType 1 [TRaw 121]] Basic.

(** ** Runs that move many bytes *)
Lemma big_safe : static_ok big = true /\ index_safe (avr true) (capacity big).
Proof. split; [vm_compute; reflexivity|]. right. vm_compute. discriminate. Qed.
Lemma medium_safe : static_ok medium = true /\ index_safe (avr true) (capacity medium).
Proof. split; [vm_compute; reflexivity|]. right. vm_compute. discriminate. Qed.
Lemma uneven_safe : static_ok uneven = true /\ index_safe (avr true) (capacity uneven).
Proof. split; [vm_compute; reflexivity|]. right. vm_compute. discriminate. Qed.

Lemma every_other_steady : steady every_other.
Proof. intros log a []. Qed.

Definition dense : list op :=
  chunks (cycle [1; 0; 2] 3000) ((256%nat, true) :: concat (repeat [(509, false); (1, true); (3, true)]%nat 15)).

Lemma chunks_ok s l : adapters_ok (chunks s l).
Proof.
  revert s. induction l as [|[n p] l IH]; intros s; cbn [chunks]; [constructor|].
  constructor; [exact I|]. destruct p; cbn [app]; [constructor; [exact I|]|]; apply IH.
Qed.

Lemma dense_run : exists w, m_run (okb big) 800 (avr true) big quiet dense 0 0 (start big (Some hd1))
  = Some (7951, 15225, w).
Proof. apply run_counts. vm_compute. reflexivity. Qed.

Lemma attained_moves_lemma : exists c coll beh h0 a m w,
  static_ok coll = true /\ index_safe c (capacity coll) /\ steady beh
  /\ moving c coll beh (fun o w r => full_read coll o w r /\ no_throw o w r) h0 a m w /\ 19 * a < 10 * m.
Proof.
  destruct big_safe as (H1 & H2). destruct dense_run as (w & Hw).
  exists (avr true), big, quiet, (Some hd1), 7951, 15225, w. conj; auto; [apply quiet_steady| |lia].
  refine (m_run_moving (okb big) _ 800 _ _ _ _ (okb_careful big) dense 0 0 _ _ _ _ _ (moving_new _ _ _ _ _) Hw).
  apply chunks_ok.
Qed.

Definition nothrowb (o : op) (w : world) (r : opret) : bool := match r with RetProcess Threw => false | _ => true end.

Lemma polled_run : exists w, m_run nothrowb 800 (avr true) medium quiet (polls (cycle [1; 0; 2] 250)) 0 0 (start medium (Some hd1))
  = Some (750, 25584, w).
Proof. apply run_counts. vm_compute. reflexivity. Qed.

Lemma polled_lemma : exists c coll beh h0 a m w,
  static_ok coll = true /\ index_safe c (capacity coll) /\ steady beh
  /\ moving c coll beh no_throw h0 a m w /\ 30 * a < m.
Proof.
  destruct medium_safe as (H1 & H2). destruct polled_run as (w & Hw).
  exists (avr true), medium, quiet, (Some hd1), 750, 25584, w. conj; auto; [apply quiet_steady| |lia].
  refine (m_run_moving nothrowb _ 800 _ _ _ _ _ (polls (cycle [1; 0; 2] 250)) 0 0 _ _ _ _ _ (moving_new _ _ _ _ _) Hw).
  - intros o v r H E. rewrite E in H. discriminate.
  - apply polls_ok. apply forallb_bytes. vm_compute. reflexivity.
Qed.

Definition readb (o : op) (w : world) (r : opret) : bool := match o with OpReceive _ => false | _ => true end.
Definition thrown : list op := chunks (cycle [1; 1; 2; 3; 4] 220) ((765%nat, true) :: repeat (5%nat, true) 60).

Lemma thrown_run : exists w, m_run readb 800 (avr true) uneven every_other thrown 0 0 (start uneven (Some hd1))
  = Some (1065, 45600, w).
Proof. apply run_counts. vm_compute. reflexivity. Qed.

Lemma thrown_lemma : exists c coll beh h0 a m w,
  static_ok coll = true /\ index_safe c (capacity coll) /\ steady beh
  /\ moving c coll beh (full_read coll) h0 a m w /\ 40 * a < m.
Proof.
  destruct uneven_safe as (H1 & H2). destruct thrown_run as (w & Hw).
  exists (avr true), uneven, every_other, (Some hd1), 1065, 45600, w. conj; auto; [apply every_other_steady| |lia].
  refine (m_run_moving readb _ 800 _ _ _ _ _ thrown 0 0 _ _ _ _ _ (moving_new _ _ _ _ _) Hw).
  - intros o v r H. destruct o; try exact I. discriminate.
  - apply chunks_ok.
Qed.
