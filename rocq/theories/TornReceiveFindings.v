(** receiveFrom interrupted by processMessages while the contents are moved. *)
From Verif Require Import Runs.
From Verif Require Export TornReceiveLemmas TornAppendFindings.

(** A port with the bytes [d] in it, as the two shipped adapters see it. *)
Definition port_read (d : list Z) (n : Z) : list Z * Z := (firstn (Z.to_nat n) d, Z.min n (zlen d)).

Lemma port_read_ok d n : bytes_ok d -> 0 <= n ->
  bytes_ok (fst (port_read d n)) /\ zlen (fst (port_read d n)) <= n /\ snd (port_read d n) = zlen (fst (port_read d n)).
Proof.
  intros Hd Hn. unfold port_read. cbn [fst snd]. 
  split; [rewrite <- (firstn_skipn (Z.to_nat n) d) in Hd; apply Forall_app in Hd as [Hd _]; exact Hd|].
  unfold zlen. rewrite firstn_length. lia.
Qed.

Lemma port_bytes d n : bytes_ok d -> 0 <= n <= 255 -> trunc 8 (snd (port_read d n)) = zlen (fst (port_read d n)).
Proof.
  intros Hd Hn. destruct (port_read_ok d n Hd ltac:(lia)) as (_ & H1 & H2). rewrite H2. unfold trunc.
  apply Z.mod_small. pose proof (zlen_nonneg (fst (port_read d n))). change (2 ^ 8) with 256. lia.
Qed.

Lemma vrpn_port_ok d : bytes_ok d -> adapter_ok (vrpn_adapter (port_read d)).
Proof.
  intros Hd n Hn. pose proof (port_bytes d n Hd Hn) as E. destruct (port_read_ok d n Hd ltac:(lia)) as (H1 & H2 & _).
  unfold adapter_ok_at, vrpn_adapter. cbn [ad_read]. destruct (port_read d n). cbn [fst snd] in *. auto.
Qed.

Lemma arduino_port_ok k d : bytes_ok d -> adapter_ok (arduino_adapter k (port_read d)).
Proof.
  intros Hd n Hn. pose proof (port_bytes d n Hd Hn) as E. destruct (port_read_ok d n Hd ltac:(lia)) as (H1 & H2 & _).
  unfold adapter_ok_at, arduino_adapter. cbn [ad_read]. destruct (port_read d n). cbn [fst snd] in *. auto.
Qed.

Lemma received_processed fuel c coll beh a w w1 r1 w2 r2 d : adapter_ok a ->
  step fuel c coll beh (OpReceive a) w = Ok (w1, r1) -> step fuel c coll beh OpProcess w1 = Ok (w2, r2) ->
  received coll beh (OpReceive a) w w1 ++ received coll beh OpProcess w1 w2 = d ->
  history c coll beh w [OpReceive a; OpProcess] d [r1; r2] w2.
Proof.
  intros Ha E1 E2 <-.
  pose proof (hist_snoc c coll beh w [] [] [] w (OpReceive a) r1 w1 (hist_nil _ _ _ w) Ha (ex_intro _ fuel E1)) as H1.
  exact (hist_snoc c coll beh w _ _ _ w1 OpProcess r2 w2 H1 I (ex_intro _ fuel E2)).
Qed.

(** A byte of noise and a message arrive in two parts; processMessages is called between them, and once more while the second part
    is received. *)
Lemma invented_witness o : exists n rs w rs1 w1 w2 rs3 w3,
  history (desktop true) test_basic quiet (start test_basic (Some hd1))
    [OpReceive (vrpn_adapter (port_read [9; 1; 2; 2; 1; 4; 2; 3; 4])); OpProcess] [9; 1; 2; 2; 1; 4; 2; 3; 4] rs w
  /\ w_log w = [] /\ held w = [1; 2; 2; 1; 4; 2; 3; 4]
  /\ history (desktop true) test_basic quiet w
       [OpReceive (vrpn_adapter (port_read [0; 0; 0; 0; 0; 0; 0; 3; 4])); OpProcess] [0; 0; 0; 0; 0; 0; 0; 3; 4] rs1 w1
  /\ map (fun d => fst (content d)) (w_log w1) = [MessageC]
  /\ w_receive 60 o (desktop true) test_basic quiet (vrpn_adapter (port_read [0; 0; 0; 0; 0; 0; 0; 3; 4])) (repeat false n ++ [true]) w
     = Ok (w2, 9, [Returned 1])
  /\ map (fun d => fst (content d)) (w_log w2) = [MessageEmpty]
  /\ history (desktop true) test_basic quiet w2 [OpProcess] [] rs3 w3
  /\ map (fun d => fst (content d)) (w_log w3) = [MessageEmpty] /\ held w3 = [].
Proof.
  destruct o; exists 13%nat; do 7 eexists; (split; [eapply (received_processed 60); [apply vrpn_port_ok, forallb_bytes; reflexivity | vm_compute; reflexivity | vm_compute; reflexivity | vm_compute; reflexivity]|]);
    (split; [vm_compute; reflexivity|]); (split; [vm_compute; reflexivity|]);
    (split; [eapply (received_processed 60); [apply vrpn_port_ok, forallb_bytes; reflexivity | vm_compute; reflexivity | vm_compute; reflexivity | vm_compute; reflexivity]|]); (split; [vm_compute; reflexivity|]);
    (split; [vm_compute; reflexivity|]); (split; [vm_compute; reflexivity|]);
    (split; [apply (checked_history 60); vm_compute; reflexivity|]); split; vm_compute; reflexivity.
Qed.

(** One message has been received and processed, and three bytes of the next one are received. *)
Lemma received_again_witness o : exists rs w w2,
  history (desktop false) test_basic quiet (start test_basic (Some hd1))
    [OpReceive (arduino_adapter 8 (port_read [1; 1; 2; 10; 20; 30; 3; 4])); OpProcess] [1; 1; 2; 10; 20; 30; 3; 4] rs w
  /\ held w = [] /\ map content (w_log w) = [(MessageB, map VInt [10; 20; 30])]
  /\ rb_pastEnd (er_buf (rx_recv (w_rx w))) + 3 <= capacity test_basic
  /\ w_receive 60 o (desktop false) test_basic quiet (arduino_adapter 3 (port_read [1; 1; 2]))
       [false; false; false; false; false; true] w = Ok (w2, 3, [Returned 1])
  /\ map content (w_log w2) = [(MessageB, map VInt [10; 20; 30]); (MessageB, map VInt [10; 20; 30])]
  /\ step 60 (desktop false) test_basic quiet OpProcess w2 = UB.
Proof.
  destruct o; do 3 eexists;
    (split; [eapply (received_processed 60); [apply arduino_port_ok, forallb_bytes; reflexivity | vm_compute; reflexivity | vm_compute; reflexivity | vm_compute; reflexivity]|]);
    (split; [vm_compute; reflexivity|]); (split; [vm_compute; reflexivity|]); (split; [apply Z.leb_le; vm_compute; reflexivity|]);
    (split; [vm_compute; reflexivity|]); split; vm_compute; reflexivity.
Qed.
