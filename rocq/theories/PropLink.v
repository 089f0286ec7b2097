(** Properties C53-C55, C59, C63, C64, C70, C72, C77: a sender and a receiver connected by a port. *)
From Verif Require Import Runs MixLemmas LayoutLemmas EndianLemmas RelayLemmas InterruptLemmas.

(** C53: the loop [receiveFrom(a); processMessages()] reading the bytes of sent messages from a
    port, through any adapter that stores a beginning of what is waiting.  Whatever the turns
    taken so far, the messages delivered are the first ones sent, in order; less than one
    maximal message is held; when nothing is left unread all are delivered and nothing is held. *)
Theorem C53_polling :
  forall c coll, static_ok coll = true -> index_safe c (capacity coll) ->
  forall beh, steady beh -> (forall log, hr_throws (beh log) = false) ->
  forall fuel, (Z.to_nat (capacity coll) < fuel)%nat ->
  forall cs msgs S h n w P', little cs = little c -> Forall (sendable coll) msgs ->
  send_all cs coll vector_tx msgs [] = Ok S ->
  Polls serves fuel c coll beh n (start coll (Some h)) S w P' ->
  (exists k, map content (w_log w) = firstn k msgs)
  /\ zlen (held w) < max_message_length coll
  /\ (P' = [] -> map content (w_log w) = msgs /\ held w = []).
Proof. exact polls_sent. Qed.
Print Assumptions C53_polling.

(** Another turn is always possible: both calls return. *)
Theorem C53_polling_progress :
  forall c coll, static_ok coll = true -> index_safe c (capacity coll) ->
  forall beh, steady beh -> (forall log, hr_throws (beh log) = false) ->
  forall fuel, (Z.to_nat (capacity coll) < fuel)%nat ->
  forall cs msgs S h n w P' a, little cs = little c -> Forall (sendable coll) msgs ->
  send_all cs coll vector_tx msgs [] = Ok S ->
  Polls serves fuel c coll beh n (start coll (Some h)) S w P' -> serves a P' ->
  exists w1 k w2 r, step fuel c coll beh (OpReceive a) w = Ok (w1, RetCount k)
    /\ step fuel c coll beh OpProcess w1 = Ok (w2, RetProcess (Returned r))
    /\ Polls serves fuel c coll beh (Datatypes.S n) (start coll (Some h)) S w2 (skipn (Z.to_nat k) P').
Proof. exact polls_possible. Qed.
Print Assumptions C53_polling_progress.

(** With adapters that store at least one byte when some are waiting, every turn makes
    progress ... *)
Theorem C53_polling_bound :
  forall c coll, static_ok coll = true -> index_safe c (capacity coll) ->
  forall beh, steady beh -> (forall log, hr_throws (beh log) = false) ->
  forall fuel, (Z.to_nat (capacity coll) < fuel)%nat ->
  forall cs msgs S h n w P', little cs = little c -> Forall (sendable coll) msgs ->
  send_all cs coll vector_tx msgs [] = Ok S ->
  Polls eager fuel c coll beh n (start coll (Some h)) S w P' ->
  zlen S - Z.of_nat n >= zlen P' \/ (P' = [] /\ map content (w_log w) = msgs /\ held w = []).
Proof. exact polls_bound. Qed.
Print Assumptions C53_polling_bound.

(** ... so that all messages are delivered after at most as many turns as there are bytes. *)
Theorem C53_polling_drains :
  forall c coll, static_ok coll = true -> index_safe c (capacity coll) ->
  forall beh, steady beh -> (forall log, hr_throws (beh log) = false) ->
  forall fuel, (Z.to_nat (capacity coll) < fuel)%nat ->
  forall cs msgs S h port, little cs = little c -> Forall (sendable coll) msgs ->
  send_all cs coll vector_tx msgs [] = Ok S -> (forall P, bytes_ok P -> eager (port P) P) ->
  exists n w, Z.of_nat n <= zlen S
    /\ Polls (fun a P => a = port P) fuel c coll beh n (start coll (Some h)) S w []
    /\ map content (w_log w) = msgs /\ held w = [].
Proof. exact polls_drain. Qed.
Print Assumptions C53_polling_drains.

(** The shipped adapters are such adapters; VRPN's always reports 255 bytes, Arduino's the
    number waiting, at most 255. *)
Theorem C53_shipped_ports :
  forall P, bytes_ok P ->
  eager (vrpn_adapter (fifo_read P)) P /\ eager (arduino_adapter (zlen P) (fifo_read P)) P
  /\ ad_available (vrpn_adapter (fifo_read P)) = 255
  /\ ad_available (arduino_adapter (zlen P) (fifo_read P)) = Z.min 255 (zlen P).
Proof. exact shipped_ports_lemma. Qed.
Print Assumptions C53_shipped_ports.

Definition msgs3 := [(MessageB, [VInt 10; VInt 20; VInt 30]); (MessageEmpty, []);
                     (MessageA, [VInt (-1); VInt 4; VInt (-2)])].
Definition sent3 : list Z := [1;1;2;10;20;30;3;4; 1;4;2;3;4; 1;0;2;255;4;254;255;3;4].
(** A port giving ten bytes at a time: three turns; after the first one message is delivered
    and two bytes are held. *)
Example C53_case :
  Forall (sendable test_basic) msgs3
  /\ send_all (avr false) test_basic vector_tx msgs3 [] = Ok sent3
  /\ steady quiet /\ (forall log, hr_throws (quiet log) = false)
  /\ exists w1 w3,
       Polls (fun a P => a = arduino_adapter (Z.min 10 (zlen P)) (fifo_read P)) 60 (desktop true) test_basic quiet
         1 (start test_basic (Some hd1)) sent3 w1 (skipn 10 sent3)
       /\ held w1 = [1;4] /\ length (w_log w1) = 1%nat
       /\ Polls (fun a P => a = arduino_adapter (Z.min 10 (zlen P)) (fifo_read P)) 60 (desktop true) test_basic quiet
            3 (start test_basic (Some hd1)) sent3 w3 []
       /\ map content (w_log w3) = msgs3.
Proof.
  split; [repeat (apply Forall_cons || apply Forall_nil); split; try reflexivity; cbn; auto 10|].
  split; [reflexivity|]. split; [exact quiet_steady|]. split; [reflexivity|].
  eexists. eexists. split; [|split; [|split; [|split]]].
  - eapply polls_turn; [apply polls_none | reflexivity | vm_compute; reflexivity | vm_compute; reflexivity | reflexivity].
  - vm_compute. reflexivity.
  - vm_compute. reflexivity.
  - eapply polls_turn; [eapply polls_turn; [eapply polls_turn; [apply polls_none | reflexivity | vm_compute; reflexivity | vm_compute; reflexivity | reflexivity] | reflexivity | vm_compute; reflexivity | vm_compute; reflexivity | reflexivity] | reflexivity | vm_compute; reflexivity | vm_compute; reflexivity | reflexivity].
  - vm_compute. reflexivity.
Qed.

(** C54: [new] is the collection [old] with message types added at the end.  Sending a message of
    [old] is the same with either ... *)
Theorem C54_same_sending :
  forall old new, extends old new -> static_ok old = true -> static_ok new = true ->
  forall (S : Type) c m (t : transmitter S) contents s, In m (mc_types old) ->
  send c new m t contents s = send c old m t contents s.
Proof. exact extends_send. Qed.
Print Assumptions C54_same_sending.

(** ... a receiver of the new collection gets all messages sent with the old one ... *)
Theorem C54_old_to_new :
  forall c old new cs beh h0 msgs S w, extends old new ->
  static_ok old = true -> static_ok new = true -> index_safe c (capacity new) ->
  tame beh -> little cs = little c -> Forall (sendable old) msgs ->
  send_all cs old vector_tx msgs [] = Ok S -> processed c new beh h0 S w ->
  map content (completed beh [] (w_log w)) = msgs /\ held w = [].
Proof. exact old_to_new_lemma. Qed.
Print Assumptions C54_old_to_new.

(** ... a receiver of the old collection gets, of messages sent with the new one, those it knows,
    if the frames of the others contain no further byte 1 ... *)
Theorem C54_new_to_old :
  forall c old new cs beh h0 msgs S w, extends old new ->
  static_ok old = true -> static_ok new = true -> index_safe c (capacity old) ->
  tame beh -> little cs = little c -> Forall (sendable new) msgs ->
  Forall (fun mv => known old mv = true \/ clean cs new mv) msgs ->
  send_all cs new vector_tx msgs [] = Ok S -> processed c old beh h0 S w ->
  map content (completed beh [] (w_log w)) = filter (known old) msgs /\ held w = [].
Proof. exact new_to_old_lemma. Qed.
Print Assumptions C54_new_to_old.

Definition old_types := Collection [MessageA; MessageB; MessageC; MessageD] BasicChecksum.
Definition new_msgs := [(MessageB, [VInt 1; VInt 20; VInt 30]); (MessageEmpty, []); (MessageA, [VInt (-1); VInt 4; VInt 1]);
                        (MessageMaxArity, map VInt [3;4;2;0;0;0;7;7;9])].
Example C54_case :
  extends old_types test_checksum /\ static_ok old_types = true /\ static_ok test_checksum = true
  /\ Forall (sendable test_checksum) new_msgs
  /\ Forall (fun mv => known old_types mv = true \/ clean (desktop true) test_checksum mv) new_msgs
  /\ filter (known old_types) new_msgs = [nth 0 new_msgs (MessageA, []); nth 2 new_msgs (MessageA, [])]
  /\ exists S w, send_all (desktop true) test_checksum vector_tx new_msgs [] = Ok S
       /\ processed (desktop true) old_types quiet (Some hd1) S w /\ length (w_log w) = 2%nat.
Proof.
  split; [split; [reflexivity | exists [MessageEmpty; MessageMaxArity]; reflexivity]|].
  split; [reflexivity|]. split; [reflexivity|].
  split; [repeat (apply Forall_cons || apply Forall_nil); split; try reflexivity; cbn; auto 10|].
  split.
  - assert (forall i m vs, nth_error (mc_types test_checksum) i = Some m ->
              (forall j, (j < i)%nat -> nth_error (mc_types test_checksum) j <> Some m) ->
              ~ In 1 (tl (spec_frame BasicChecksum (Z.of_nat i) (spec_payload true (mt_fields m) vs))) ->
              clean (desktop true) test_checksum (m, vs)) as HC.
    { intros i m vs H1 H2 H3 f (id & Hid & Hmin & ->). cbn [fst snd] in *.
      assert (id = Z.of_nat i) as ->; [|exact H3].
      assert (has_id test_checksum m (Z.of_nat i)) as Hi by (split; [lia | rewrite Nat2Z.id; exact H1]).
      specialize (Hmin _ Hi). destruct Hid as (I1 & I2).
      destruct (Z.eq_dec id (Z.of_nat i)) as [E|E]; [exact E|]. exfalso.
      apply (H2 (Z.to_nat id)); [lia | exact I2]. }
    repeat (apply Forall_cons || apply Forall_nil).
    + left. reflexivity.
    + right. apply (HC 4%nat); [reflexivity | | vm_compute; intuition discriminate].
      intros j Hj. destruct j as [|[|[|[|j]]]]; try lia; discriminate.
    + left. reflexivity.
    + right. apply (HC 5%nat); [reflexivity | | vm_compute; intuition discriminate].
      intros j Hj. destruct j as [|[|[|[|[|j]]]]]; try lia; discriminate.
  - split; [reflexivity|]. eexists. eexists. split; [vm_compute; reflexivity|]. split.
    + apply (outcome_processed 60) with (n := 1) (ops := [OpAppend [1;1;2;1;20;30;3;58;4]; OpProcess; OpAppend [1;4;2;3;10;4;1;0;2;255;4;1;0;3]; OpProcess; OpAppend [10;4;1;5;2;3;4;2;0;0;0;7;7;9;3;43;4]]).
      vm_compute. reflexivity.
    + reflexivity.
Qed.

(** ... and, without that condition, it may deliver a message that was never sent: one whose
    frame is contained in the fields of a message it does not know. *)
Theorem C54_phantom_refuted :
  exists c old new msgs S w, extends old new /\ static_ok old = true /\ static_ok new = true
    /\ Forall (sendable new) msgs /\ filter (known old) msgs = []
    /\ send_all c new vector_tx msgs [] = Ok S /\ processed c old quiet (Some hd1) S w
    /\ map content (w_log w) = [(MessageEmpty, [])].
Proof.
  exists (desktop true), (Collection [MessageEmpty] Basic), (Collection [MessageEmpty; MType 9 [u8;u8;u8;u8;u8]] Basic),
    [(MType 9 [u8;u8;u8;u8;u8], map VInt [1;0;2;3;4])], [1;1;2;1;0;2;3;4;3;4].
  eexists. split; [split; [reflexivity | eexists; reflexivity]|]. do 2 (split; [reflexivity|]).
  split; [repeat (apply Forall_cons || apply Forall_nil); split; try reflexivity; cbn; auto|].
  do 2 (split; [reflexivity|]). split.
  - apply (outcome_processed 30) with (n := 1) (ops := [OpAppend [1;1;2;1;0;2;3;4;3;4]]). vm_compute. reflexivity.
  - reflexivity.
Qed.
Print Assumptions C54_phantom_refuted.

(** C55: any bytes [g], then messages whose frames contain no byte 1 after the first: some [n] messages
    are lost at the beginning, all following ones are delivered in order, and all lost ones but the
    last together are shorter than one maximal message. *)
Theorem C55_damage_bounded :
  forall c coll, static_ok coll = true -> index_safe c (capacity coll) ->
  forall cs beh h0 g msgs S w, tame beh -> little cs = little c -> Forall (sendable coll) msgs ->
  Forall (clean cs coll) msgs -> send_all cs coll vector_tx msgs [] = Ok S ->
  processed c coll beh h0 (g ++ S) w ->
  exists n before lost, map content (completed beh [] (w_log w)) = before ++ skipn n msgs
    /\ (n < length msgs -> held w = [])%nat
    /\ send_all cs coll vector_tx (firstn (n - 1) msgs) [] = Ok lost
    /\ zlen lost < max_message_length coll - 1.
Proof. exact damage_lemma. Qed.
Print Assumptions C55_damage_bounded.

(** A broken MessageMaxArity swallows the following MessageEmpty; the next one is delivered. *)
Definition after_damage := [(MessageEmpty, @nil value); (MessageEmpty, [])].
Example C55_case :
  Forall (sendable test_basic) after_damage /\ Forall (clean (desktop true) test_basic) after_damage
  /\ exists S w, send_all (desktop true) test_basic vector_tx after_damage [] = Ok S
    /\ processed (desktop true) test_basic quiet (Some hd1) ([1;5;2;9;9;9;9;9;9] ++ S) w
    /\ map content (w_log w) = [(MessageMaxArity, map VInt [9;9;9;9;9;9;1;4;2]); (MessageEmpty, [])].
Proof.
  split; [repeat (apply Forall_cons || apply Forall_nil); split; try reflexivity; cbn; auto 10|].
  assert (clean (desktop true) test_basic (MessageEmpty, [])) as HC.
  { intros f (id & (I1 & I2) & Hmin & ->). cbn [fst snd] in *.
    assert (id = 4) as ->; [|vm_compute; intuition discriminate].
    assert (id <= 4) as Hle by (apply Hmin; split; [lia | reflexivity]).
    assert (id = 0 \/ id = 1 \/ id = 2 \/ id = 3 \/ id = 4) as HI by lia.
    intuition; subst; try discriminate. }
  split; [repeat constructor; exact HC|].
  eexists. eexists. split; [vm_compute; reflexivity|]. split.
  - apply (outcome_processed 60) with (n := 2) (ops := [OpAppend [1;5;2;9;9;9;9;9;9;1;4;2;3;4;1;4;2;3;4]]). vm_compute. reflexivity.
  - reflexivity.
Qed.

(** C59: between machines of opposite byte order every message is delivered once, in order, with the
    bytes of its integer fields reversed ... *)
Theorem C59_cross_endian :
  forall c coll, static_ok coll = true -> index_safe c (capacity coll) ->
  forall cs beh h0 msgs S w, tame beh -> little cs = negb (little c) -> Forall (sendable coll) msgs ->
  send_all cs coll vector_tx msgs [] = Ok S -> processed c coll beh h0 S w ->
  Forall2 (fun mv d => d_message d = fst mv /\ swapped_all (mt_fields (fst mv)) (snd mv) (d_values d))
    msgs (completed beh [] (w_log w))
  /\ held w = [].
Proof. exact cross_endian_lemma. Qed.
Print Assumptions C59_cross_endian.

(** ... which determines the values ... *)
Theorem C59_swapped_determined :
  forall ts vs vs1, Forall fty_ok ts -> swapped_all ts vs vs1 -> forall vs2, swapped_all ts vs vs2 -> vs1 = vs2.
Proof. exact swapped_fun. Qed.
Print Assumptions C59_swapped_determined.

(** ... so nothing changes when all integer fields have one byte and there is no floating point field ... *)
Theorem C59_single_bytes_unchanged :
  forall c coll, static_ok coll = true -> index_safe c (capacity coll) ->
  forall cs beh h0 msgs S w, tame beh -> little cs = negb (little c) -> Forall (sendable coll) msgs ->
  (forall m k s n, In m (mc_types coll) -> In (TIntN k s n) (mt_fields m) -> n = 1%nat) ->
  (forall m x, In m (mc_types coll) -> ~ In (TFloat x) (mt_fields m)) ->
  send_all cs coll vector_tx msgs [] = Ok S -> processed c coll beh h0 S w ->
  map content (completed beh [] (w_log w)) = msgs /\ held w = [].
Proof. exact cross_single_lemma. Qed.
Print Assumptions C59_single_bytes_unchanged.
Example C59_single_case :
  let MessageRaw := MType 2 [TRaw 4; TRaw 4; TRaw 4] in
  let coll := Collection [MessageB; MessageRaw; MessageEmpty] BasicChecksum in
  let msgs := [(MessageB, map VInt [10;20;30]); (MessageRaw, [VRaw [0;0;128;63]; VRaw [1;2;3;4]; VRaw [0;0;0;0]]); (MessageEmpty, [])] in
  static_ok coll = true
  /\ (forall m k s n, In m (mc_types coll) -> In (TIntN k s n) (mt_fields m) -> n = 1%nat)
  /\ (forall m x, In m (mc_types coll) -> ~ In (TFloat x) (mt_fields m))
  /\ Forall (sendable coll) msgs
  /\ exists S w, send_all (bigend true) coll vector_tx msgs [] = Ok S
       /\ processed (desktop true) coll quiet (Some hd1) S w /\ length (w_log w) = 3%nat.
Proof.
  cbn zeta. split; [reflexivity|]. split.
  - intros m k s n Hm Hi. cbn in Hm. destruct Hm as [<-|[<-|[<-|[]]]]; cbn in Hi; unfold u8 in Hi; intuition congruence.
  - split; [intros m x Hm Hi; cbn in Hm; destruct Hm as [<-|[<-|[<-|[]]]]; cbn in Hi; unfold u8 in Hi; intuition congruence|].
    split; [repeat (apply Forall_cons || apply Forall_nil); split; try reflexivity; cbn; auto|].
    eexists. eexists. split; [vm_compute; reflexivity|]. split.
    + apply (outcome_processed 60) with (n := 3) (ops := [OpAppend [1;0;2;10;20;30;3;66;4; 1;1;2;0;0;128;63;1;2;3;4;0;0;0;0;3;208;4; 1;2;2;3;8;4]]).
      vm_compute. reflexivity.
    + reflexivity.
Qed.

(** ... but messages with larger integers arrive with other values. *)
Theorem C59_values_changed_refuted :
  exists c cs coll msgs S w, static_ok coll = true /\ Forall (sendable coll) msgs
    /\ send_all cs coll vector_tx msgs [] = Ok S /\ processed c coll quiet (Some hd1) S w
    /\ map content (w_log w) <> msgs.
Proof.
  exists (desktop true), (bigend true), test_basic, [(MessageA, map VInt [-5; 200; -300]); (MessageA, map VInt [1; 2; 3])].
  eexists. eexists. split; [reflexivity|].
  split; [repeat (apply Forall_cons || apply Forall_nil); split; try reflexivity; cbn; auto|].
  split; [vm_compute; reflexivity|]. split.
  - apply (outcome_processed 60) with (n := 2) (ops := [OpAppend [1;0;2;251;200;254;212;3;4; 1;0;2;1;2;0;3;3;4]]). vm_compute. reflexivity.
  - vm_compute. discriminate.
Qed.
Print Assumptions C59_values_changed_refuted.
Example C59_case :
  little (bigend true) = negb (little (desktop true))
  /\ swapped_all (mt_fields MessageA) (map VInt [1; 2; 3]) (map VInt [1; 2; 768])
  /\ swapped_all (mt_fields MessageA) (map VInt [-5; 200; -300]) (map VInt [-5; 200; -11010])
  /\ swapped_all (mt_fields MessageC) (map (VFloat false) [1065353216; 0; 67305985]) (map (VFloat false) [32831; 0; 16909060]).
Proof.
  split; [reflexivity|].
  split; [|split]; repeat (apply swap_cons || apply swap_nil); (split; [reflexivity|]);
    intros i Hi; cbn in Hi; destruct i as [|[|[|[|i]]]]; (exfalso; lia) || reflexivity.
Qed.

(** C63: a relay.  Whatever bytes a receiver was given, the messages it delivered can all be sent
    on, and a receiver given the bytes so sent (by any calls) delivers exactly these messages, in
    order, and holds nothing. *)
Theorem C63_relay :
  forall c c2 cs coll beh beh2 h0 h1 S w, static_ok coll = true ->
  index_safe c (capacity coll) -> index_safe c2 (capacity coll) -> little cs = little c2 ->
  tame beh -> tame beh2 -> processed c coll beh h0 S w ->
  exists S', send_all cs coll vector_tx (map content (completed beh [] (w_log w))) [] = Ok S'
    /\ forall v, processed c2 coll beh2 h1 S' v ->
         map content (completed beh2 [] (w_log v)) = map content (completed beh [] (w_log w)) /\ held v = [].
Proof. exact relay_lemma. Qed.
Print Assumptions C63_relay.
(** Noise, a message, an unfinished one: what is sent on is the message alone; with a big-endian
    machine behind the relay it has the same values. *)
Example C63_case : exists w v,
  processed (desktop true) test_basic quiet (Some hd1) [7;1;9; 1;0;2;255;4;254;255;3;4; 1;1;2] w
  /\ send_all (bigend true) test_basic vector_tx (map content (w_log w)) [] = Ok [1;0;2;255;4;255;254;3;4]
  /\ processed (bigend true) test_basic quiet (Some hd1) [1;0;2;255;4;255;254;3;4] v
  /\ map content (w_log v) = [(MessageA, map VInt [-1; 4; -2])] /\ map content (w_log w) = map content (w_log v).
Proof.
  eexists. eexists. split; [|split; [|split; [|split]]].
  - apply (outcome_processed 60) with (n := 1) (ops := [OpAppend [7;1;9; 1;0;2;255;4;254;255;3;4; 1;1;2]]). vm_compute. reflexivity.
  - vm_compute. reflexivity.
  - apply (outcome_processed 60) with (n := 1) (ops := [OpAppend [1;0;2;255;4;255;254;3;4]]). vm_compute. reflexivity.
  - vm_compute. reflexivity.
  - vm_compute. reflexivity.
Qed.

(** C64: the bytes determine the messages: lists of messages sent as the same bytes are equal, and
    if one stream begins with another, the messages do too, and the remaining bytes are those of
    the remaining messages. *)
Theorem C64_same_bytes_same_messages :
  forall cs cs2 coll msgs1 msgs2 S, static_ok coll = true -> little cs = little cs2 ->
  Forall (sendable coll) msgs1 -> Forall (sendable coll) msgs2 ->
  send_all cs coll vector_tx msgs1 [] = Ok S -> send_all cs2 coll vector_tx msgs2 [] = Ok S ->
  msgs1 = msgs2.
Proof. exact unique_messages_lemma. Qed.
Print Assumptions C64_same_bytes_same_messages.
Theorem C64_prefix :
  forall cs cs2 coll msgs1 msgs2 S1 T, static_ok coll = true -> little cs = little cs2 ->
  Forall (sendable coll) msgs1 -> Forall (sendable coll) msgs2 ->
  send_all cs coll vector_tx msgs1 [] = Ok S1 -> send_all cs2 coll vector_tx msgs2 [] = Ok (S1 ++ T) ->
  exists rest, msgs2 = msgs1 ++ rest /\ send_all cs coll vector_tx rest [] = Ok T.
Proof. exact unique_decoding_lemma. Qed.
Print Assumptions C64_prefix.
(** With the same message type listed twice and messages whose payload looks like a frame. *)
Example C64_case :
  let coll := Collection [MessageEmpty; MType 7 [u8;u8;u8;u8;u8]; MessageEmpty] Basic in
  let a := (MType 7 [u8;u8;u8;u8;u8], map VInt [1;0;2;3;4]) in
  static_ok coll = true /\ Forall (sendable coll) [a] /\ Forall (sendable coll) [a; (MessageEmpty, [])]
  /\ send_all (desktop true) coll vector_tx [a] [] = Ok [1;1;2;1;0;2;3;4;3;4]
  /\ send_all (avr true) coll vector_tx [a; (MessageEmpty, [])] [] = Ok ([1;1;2;1;0;2;3;4;3;4] ++ [1;0;2;3;4]).
Proof.
  cbn zeta. split; [reflexivity|]. split; [|split; [|split; reflexivity]];
  repeat (apply Forall_cons || apply Forall_nil); split; try reflexivity; cbn; auto.
Qed.
(** The byte order has to be the same. *)
Theorem C64_other_order_refuted :
  exists cs cs2 coll msgs1 msgs2 S, static_ok coll = true
    /\ Forall (sendable coll) msgs1 /\ Forall (sendable coll) msgs2
    /\ send_all cs coll vector_tx msgs1 [] = Ok S /\ send_all cs2 coll vector_tx msgs2 [] = Ok S
    /\ msgs1 <> msgs2.
Proof.
  exists (desktop true), (bigend true), test_basic, [(MessageA, map VInt [1;2;3])], [(MessageA, map VInt [1;2;768])].
  eexists. split; [reflexivity|].
  split; [repeat (apply Forall_cons || apply Forall_nil); split; try reflexivity; cbn; auto|].
  split; [repeat (apply Forall_cons || apply Forall_nil); split; try reflexivity; cbn; auto|].
  split; [vm_compute; reflexivity|]. split; [vm_compute; reflexivity | discriminate].
Qed.
Print Assumptions C64_other_order_refuted.

(** C70: sender and receiver with different collections.  If the envelope and, for every id, the number of
    payload bytes agree, receivers of either collection find the same frames in the same bytes ... *)
Theorem C70_same_layout :
  forall A B c c2, static_ok A = true -> static_ok B = true ->
  index_safe c (capacity A) -> index_safe c2 (capacity B) -> same_layout A B ->
  forall beh beh2 h0 h1 S w v, tame beh -> tame beh2 ->
  processed c A beh h0 S w -> processed c2 B beh2 h1 S v ->
  held w = held v
  /\ exists ms ms', Forall2 (fun x y => f_id x = f_id y /\ f_payload x = f_payload y) ms ms'
    /\ Forall2 (delivers (little c)) ms (completed beh [] (w_log w))
    /\ Forall2 (delivers (little c2)) ms' (completed beh2 [] (w_log v)).
Proof. exact same_layout_lemma. Qed.
Print Assumptions C70_same_layout.

(** ... and what is sent with one is delivered by the other: the same ids, the same bytes, read as the
    receiver's field types. *)
Theorem C70_same_layout_sent :
  forall A B c cs, static_ok A = true -> static_ok B = true ->
  index_safe c (capacity B) -> same_layout A B ->
  forall beh h0 msgs S w, tame beh -> Forall (sendable A) msgs -> send_all cs A vector_tx msgs [] = Ok S ->
  processed c B beh h0 S w ->
  Forall2 (rereads (little cs) (little c) A B) msgs (completed beh [] (w_log w)) /\ held w = [].
Proof. exact same_layout_sent_lemma. Qed.
Print Assumptions C70_same_layout_sent.

(** A message of a signed 16-bit number and two bytes, read as an unsigned and a 16-bit one. *)
Definition layoutA := Collection [MType 0 [TInt true 2; u8; u8]; MType 1 []] BasicChecksum.
Definition layoutB := Collection [MType 5 [TInt false 2; TInt false 2]; MType 6 []] BasicChecksum.
Example C70_case :
  same_layout layoutA layoutB /\ Forall (sendable layoutA) [(MType 0 [TInt true 2; u8; u8], map VInt [-2; 7; 1]); (MType 1 [], [])]
  /\ exists S w, send_all (avr true) layoutA vector_tx [(MType 0 [TInt true 2; u8; u8], map VInt [-2; 7; 1]); (MType 1 [], [])] [] = Ok S
    /\ processed (desktop true) layoutB quiet (Some hd1) S w
    /\ map content (w_log w) = [(MType 5 [TInt false 2; TInt false 2], map VInt [65534; 263]); (MType 6 [], [])].
Proof.
  split; [split; reflexivity|].
  split; [repeat (apply Forall_cons || apply Forall_nil); split; try reflexivity; cbn; auto|].
  exists [1;0;2;254;255;7;1;3;11;4;1;1;2;3;7;4]. eexists. split; [vm_compute; reflexivity|]. split.
  - apply (outcome_processed 60) with (n := 2) (ops := [OpAppend [1;0;2;254;255;7;1;3;11;4;1;1;2;3;7;4]]). vm_compute. reflexivity.
  - vm_compute. reflexivity.
Qed.

(** If the receiver expects more payload bytes for the id, it delivers nothing for the frame and keeps it;
    following bytes are taken for its rest ... *)
Theorem C70_longer_expected :
  forall A B c, static_ok B = true -> index_safe c (capacity B) -> mc_env A = mc_env B ->
  forall beh h0 pre ms f m id p m' w, tame beh -> is_frame A f m id p -> has_id B m' id ->
  (payload_size m < payload_size m')%nat -> Scan B pre ms [] ->
  processed c B beh h0 (pre ++ f) w ->
  held w = f /\ Forall2 (delivers (little c)) ms (completed beh [] (w_log w)).
Proof. exact longer_lemma. Qed.
Print Assumptions C70_longer_expected.

(** ... if it expects fewer, it delivers a message of the first payload bytes if the following ones happen to
    look like the end of a frame, otherwise none. *)
Theorem C70_shorter_expected :
  forall A B c, static_ok B = true -> index_safe c (capacity B) -> mc_env A = mc_env B ->
  forall beh h0 pre ms f m id p m' s w, tame beh -> is_frame A f m id p -> has_id B m' id ->
  (payload_size m' < payload_size m)%nat -> Scan B pre ms [] ->
  processed c B beh h0 (pre ++ f ++ s) w ->
  (forall u rest p', f = u ++ rest -> is_frame B u m' id p' ->
     exists ms', Scan B (rest ++ s) ms' (held w)
       /\ Forall2 (delivers (little c)) (ms ++ Found m' id p' :: ms') (completed beh [] (w_log w)))
  /\ ((forall u rest p', f = u ++ rest -> ~ is_frame B u m' id p') ->
     exists ms', Scan B (tl f ++ s) ms' (held w)
       /\ Forall2 (delivers (little c)) (ms ++ ms') (completed beh [] (w_log w))).
Proof. exact shorter_lemma. Qed.
Print Assumptions C70_shorter_expected.

(** One int: 4 bytes on the PC, 2 bytes on the Arduino.  Of three messages from the Arduino the PC delivers
    none; the PC's 67305479 arrives at the Arduino as 7. *)
Definition int_msg (n : nat) := MType 0 [TInt true n].
Definition int_coll (n : nat) := Collection [int_msg n] Basic.
Theorem C70_int_size_refuted :
  (exists msgs S w, Forall (sendable (int_coll 2)) msgs /\ length msgs = 3%nat
     /\ send_all (avr true) (int_coll 2) vector_tx msgs [] = Ok S
     /\ processed (desktop true) (int_coll 4) quiet (Some hd1) S w /\ w_log w = [])
  /\ exists S w, send_all (desktop true) (int_coll 4) vector_tx [(int_msg 4, [VInt 67305479])] [] = Ok S
     /\ processed (avr true) (int_coll 2) quiet (Some hd1) S w /\ map content (w_log w) = [(int_msg 2, [VInt 7])].
Proof.
  split.
  - exists (repeat (int_msg 2, [VInt 300]) 3), (concat (repeat [1;0;2;44;1;3;4] 3)). eexists.
    split; [repeat (apply Forall_cons || apply Forall_nil); split; try reflexivity; cbn; auto|].
    split; [reflexivity|]. split; [vm_compute; reflexivity|]. split.
    + apply (outcome_processed 60) with (n := 0) (ops := [OpAppend (concat (repeat [1;0;2;44;1;3;4] 3))]). vm_compute. reflexivity.
    + vm_compute. reflexivity.
  - exists [1;0;2;7;0;3;4;3;4]. eexists. split; [vm_compute; reflexivity|]. split.
    + apply (outcome_processed 60) with (n := 1) (ops := [OpAppend [1;0;2;7;0;3;4;3;4]]). vm_compute. reflexivity.
    + vm_compute. reflexivity.
Qed.
Print Assumptions C70_int_size_refuted.

(** C72: a sender with checksums and a receiver without.  A frame is taken for a message exactly if its checksum
    is 4; otherwise the search goes on at its second byte ... *)
Theorem C72_checksum_to_basic_frame :
  forall ts c beh h0 pre ms f m id p s w,
  static_ok (Collection ts Basic) = true -> index_safe c (capacity (Collection ts Basic)) -> tame beh ->
  is_frame (Collection ts BasicChecksum) f m id p -> Scan (Collection ts Basic) pre ms [] ->
  processed c (Collection ts Basic) beh h0 (pre ++ f ++ s) w ->
  ((id + zsum p + 6) mod 256 = 4 -> exists ms', Scan (Collection ts Basic) s ms' (held w)
     /\ Forall2 (delivers (little c)) (ms ++ Found m id p :: ms') (completed beh [] (w_log w)))
  /\ ((id + zsum p + 6) mod 256 <> 4 -> exists ms', Scan (Collection ts Basic) (tl f ++ s) ms' (held w)
     /\ Forall2 (delivers (little c)) (ms ++ ms') (completed beh [] (w_log w))).
Proof. exact summed_one_lemma. Qed.
Print Assumptions C72_checksum_to_basic_frame.

(** ... so of messages without start codes inside exactly those with checksum 4 (the byte before the last of the
    frame) arrive, with their values, and no bytes are kept. *)
Theorem C72_checksum_to_basic :
  forall ts c cs beh h0 msgs S w,
  static_ok (Collection ts Basic) = true -> static_ok (Collection ts BasicChecksum) = true ->
  index_safe c (capacity (Collection ts Basic)) -> tame beh -> little cs = little c ->
  Forall (sendable (Collection ts BasicChecksum)) msgs -> Forall (clean cs (Collection ts BasicChecksum)) msgs ->
  send_all cs (Collection ts BasicChecksum) vector_tx msgs [] = Ok S ->
  processed c (Collection ts Basic) beh h0 S w ->
  exists fs, Forall2 (fun mv f => is_message_frame cs (Collection ts BasicChecksum) (fst mv) (snd mv) f) msgs fs
    /\ map content (completed beh [] (w_log w))
       = map fst (filter (fun mf => nth (length (snd mf) - 2) (snd mf) 0 =? 4) (combine msgs fs))
    /\ held w = [].
Proof. exact summed_lemma. Qed.
Print Assumptions C72_checksum_to_basic.
(** Two of three messages are lost. *)
Example C72_checksum_case :
  let msgs := [(MessageD, map VInt [5; 10; 15]); (MessageD, map VInt [100; 100; 51]); (MessageEmpty, [])] in
  let S := [1;3;2;5;10;15;3;39;4; 1;3;2;100;100;51;3;4;4; 1;4;2;3;10;4] in
  Forall (sendable test_checksum) msgs /\ Forall (clean (desktop true) test_checksum) msgs
  /\ send_all (desktop true) test_checksum vector_tx msgs [] = Ok S
  /\ exists w, processed (desktop true) test_basic quiet (Some hd1) S w
       /\ map content (w_log w) = [(MessageD, map VInt [100; 100; 51])].
Proof.
  cbv zeta. split; [repeat (apply Forall_cons || apply Forall_nil); split; try reflexivity; cbn; auto 10|]. split.
  { repeat (apply Forall_cons || apply Forall_nil);
      ((apply (clean_at _ _ _ _ 3); reflexivity) || (apply (clean_at _ _ _ _ 4); reflexivity)). }
  split; [vm_compute; reflexivity|]. eexists. split.
  - apply (outcome_processed 60) with (n := 1) (ops := [OpAppend [1;3;2;5;10;15;3;39;4; 1;3;2;100;100;51;3;4;4; 1;4;2;3;10;4]]).
    vm_compute. reflexivity.
  - vm_compute. reflexivity.
Qed.

(** A sender without checksums and a receiver with: unless EOT follows it, a frame is not taken for a message ... *)
Theorem C72_basic_to_checksum_frame :
  forall ts c beh h0 pre ms f m id p y s w,
  static_ok (Collection ts BasicChecksum) = true -> index_safe c (capacity (Collection ts BasicChecksum)) -> tame beh ->
  is_frame (Collection ts Basic) f m id p -> Scan (Collection ts BasicChecksum) pre ms [] -> y <> 4 ->
  processed c (Collection ts BasicChecksum) beh h0 (pre ++ f ++ y :: s) w ->
  exists ms', Scan (Collection ts BasicChecksum) (tl f ++ y :: s) ms' (held w)
     /\ Forall2 (delivers (little c)) (ms ++ ms') (completed beh [] (w_log w)).
Proof. exact plain_one_lemma. Qed.
Print Assumptions C72_basic_to_checksum_frame.

(** ... so of messages without start codes inside none arrives; the frame of the last one is kept. *)
Theorem C72_basic_to_checksum :
  forall ts c cs beh h0 msgs S w,
  static_ok (Collection ts Basic) = true -> static_ok (Collection ts BasicChecksum) = true ->
  index_safe c (capacity (Collection ts BasicChecksum)) -> tame beh ->
  Forall (sendable (Collection ts Basic)) msgs -> Forall (clean cs (Collection ts Basic)) msgs ->
  send_all cs (Collection ts Basic) vector_tx msgs [] = Ok S ->
  processed c (Collection ts BasicChecksum) beh h0 S w ->
  completed beh [] (w_log w) = []
  /\ (msgs <> [] -> is_message_frame cs (Collection ts Basic) (fst (last msgs (MType 0 [], []))) (snd (last msgs (MType 0 [], [])))
                      (held w)).
Proof. exact plain_lemma. Qed.
Print Assumptions C72_basic_to_checksum.
Example C72_basic_case :
  let msgs := [(MessageD, map VInt [5; 10; 15]); (MessageEmpty, [])] in
  Forall (sendable test_basic) msgs /\ Forall (clean (desktop true) test_basic) msgs
  /\ send_all (desktop true) test_basic vector_tx msgs [] = Ok [1;3;2;5;10;15;3;4; 1;4;2;3;4]
  /\ exists w, processed (desktop true) test_checksum quiet (Some hd1) [1;3;2;5;10;15;3;4; 1;4;2;3;4] w
       /\ held w = [1;4;2;3;4].
Proof.
  cbv zeta. split; [repeat (apply Forall_cons || apply Forall_nil); split; try reflexivity; cbn; auto 10|]. split.
  { repeat (apply Forall_cons || apply Forall_nil);
      ((apply (clean_at _ _ _ _ 3); reflexivity) || (apply (clean_at _ _ _ _ 4); reflexivity)). }
  split; [vm_compute; reflexivity|]. eexists. split.
  - apply (outcome_processed 60) with (n := 0) (ops := [OpAppend [1;3;2;5;10;15;3;4; 1;4;2;3;4]]). vm_compute. reflexivity.
  - vm_compute. reflexivity.
Qed.

(** With start codes inside, "messages of the other envelope are not taken for messages" is false in both
    directions: a message is delivered that was not sent. *)
Theorem C72_phantom_refuted :
  forall e, exists coll other msgs S w, static_ok coll = true /\ static_ok other = true
    /\ mc_types coll = mc_types other /\ mc_env coll = e /\ mc_env other <> e
    /\ Forall (sendable coll) msgs /\ ~ In (MessageEmpty, []) msgs
    /\ send_all (desktop true) coll vector_tx msgs [] = Ok S
    /\ processed (desktop true) other quiet (Some hd1) S w
    /\ map content (w_log w) = [(MessageEmpty, [])].
Proof.
  intros [|].
  - exists test_basic, test_checksum, [(MessageMaxArity, map VInt [1;4;2;3;10;4;0;0;0]); (MessageB, map VInt [0;0;0])],
      [1;5;2;1;4;2;3;10;4;0;0;0;3;4;1;1;2;0;0;0;3;4]. eexists.
    conj; try reflexivity; try discriminate.
    + repeat (apply Forall_cons || apply Forall_nil); split; try reflexivity; cbn; auto 10.
    + cbn. intuition discriminate.
    + apply (outcome_processed 60) with (n := 1) (ops := [OpAppend [1;5;2;1;4;2;3;10;4;0;0;0;3;4;1;1;2;0;0;0;3;4]]). vm_compute. reflexivity.
    + vm_compute. reflexivity.
  - exists test_checksum, test_basic, [(MessageMaxArity, map VInt [1;4;2;3;4;0;0;0;0])], [1;5;2;1;4;2;3;4;0;0;0;0;3;25;4]. eexists.
    conj; try reflexivity; try discriminate.
    + repeat (apply Forall_cons || apply Forall_nil); split; try reflexivity; cbn; auto 10.
    + cbn. intuition discriminate.
    + apply (outcome_processed 60) with (n := 1) (ops := [OpAppend [1;5;2;1;4;2;3;4;0;0;0;0;3;25;4]]). vm_compute. reflexivity.
    + vm_compute. reflexivity.
Qed.
Print Assumptions C72_phantom_refuted.

(** C77: a sender interrupted in the middle of a message.  When a message cannot be sent because the
    transmitter fails, a beginning of its frame has been written: everything before the bytes
    of the call that failed, or all of it when only the final call failed.  ([out] is what a
    transmitter has written; [t] may be any that writes what it is given.) *)
Theorem C77_failed_send :
  forall S (t : transmitter S) (out : S -> list Z),
  (forall x s s', run_call t x s = Ok s' -> out s' = out s ++ call_bytes x) ->
  forall c coll m vs f s, static_ok coll = true -> In m (mc_types coll) -> has_types vs (mt_fields m) = true ->
  is_message_frame c coll m vs f ->
  (forall s', send c coll m t (combine (mt_fields m) vs) s <> Ok s') ->
  exists j s', out s' = out s ++ firstn j f
    /\ ((exists x rest, skipn j f = call_bytes x ++ rest
           /\ send c coll m t (combine (mt_fields m) vs) s = run_call t x s')
        \/ j = length f /\ send c coll m t (combine (mt_fields m) vs) s = tx_finished t s').
Proof. exact failed_send_lemma. Qed.
Print Assumptions C77_failed_send.

(** The receiver has by then delivered all messages sent before, and holds the beginning. *)
Theorem C77_prompt :
  forall c coll, static_ok coll = true -> index_safe c (capacity coll) ->
  forall cs beh h0 msgs S m vs f j w, tame beh -> little cs = little c ->
  Forall (sendable coll) msgs -> send_all cs coll vector_tx msgs [] = Ok S ->
  sendable coll (m, vs) -> is_message_frame cs coll m vs f -> (j < length f)%nat ->
  processed c coll beh h0 (S ++ firstn j f) w ->
  map content (completed beh [] (w_log w)) = msgs /\ held w = firstn j f.
Proof. exact prompt_lemma. Qed.
Print Assumptions C77_prompt.

(** When the sender goes on with other messages, perhaps after some noise, exactly these are
    delivered next, if the byte now in the place of the interrupted frame's EOT is not EOT (and there
    is no start code inside the beginning or the noise) ... *)
Theorem C77_interrupted :
  forall c coll, static_ok coll = true -> index_safe c (capacity coll) ->
  forall cs beh h0 msgs S m vs f j noise msgs2 S2 z w, tame beh -> little cs = little c ->
  Forall (sendable coll) msgs -> send_all cs coll vector_tx msgs [] = Ok S ->
  sendable coll (m, vs) -> is_message_frame cs coll m vs f -> (2 <= j < length f)%nat ->
  ~ In 1 (tl (firstn j f)) -> ~ In 1 noise ->
  Forall (sendable coll) msgs2 -> send_all cs coll vector_tx msgs2 [] = Ok S2 ->
  nth_error (noise ++ S2) (length f - 1 - j) = Some z -> z <> 4 ->
  processed c coll beh h0 (S ++ firstn j f ++ noise ++ S2) w ->
  map content (completed beh [] (w_log w)) = msgs ++ msgs2 /\ held w = [].
Proof. exact interrupted_lemma. Qed.
Print Assumptions C77_interrupted.

(** ... and when only the start code had been sent, if the byte in the place of STX is not STX. *)
Theorem C77_interrupted_start :
  forall c coll, static_ok coll = true -> index_safe c (capacity coll) ->
  forall cs beh h0 msgs S noise msgs2 S2 z w, tame beh -> little cs = little c ->
  Forall (sendable coll) msgs -> send_all cs coll vector_tx msgs [] = Ok S -> ~ In 1 noise ->
  Forall (sendable coll) msgs2 -> send_all cs coll vector_tx msgs2 [] = Ok S2 ->
  nth_error (noise ++ S2) 1 = Some z -> z <> 2 ->
  processed c coll beh h0 (S ++ 1 :: noise ++ S2) w ->
  map content (completed beh [] (w_log w)) = msgs ++ msgs2 /\ held w = [].
Proof. exact interrupted_soh_lemma. Qed.
Print Assumptions C77_interrupted_start.

(** A buffer of 12 bytes takes a [MessageB] and the first four bytes of a [MessageD], sent byte by
    byte; the rest would be written past its end.  The [MessageD] is sent again later. *)
Example C77_case :
  (let t := Transmitter (tx_byte (abuf_tx 12)) (write_fallback (tx_byte (abuf_tx 12))) finished_fallback in
   exists s', send_all (desktop true) test_basic t [(MessageB, map VInt [10;20;30])] (abuf_init 12) = Ok s'
     /\ abuf_content s' = [1;1;2;10;20;30;3;4]
     /\ send (desktop true) test_basic MessageD t (combine (mt_fields MessageD) (map VInt [40;50;60])) s' = UB)
  /\ is_message_frame (desktop true) test_basic MessageD (map VInt [40;50;60]) [1;3;2;40;50;60;3;4]
  /\ ~ In 1 (tl (firstn 4 [1;3;2;40;50;60;3;4]))
  /\ (let stream := [1;1;2;10;20;30;3;4] ++ firstn 4 [1;3;2;40;50;60;3;4] ++ [0] ++ [1;3;2;40;50;60;3;4] in
      nth_error ([0] ++ [1;3;2;40;50;60;3;4]) (8 - 1 - 4) = Some 2
      /\ exists w, processed (desktop true) test_basic quiet (Some hd1) stream w
          /\ map content (w_log w) = [(MessageB, map VInt [10;20;30]); (MessageD, map VInt [40;50;60])]).
Proof.
  split.
  { cbv zeta. eexists. split; [vm_compute; reflexivity|]. split; vm_compute; reflexivity. }
  split.
  { exists 3. split; [split; [lia | reflexivity]|]. split; [|reflexivity]. intros j (Hj & E).
    assert (j < 3 -> False) as HF; [|lia]. intros Hlt.
    assert (j = 0 \/ j = 1 \/ j = 2) as [->|[->| ->]] by lia; discriminate. }
  split; [cbn; intuition discriminate|]. cbv zeta. split; [reflexivity|]. eexists. split.
  - apply (outcome_processed 60) with (n := 2)
      (ops := [OpAppend ([1;1;2;10;20;30;3;4] ++ firstn 4 [1;3;2;40;50;60;3;4] ++ [0] ++ [1;3;2;40;50;60;3;4])]).
    vm_compute. reflexivity.
  - vm_compute. reflexivity.
Qed.

(** "A message sent again after it was interrupted is delivered" is false without the condition: a
    message that was not sent is delivered instead. *)
Theorem C77_resend_refuted :
  exists f vs vs' w, sendable test_basic (MessageMaxArity, vs)
    /\ is_message_frame (desktop true) test_basic MessageMaxArity vs f
    /\ processed (desktop true) test_basic quiet (Some hd1) (firstn 3 f ++ f) w
    /\ map content (w_log w) = [(MessageMaxArity, vs')] /\ vs' <> vs.
Proof.
  exists [1;5;2;11;12;13;14;15;16;3;4;19;3;4], (map VInt [11;12;13;14;15;16;3;4;19]), (map VInt [1;5;2;11;12;13;14;15;16]).
  eexists. split; [split; [cbn; auto 10 | reflexivity]|]. split.
  { exists 5. split; [split; [lia | reflexivity]|]. split; [|reflexivity]. intros j (Hj & E).
    assert (j < 5 -> False) as HF; [|lia]. intros Hlt.
    assert (j = 0 \/ j = 1 \/ j = 2 \/ j = 3 \/ j = 4) as [->|[->|[->|[->| ->]]]] by lia; discriminate. }
  split; [|split; [|discriminate]].
  - apply (outcome_processed 60) with (n := 1)
      (ops := [OpAppend (firstn 3 [1;5;2;11;12;13;14;15;16;3;4;19;3;4] ++ [1;5;2;11;12;13;14;15;16;3;4;19;3;4])]).
    vm_compute. reflexivity.
  - vm_compute. reflexivity.
Qed.
Print Assumptions C77_resend_refuted.
