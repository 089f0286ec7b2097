(** Properties C01-C11, C60, C61, C73, C78: sending.  Statements only use the model's API functions, the
    specification vocabulary of Spec.v and SpecSend.v, and each is closed by a lemma. *)
From Verif Require Import SpecSend SendProofs SendLemmas CopyLemmas PortLemmas Protocol.

(** C01: the bytes and the order of calls, for every transmitter. *)
Theorem C01_wire_format :
  forall c coll m vs, static_ok coll = true -> In m (mc_types coll) ->
  has_types vs (mt_fields m) = true ->
  exists calls, is_message_frame c coll m vs (calls_bytes calls)
    /\ forall S (t : transmitter S) s,
         send c coll m t (combine (mt_fields m) vs) s
         = do s' <- run_calls t calls s; tx_finished t s'.
Proof. exact send_spec. Qed.
Print Assumptions C01_wire_format.

(** C01: nothing else compiles, and nothing at all with more than 255 message types. *)
Theorem C01_others_rejected :
  forall S c coll m (t : transmitter S) contents s,
  ~ In m (mc_types coll) \/ map fst contents <> mt_fields m \/ 255 < zlen (mc_types coll) ->
  send c coll m t contents s = Rejected.
Proof. exact @send_rejects. Qed.
Print Assumptions C01_others_rejected.

Definition valuesA := [VInt (-5); VInt 200; VInt (-300)].
Example C01_case :
  static_ok test_checksum = true /\ In MessageA (mc_types test_checksum)
  /\ has_types valuesA (mt_fields MessageA) = true
  /\ is_message_frame (desktop true) test_checksum MessageA valuesA [1;0;2;251;200;212;254;3;155;4].
Proof.
  split; [reflexivity|]. split; [left; reflexivity|]. split; [reflexivity|].
  exists 0. split; [split; [discriminate | reflexivity]|]. split; [intros j [H _]; exact H | reflexivity].
Qed.

(** C02 *)
Theorem C02_frame_length :
  forall c coll m vs, static_ok coll = true -> In m (mc_types coll) ->
  has_types vs (mt_fields m) = true ->
  exists f, send c coll m vector_tx (combine (mt_fields m) vs) [] = Ok f
    /\ zlen f = sizeof_bound coll m
    /\ length f = (list_sum (map fsize (mt_fields m))
                   + match mc_env coll with Basic => 5 | BasicChecksum => 6 end)%nat.
Proof. exact frame_length_lemma. Qed.
Print Assumptions C02_frame_length.
Example C02_case : static_ok test_basic = true /\ In MessageC (mc_types test_basic)
  /\ has_types (map (VFloat false) [67305985; 1065353216; 2143289344]) (mt_fields MessageC) = true
  /\ sizeof_bound test_basic MessageC = 17.
Proof. repeat split. do 2 right. left. reflexivity. Qed.

(** C03 *)
Theorem C03_id_transmitted :
  forall c coll m vs, static_ok coll = true -> In m (mc_types coll) ->
  has_types vs (mt_fields m) = true ->
  exists id f, send c coll m vector_tx (combine (mt_fields m) vs) [] = Ok f
    /\ nth_error f 1 = Some id
    /\ has_id coll m id /\ (forall j, has_id coll m j -> id <= j)
    /\ 0 <= id < 255 /\ is_id_valid coll id = true
    /\ apply_at (mc_types coll) id (fun m' _ => Some m') None = Some m.
Proof. exact ids_lemma. Qed.
Print Assumptions C03_id_transmitted.

Theorem C03_ids_distinct :
  forall c coll m m' vs vs' f f' id id', static_ok coll = true ->
  In m (mc_types coll) -> In m' (mc_types coll) ->
  has_types vs (mt_fields m) = true -> has_types vs' (mt_fields m') = true ->
  send c coll m vector_tx (combine (mt_fields m) vs) [] = Ok f ->
  send c coll m' vector_tx (combine (mt_fields m') vs') [] = Ok f' ->
  nth_error f 1 = Some id -> nth_error f' 1 = Some id' -> id = id' -> m = m'.
Proof. exact ids_distinct_lemma. Qed.
Print Assumptions C03_ids_distinct.

Theorem C03_valid_ids_are_positions :
  forall coll id, 0 <= id -> is_id_valid coll id = true <-> exists m, has_id coll m id.
Proof. exact id_valid_lemma. Qed.
Print Assumptions C03_valid_ids_are_positions.
Example C03_case : static_ok test_basic = true /\ has_id test_basic MessageD 3
  /\ map (is_id_valid test_basic) [0; 5; 6; 255] = [true; true; false; false]
  /\ send (desktop true) test_basic MessageD vector_tx
       (combine (mt_fields MessageD) [VInt 1; VInt 2; VInt 3]) [] = Ok [1;3;2;1;2;3;3;4].
Proof. repeat split. discriminate. Qed.

(** C04 *)
Theorem C04_checksum_byte :
  forall c coll m vs, static_ok coll = true -> mc_env coll = BasicChecksum ->
  In m (mc_types coll) -> has_types vs (mt_fields m) = true ->
  exists body ck, send c coll m vector_tx (combine (mt_fields m) vs) [] = Ok (body ++ [ck; 4])
    /\ ck = fold_right Z.add 0 body mod 256
    /\ (exists rest, body = 1 :: rest) /\ (exists rest, body = rest ++ [3]).
Proof. exact checksum_byte_lemma. Qed.
Print Assumptions C04_checksum_byte.
Example C04_case :
  send (desktop true) test_checksum MessageA vector_tx (combine (mt_fields MessageA) valuesA) []
  = Ok ([1;0;2;251;200;212;254;3] ++ [155; 4])
  /\ fold_right Z.add 0 [1;0;2;251;200;212;254;3] = 923.
Proof. split; reflexivity. Qed.

(** C05 *)
Theorem C05_block_equals_bytes :
  block_agrees vector_tx /\ block_agrees checksum_tx
  /\ (forall size d s, abuf_ok size s ->
        run_calls (abuf_tx size) [CBlock d] s = run_calls (abuf_tx size) (map CByte d) s)
  /\ (forall d s, abuf_ok i2c_bufsize (i2c_buf s) ->
        run_calls i2c_tx [CBlock d] s = run_calls i2c_tx (map CByte d) s)
  /\ (forall d s, exists s1 s2, run_calls serial_tx [CBlock d] s = Ok s1
        /\ run_calls serial_tx (map CByte d) s = Ok s2 /\ concat s1 = concat s2).
Proof. exact block_lemma. Qed.
Print Assumptions C05_block_equals_bytes.

Theorem C05_sends_concatenate_vector :
  forall c coll msgs, static_ok coll = true -> Forall (sendable coll) msgs -> forall s,
  exists fs, Forall2 (fun mv f => is_message_frame c coll (fst mv) (snd mv) f) msgs fs
    /\ send_all c coll vector_tx msgs s = Ok (s ++ concat fs).
Proof. exact send_all_vector. Qed.
Print Assumptions C05_sends_concatenate_vector.

Theorem C05_sends_concatenate_serial :
  forall c coll msgs, static_ok coll = true -> Forall (sendable coll) msgs -> forall s,
  exists fs blocks, Forall2 (fun mv f => is_message_frame c coll (fst mv) (snd mv) f) msgs fs
    /\ send_all c coll serial_tx msgs s = Ok (s ++ blocks) /\ concat blocks = concat fs.
Proof. exact send_all_serial. Qed.
Print Assumptions C05_sends_concatenate_serial.
Definition two_messages := [(MessageA, valuesA); (MessageEmpty, [])].
Example C05_case : Forall (sendable test_basic) two_messages
  /\ send_all (desktop true) test_basic vector_tx two_messages [9]
     = Ok [9; 1;0;2;251;200;212;254;3;4; 1;4;2;3;4]
  /\ abuf_ok 4 (ABuf [7;8;9;10] 1).
Proof.
  split; [|split; [reflexivity | split; [reflexivity | cbn; lia]]].
  constructor; [|constructor; [|constructor]]; split; try reflexivity; cbn; auto 10.
Qed.

(** C73: the calls any transmitter gets, also one written by the user: single bytes for the control
    codes, the id and the checksum; per field one block, or a single byte for a uint8_t; then once
    writeFinished.  The first call that fails ends the send. *)
Theorem C73_calls :
  forall c coll m vs, static_ok coll = true -> In m (mc_types coll) -> has_types vs (mt_fields m) = true ->
  exists id tail, is_message_frame c coll m vs ([1; id; 2] ++ spec_payload (little c) (mt_fields m) vs ++ tail)
    /\ length tail = (match mc_env coll with Basic => 2 | BasicChecksum => 3 end)%nat
    /\ forall S (t : transmitter S) s,
         send c coll m t (combine (mt_fields m) vs) s
         = do s' <- run_calls t (map CByte [1; id; 2] ++ map (spec_field_call (little c)) (combine (mt_fields m) vs)
                                 ++ map CByte tail) s;
           tx_finished t s'.
Proof. exact exact_calls_lemma. Qed.
Print Assumptions C73_calls.

(** A transmitter that implements only writeByte gets the bytes of the frame one by one. *)
Theorem C73_byte_only :
  forall S (byte : Z -> S -> outcome S) fin c coll m vs, static_ok coll = true -> In m (mc_types coll) ->
  has_types vs (mt_fields m) = true ->
  exists f, is_message_frame c coll m vs f
    /\ forall s, send c coll m (Transmitter byte (write_fallback byte) fin) (combine (mt_fields m) vs) s
        = do s' <- run_calls (Transmitter byte (write_fallback byte) fin) (map CByte f) s; fin s'.
Proof. exact byte_only_lemma. Qed.
Print Assumptions C73_byte_only.

(** A serial port gets one write per call, each with the whole value. *)
Theorem C73_serial_writes :
  forall c coll m vs s, static_ok coll = true -> In m (mc_types coll) -> has_types vs (mt_fields m) = true ->
  exists id tail, is_message_frame c coll m vs ([1; id; 2] ++ spec_payload (little c) (mt_fields m) vs ++ tail)
    /\ send c coll m serial_tx (combine (mt_fields m) vs) s
       = Ok (s ++ map (fun b => [b]) [1; id; 2] ++ map (fun tv => spec_rep (little c) (fst tv) (snd tv)) (combine (mt_fields m) vs)
             ++ map (fun b => [b]) tail).
Proof. exact serial_blocks_lemma. Qed.
Print Assumptions C73_serial_writes.
(** A user's transmitter that counts completions, appends bytes and fails at the sixth. *)
Definition stops_at_six : transmitter (list Z * Z) :=
  Transmitter (fun b s => if zlen (fst s) <? 5 then Ok (fst s ++ [b], snd s) else AssertFail)
    (write_fallback (fun b s => if zlen (fst s) <? 5 then Ok (fst s ++ [b], snd s) else AssertFail))
    (fun s => Ok (fst s, snd s + 1)).
Example C73_case :
  send (desktop true) test_basic MessageC serial_tx (combine (mt_fields MessageC) [VFloat false 1065353216; VFloat false 0; VFloat false 1]) []
    = Ok [[1]; [2]; [2]; [0;0;128;63]; [0;0;0;0]; [1;0;0;0]; [3]; [4]]
  /\ send (desktop true) test_basic MessageEmpty stops_at_six [] ([], 0) = Ok ([1;4;2;3;4], 1)
  /\ send (desktop true) test_checksum MessageEmpty stops_at_six [] ([], 0) = AssertFail.
Proof. repeat split. Qed.

(** C06 *)
Theorem C06_autosized_fits_exactly :
  forall c coll m vs, static_ok coll = true -> In m (mc_types coll) ->
  has_types vs (mt_fields m) = true ->
  exists f s', is_message_frame c coll m vs f
    /\ send c coll m (autosized_tx coll m) (combine (mt_fields m) vs) (autosized_init coll m) = Ok s'
    /\ ab_buffer s' = f /\ abuf_content s' = f.
Proof. exact autosized_lemma. Qed.
Print Assumptions C06_autosized_fits_exactly.

Theorem C06_collection_autosized :
  forall c coll m vs s, static_ok coll = true -> In m (mc_types coll) ->
  has_types vs (mt_fields m) = true -> abuf_ok (max_message_length coll) s ->
  exists f s', is_message_frame c coll m vs f
    /\ send c coll m (coll_autosized_tx coll) (combine (mt_fields m) vs) (abuf_reset s) = Ok s'
    /\ abuf_ok (max_message_length coll) s' /\ abuf_content s' = f.
Proof. exact coll_autosized_lemma. Qed.
Print Assumptions C06_collection_autosized.
Example C06_case : abuf_ok (max_message_length test_basic) (coll_autosized_init test_basic)
  /\ abuf_reset (coll_autosized_init test_basic) = coll_autosized_init test_basic
  /\ abuf_ok (max_message_length test_basic) (ABuf (repeat 4 17) 17)
  /\ (do s <- send (desktop true) test_basic MessageA (coll_autosized_tx test_basic)
                (combine (mt_fields MessageA) valuesA) (abuf_reset (ABuf (repeat 9 17) 17));
      Ok (abuf_content s)) = Ok [1;0;2;251;200;212;254;3;4].
Proof. repeat split; cbn; lia. Qed.

(** C07: the second send into the exactly sized buffer leaves the array. *)
Theorem C07_autosized_second_send_refuted :
  forall c coll m vs vs', static_ok coll = true -> In m (mc_types coll) ->
  has_types vs (mt_fields m) = true -> has_types vs' (mt_fields m) = true ->
  send_all c coll (autosized_tx coll m) [(m, vs); (m, vs')] (autosized_init coll m) = UB.
Proof. exact autosized_twice_lemma. Qed.
Print Assumptions C07_autosized_second_send_refuted.
(** More generally an array buffer is overrun exactly when the frame does not fit. *)
Theorem C07_overrun_when_too_long :
  forall size c coll m vs s, static_ok coll = true -> In m (mc_types coll) ->
  has_types vs (mt_fields m) = true -> abuf_ok size s ->
  size < ab_it s + sizeof_bound coll m ->
  send c coll m (abuf_tx size) (combine (mt_fields m) vs) s = UB.
Proof. exact abuf_send_ub. Qed.
Print Assumptions C07_overrun_when_too_long.
Theorem C07_contained_when_it_fits :
  forall size c coll m vs s, static_ok coll = true -> In m (mc_types coll) ->
  has_types vs (mt_fields m) = true -> abuf_ok size s ->
  ab_it s + sizeof_bound coll m <= size ->
  exists f s', is_message_frame c coll m vs f
    /\ send c coll m (abuf_tx size) (combine (mt_fields m) vs) s = Ok s' /\ abuf_ok size s'
    /\ ab_it s' = ab_it s + sizeof_bound coll m /\ abuf_content s' = abuf_content s ++ f.
Proof. exact abuf_send. Qed.
Print Assumptions C07_contained_when_it_fits.
Example C07_case : static_ok test_basic = true
  /\ send_all (desktop true) test_basic (autosized_tx test_basic MessageEmpty)
       [(MessageEmpty, []); (MessageEmpty, [])] (autosized_init test_basic MessageEmpty) = UB.
Proof. split; reflexivity. Qed.

(** C08 *)
Theorem C08_composition_tees_calls :
  forall A B (t1 : transmitter A) (t2 : transmitter B) l a b a' b',
  run_calls (compose_tx t1 t2) l (a, b) = Ok (a', b')
  <-> run_calls t1 l a = Ok a' /\ run_calls t2 l b = Ok b'.
Proof. exact @compose_calls_ok. Qed.
Print Assumptions C08_composition_tees_calls.

Theorem C08_send_through_composition :
  forall A B c coll m (t1 : transmitter A) (t2 : transmitter B) vs,
  static_ok coll = true -> In m (mc_types coll) -> has_types vs (mt_fields m) = true ->
  exists calls, is_message_frame c coll m vs (calls_bytes calls)
    /\ (forall a b a' b', send c coll m (compose_tx t1 t2) (combine (mt_fields m) vs) (a, b) = Ok (a', b')
          <-> run_calls t1 calls a = Ok a' /\ run_calls t2 calls b = Ok b')
    /\ (forall a, send c coll m t1 (combine (mt_fields m) vs) a = do a' <- run_calls t1 calls a; tx_finished t1 a')
    /\ (forall b, send c coll m t2 (combine (mt_fields m) vs) b = do b' <- run_calls t2 calls b; tx_finished t2 b').
Proof. exact @compose_send. Qed.
Print Assumptions C08_send_through_composition.
Example C08_case :
  send (desktop true) test_basic MessageA (compose_tx vector_tx checksum_tx)
    (combine (mt_fields MessageA) valuesA) ([], 0) = Ok ([1;0;2;251;200;212;254;3;4], 159).
Proof. reflexivity. Qed.

(** C09: sending through a composition puts nothing on the I2C bus, sending directly puts
    the frame there. *)
Theorem C09_composition_loses_completion_refuted :
  forall c coll m vs, static_ok coll = true -> In m (mc_types coll) ->
  has_types vs (mt_fields m) = true -> sizeof_bound coll m <= 255 ->
  exists f v s' s'', is_message_frame c coll m vs f
    /\ send c coll m (compose_tx vector_tx i2c_tx) (combine (mt_fields m) vs) ([], i2c_init) = Ok (v, s')
    /\ v = f /\ i2c_bus s' = []
    /\ send c coll m i2c_tx (combine (mt_fields m) vs) i2c_init = Ok s'' /\ i2c_bus s'' = [f].
Proof. exact composed_i2c_lemma. Qed.
Print Assumptions C09_composition_loses_completion_refuted.
(** ... and after enough sends the never flushed buffer is overrun. *)
Theorem C09_composed_i2c_overruns :
  forall c coll msgs, static_ok coll = true -> Forall (sendable coll) msgs ->
  forall v s, abuf_ok i2c_bufsize (i2c_buf s) ->
  let total := fold_right Z.add 0 (map (fun mv => sizeof_bound coll (fst mv)) msgs) in
  if ab_it (i2c_buf s) + total <=? 255
  then exists v' s', send_all c coll (compose_tx vector_tx i2c_tx) msgs (v, s) = Ok (v', s')
         /\ i2c_bus s' = i2c_bus s /\ abuf_ok i2c_bufsize (i2c_buf s')
         /\ ab_it (i2c_buf s') = ab_it (i2c_buf s) + total
  else send_all c coll (compose_tx vector_tx i2c_tx) msgs (v, s) = UB.
Proof. exact composed_i2c_send_all. Qed.
Print Assumptions C09_composed_i2c_overruns.
Example C09_case : Forall (sendable test_basic) (repeat (MessageEmpty, []) 52)
  /\ abuf_ok i2c_bufsize (i2c_buf i2c_init) /\ sizeof_bound test_basic MessageA = 9
  /\ send_all (desktop true) test_basic (compose_tx vector_tx i2c_tx)
       (repeat (MessageEmpty, []) 52) ([], i2c_init) = UB.
Proof.
  split.
  - apply Forall_forall. intros x H. apply repeat_spec in H. subst x. split; [do 4 right; left; reflexivity | reflexivity].
  - split; [apply i2c_init_idle | split; vm_compute; reflexivity].
Qed.

(** C10 *)
Theorem C10_i2c_one_write_per_message :
  forall c coll msgs, static_ok coll = true ->
  Forall (fun mv => sendable coll mv /\ sizeof_bound coll (fst mv) <= 255) msgs ->
  forall s, i2c_idle s ->
  exists fs s', Forall2 (fun mv f => is_message_frame c coll (fst mv) (snd mv) f) msgs fs
    /\ send_all c coll i2c_tx msgs s = Ok s' /\ i2c_idle s' /\ i2c_bus s' = i2c_bus s ++ fs.
Proof. exact i2c_send_all. Qed.
Print Assumptions C10_i2c_one_write_per_message.
Example C10_case : i2c_idle i2c_init
  /\ Forall (fun mv => sendable test_basic mv /\ sizeof_bound test_basic (fst mv) <= 255) two_messages
  /\ (do s <- send_all (desktop true) test_basic i2c_tx two_messages i2c_init; Ok (i2c_bus s))
     = Ok [[1;0;2;251;200;212;254;3;4]; [1;4;2;3;4]].
Proof.
  split; [exact i2c_init_idle|]. split; [|vm_compute; reflexivity].
  constructor; [|constructor; [|constructor]]; (split; [split|]); try reflexivity; try discriminate; cbn; auto 10.
Qed.

(** C11: separate arguments (of the types [map fst args]), the sequence form and the forms for bound messages
    do the same; a single argument must have the type of the field ... *)
Theorem C11_overloads_agree :
  forall S c coll m (t : transmitter S) args vs s, static_ok coll = true ->
  In m (mc_types coll) -> (length (mt_fields m) <= 9)%nat -> converted_all (mt_fields m) (map snd args) vs ->
  Forall2 accepted (map fst args) (mt_fields m) -> (length (mt_fields m) = 1%nat -> map fst args = mt_fields m) ->
  send_args c coll m t args s = send c coll m t (combine (mt_fields m) vs) s
  /\ send_bound_args c (Bound coll m) t args s = send c coll m t (combine (mt_fields m) vs) s
  /\ send_bound c (Bound coll m) t (combine (mt_fields m) vs) s = send c coll m t (combine (mt_fields m) vs) s
  /\ has_types vs (mt_fields m) = true.
Proof. exact @send_args_lemma. Qed.
Print Assumptions C11_overloads_agree.
(** ... otherwise it is taken for a sequence and the call does not compile. *)
Theorem C11_single_argument :
  forall S c coll m (t : transmitter S) ty a f s, mt_fields m = [f] -> ty <> f ->
  send_args c coll m t [(ty, a)] s = Rejected /\ send_bound_args c (Bound coll m) t [(ty, a)] s = Rejected.
Proof. exact @send_single_lemma. Qed.
Print Assumptions C11_single_argument.
(** An argument that the field's type does not accept (a struct of another type, a number for an
    enumeration) is rejected as well. *)
Theorem C11_foreign_argument :
  forall S c coll m (t : transmitter S) args s, ~ Forall2 accepted (map fst args) (mt_fields m) ->
  send_args c coll m t args s = Rejected /\ send_bound_args c (Bound coll m) t args s = Rejected.
Proof. exact @send_foreign_lemma. Qed.
Print Assumptions C11_foreign_argument.
Example C11_foreign_case :
  let color := TIntN (IEnum 2) false 1 in let m := MType 7 [color; TRawN 3 2] in let coll := Collection [m] Basic in
  send_args (desktop true) coll m vector_tx [(color, VInt 5); (TRawN 3 2, VRaw [6; 7])] [] = Ok [1;0;2;5;6;7;3;4]
  /\ send_args (desktop true) coll m vector_tx [(color, VInt 5); (TRawN 4 2, VRaw [6; 7])] [] = Rejected
  /\ send_args (desktop true) coll m vector_tx [(u8, VInt 5); (TRawN 3 2, VRaw [6; 7])] [] = Rejected
  /\ ~ Forall2 accepted [u8; TRawN 3 2] [color; TRawN 3 2].
Proof.
  cbn zeta. do 3 (split; [reflexivity|]). intros H. inversion H as [|? ? ? ? H1]; subst.
  apply convertible_spec in H1. discriminate.
Qed.
(** A uint8_t field: the literal 5, an int, is not accepted; uint8_t(5) is. *)
Example C11_single_case :
  let coll := Collection [MType 7 [u8]] Basic in
  send_args (desktop true) coll (MType 7 [u8]) vector_tx (ints [5]) [] = Rejected
  /\ converted_all [u8] [VInt 5] [VInt 5]
  /\ send_args (desktop true) coll (MType 7 [u8]) vector_tx [(u8, VInt 5)] [] = Ok [1;0;2;5;3;4].
Proof. split; [reflexivity|]. split; [repeat constructor | reflexivity]. Qed.

(** Every list of integer arguments is convertible to fields of arithmetic types ... *)
Theorem C11_integers_convert :
  forall ts zs, Forall fty_ok ts -> Forall arithmetic ts ->
  length zs = length ts -> exists vs, converted_all ts (map VInt zs) vs.
Proof. exact converted_exists_int. Qed.
Print Assumptions C11_integers_convert.
(** ... and values already of the field types are passed on unchanged. *)
Theorem C11_in_range_unchanged :
  forall ts vs, has_types vs ts = true -> converted_all ts vs vs.
Proof. exact has_types_self. Qed.
Print Assumptions C11_in_range_unchanged.
Example C11_case :
  converted_all (mt_fields MessageA) [VInt 251; VInt (-56); VInt 65236] valuesA
  /\ send_args (desktop true) test_basic MessageA vector_tx (ints [251; -56; 65236]) []
     = Ok [1;0;2;251;200;212;254;3;4].
Proof. split; [|reflexivity]. repeat constructor. Qed.

(** C60: copies of BoostArrayBuffer objects (numbered; [as_content i]: the bytes between [begin()] and
    [end()] of object [i]).  "What is sent through a copy is in the copy" is false for every collection
    and message: the range of the copy is invalid, and bytes sent through the copy are
    stored in the original's array, beyond its end ... *)
Theorem C60_copy_refuted :
  forall size c coll m vs h i off,
  static_ok coll = true -> In m (mc_types coll) -> has_types vs (mt_fields m) = true ->
  as_ok size h -> (i < length (as_arrays h))%nat -> nth_it i h = (i, off) -> off + sizeof_bound coll m <= size ->
  let j := length (as_arrays h) in
  as_content j (as_copy i h) = UB
  /\ exists f h', is_message_frame c coll m vs f
       /\ send c coll m (as_tx size j) (combine (mt_fields m) vs) (as_copy i h) = Ok h'
       /\ firstn (Z.to_nat (off + zlen f)) (nth_array i h') = firstn (Z.to_nat off) (nth_array i h) ++ f
       /\ nth_array j h' = nth_array i h
       /\ as_content i h' = as_content i h
       /\ as_content j h' = UB.
Proof. exact copy_lemma. Qed.
Print Assumptions C60_copy_refuted.

(** ... unless reset() is called on the copy first; then it is a buffer of its own. *)
Theorem C60_copy_reset :
  forall size c coll m vs h i,
  static_ok coll = true -> In m (mc_types coll) -> has_types vs (mt_fields m) = true ->
  as_ok size h -> (i < length (as_arrays h))%nat -> sizeof_bound coll m <= size ->
  let j := length (as_arrays h) in
  exists f h', is_message_frame c coll m vs f
       /\ send c coll m (as_tx size j) (combine (mt_fields m) vs) (as_reset j (as_copy i h)) = Ok h'
       /\ as_content j h' = Ok f
       /\ forall k, (k < j)%nat -> nth_array k h' = nth_array k h /\ nth_it k h' = nth_it k h.
Proof. exact copy_reset_lemma. Qed.
Print Assumptions C60_copy_reset.

(** A buffer that is constructed and not copied is empty and a buffer of its own. *)
Theorem C60_new :
  forall size h, 0 <= size -> as_ok size h ->
  let j := length (as_arrays h) in
  as_ok size (as_new size h) /\ as_content j (as_new size h) = Ok []
  /\ forall c coll m vs, static_ok coll = true -> In m (mc_types coll) -> has_types vs (mt_fields m) = true -> sizeof_bound coll m <= size ->
     exists f h', is_message_frame c coll m vs f
       /\ send c coll m (as_tx size j) (combine (mt_fields m) vs) (as_new size h) = Ok h'
       /\ as_content j h' = Ok f
       /\ forall k, (k < j)%nat -> nth_array k h' = nth_array k h /\ nth_it k h' = nth_it k h.
Proof. exact new_lemma. Qed.
Print Assumptions C60_new.

(** Assigning one buffer to another does the same to the one assigned to. *)
Theorem C60_assignment_refuted :
  forall size c coll m vs h i j off,
  static_ok coll = true -> In m (mc_types coll) -> has_types vs (mt_fields m) = true ->
  as_ok size h -> (i < length (as_arrays h))%nat -> (j < length (as_arrays h))%nat -> i <> j ->
  nth_it i h = (i, off) -> off + sizeof_bound coll m <= size ->
  as_content j (as_assign i j h) = UB
  /\ exists f h', is_message_frame c coll m vs f
       /\ send c coll m (as_tx size j) (combine (mt_fields m) vs) (as_assign i j h) = Ok h'
       /\ firstn (Z.to_nat (off + zlen f)) (nth_array i h') = firstn (Z.to_nat off) (nth_array i h) ++ f
       /\ nth_array j h' = nth_array i h
       /\ as_content i h' = as_content i h
       /\ as_content j h' = UB.
Proof. exact assign_lemma. Qed.
Print Assumptions C60_assignment_refuted.

(** Copies of an I2C transmitter: sending any message through the copy is undefined behaviour ... *)
Theorem C60_i2c_copy_refuted :
  forall c coll m vs s i off,
  static_ok coll = true -> In m (mc_types coll) -> has_types vs (mt_fields m) = true ->
  as_ok i2c_bufsize (is_bufs s) -> (i < length (as_arrays (is_bufs s)))%nat -> nth_it i (is_bufs s) = (i, off) ->
  send c coll m (is_tx (length (as_arrays (is_bufs s)))) (combine (mt_fields m) vs) (is_copy i s) = UB.
Proof. exact is_copy_lemma. Qed.
Print Assumptions C60_i2c_copy_refuted.

(** ... while the original is as good as before. *)
Theorem C60_i2c_original :
  forall c coll msgs s i, static_ok coll = true ->
  Forall (fun mv => sendable coll mv /\ sizeof_bound coll (fst mv) <= 255) msgs ->
  as_ok i2c_bufsize (is_bufs s) -> (i < length (as_arrays (is_bufs s)))%nat -> nth_it i (is_bufs s) = (i, 0) ->
  exists fs s', Forall2 (fun mv f => is_message_frame c coll (fst mv) (snd mv) f) msgs fs
    /\ send_all c coll (is_tx i) msgs (is_copy i s) = Ok s' /\ is_bus s' = is_bus s ++ fs.
Proof. exact is_copy_original. Qed.
Print Assumptions C60_i2c_original.
Example C60_i2c_case :
  let s := I2Cs (as_new i2c_bufsize (ABufs [] [])) [] in
  as_ok i2c_bufsize (is_bufs s) /\ nth_it 0 (is_bufs s) = (0%nat, 0)
  /\ send (desktop true) test_basic MessageEmpty (is_tx 1) [] (is_copy 0 s) = UB
  /\ (do s' <- send (desktop true) test_basic MessageEmpty (is_tx 0) [] (is_copy 0 s); Ok (is_bus s')) = Ok [[1;4;2;3;4]].
Proof.
  cbv zeta. split; [split; [reflexivity | split; repeat (apply Forall_cons || apply Forall_nil); unfold i2c_bufsize; (reflexivity || (split; cbn [fst snd]; [cbn; lia | lia]))]|].
  split; [reflexivity|]. split; vm_compute; reflexivity.
Qed.

(** A 12 byte buffer with MessageEmpty in it, copied; then MessageEmpty through the copy. *)
Definition one_buffer : abufs := as_new 12 (ABufs [] []).
Example C60_case :
  as_ok 12 one_buffer
  /\ exists h h', send (desktop true) test_basic MessageEmpty (as_tx 12 0) [] one_buffer = Ok h /\ as_ok 12 h
    /\ nth_it 0 h = (0%nat, 5) /\ sizeof_bound test_basic MessageEmpty = 5
    /\ send (desktop true) test_basic MessageEmpty (as_tx 12 1) [] (as_copy 0 h) = Ok h'
    /\ as_content 0 h' = Ok [1;4;2;3;4]
    /\ as_arrays h' = [[1;4;2;3;4;1;4;2;3;4;0;0]; [1;4;2;3;4;0;0;0;0;0;0;0]].
Proof.
  split; [split; [reflexivity | split; repeat (apply Forall_cons || apply Forall_nil); cbn; lia || reflexivity]|].
  eexists. eexists.
  split; [vm_compute; reflexivity|].
  split; [split; [reflexivity | split; repeat (apply Forall_cons || apply Forall_nil); cbn; lia || reflexivity]|].
  split; [reflexivity|]. split; [reflexivity|]. split; [vm_compute; reflexivity|]. split; vm_compute; reflexivity.
Qed.

(** C61: the bytes written do not depend on the transmitter: the vector's content, the concatenation of the
    blocks written to a serial port, and that of the blocks written to the I2C bus, one per message,
    are equal ... *)
Theorem C61_same_bytes :
  forall c coll msgs, static_ok coll = true ->
  Forall (fun mv => sendable coll mv /\ sizeof_bound coll (fst mv) <= 255) msgs ->
  exists S blocks s, send_all c coll vector_tx msgs [] = Ok S
    /\ send_all c coll serial_tx msgs [] = Ok blocks /\ concat blocks = S
    /\ send_all c coll i2c_tx msgs i2c_init = Ok s /\ concat (i2c_bus s) = S
    /\ length (i2c_bus s) = length msgs.
Proof. exact same_bytes_lemma. Qed.
Print Assumptions C61_same_bytes.

(** ... except through a composition of one object with itself, which gets every write twice. *)
Theorem C61_self_composition_refuted :
  forall c coll m vs, static_ok coll = true -> In m (mc_types coll) ->
  has_types vs (mt_fields m) = true ->
  exists calls, is_message_frame c coll m vs (calls_bytes calls)
    /\ forall s, send c coll m (compose_self_tx vector_tx) (combine (mt_fields m) vs) s
         = Ok (s ++ concat (map (fun x => call_bytes x ++ call_bytes x) calls)).
Proof. exact self_send_lemma. Qed.
Print Assumptions C61_self_composition_refuted.
Example C61_case :
  Forall (fun mv => sendable test_checksum mv /\ sizeof_bound test_checksum (fst mv) <= 255)
    [(MessageA, valuesA); (MessageEmpty, [])]
  /\ send (desktop true) test_basic MessageA (compose_self_tx vector_tx) (combine (mt_fields MessageA) valuesA) []
     = Ok [1;1;0;0;2;2;251;251;200;200;212;254;212;254;3;3;4;4].
Proof.
  split; [|vm_compute; reflexivity].
  repeat (apply Forall_cons || apply Forall_nil); (split; [split; [cbn; auto 10 | reflexivity] | vm_compute; discriminate]).
Qed.

(** C78: a port that takes only a part of what it is asked to write.  Whatever the port does, sending
    returns as if all had been written; of every write the port takes what it takes of it in the state
    it is in then ([Takes]): all of it, every time,
    or fewer bytes than the frame has ... *)
Theorem C78_serial_port :
  forall P (p : port P) c coll m vs, static_ok coll = true -> In m (mc_types coll) -> has_types vs (mt_fields m) = true ->
  exists calls, is_message_frame c coll m vs (calls_bytes calls)
    /\ forall q bl, exists q' news,
         send c coll m (port_tx p) (combine (mt_fields m) vs) (q, bl) = Ok (q', bl ++ news)
         /\ Takes p q (map call_bytes calls) q' news
         /\ (news = map call_bytes calls \/ (length (concat news) < length (calls_bytes calls))%nat).
Proof. exact port_send_lemma. Qed.
Print Assumptions C78_serial_port.

(** ... with a port that takes everything the frames arrive ... *)
Theorem C78_port_that_takes_all :
  forall P (p : port P) c coll, (forall q d, zlen d <= snd (p q d)) -> static_ok coll = true ->
  forall msgs, Forall (sendable coll) msgs -> forall q bl,
  exists fs q' news, Forall2 (fun mv f => is_message_frame c coll (fst mv) (snd mv) f) msgs fs
    /\ send_all c coll (port_tx p) msgs (q, bl) = Ok (q', bl ++ news) /\ concat news = concat fs.
Proof. exact port_full_lemma. Qed.
Print Assumptions C78_port_that_takes_all.

(** ... but "when send has returned the frame has been written" is false: with a port that takes one byte
    of each write, for every message with a field of more than one byte. *)
Theorem C78_short_write_refuted :
  forall c coll m vs, static_ok coll = true -> In m (mc_types coll) ->
  has_types vs (mt_fields m) = true -> (exists t, In t (mt_fields m) /\ (1 < fsize t)%nat) ->
  exists f news, is_message_frame c coll m vs f
    /\ send c coll m (port_tx (fun (q : unit) (d : list Z) => (q, 1))) (combine (mt_fields m) vs) (tt, []) = Ok (tt, news)
    /\ concat news <> f /\ (length (concat news) < length f)%nat.
Proof. exact short_write_lemma. Qed.
Print Assumptions C78_short_write_refuted.

(** The same with I2C: one write per message, of which the bus takes a beginning, unnoticed; a bus with a
    buffer of [k] bytes cuts every longer frame. *)
Theorem C78_i2c_port :
  forall P (p : port P) c coll msgs, static_ok coll = true ->
  Forall (fun mv => sendable coll mv /\ sizeof_bound coll (fst mv) <= 255) msgs -> forall q s, i2c_idle s ->
  exists fs news q' s', Forall2 (fun mv f => is_message_frame c coll (fst mv) (snd mv) f) msgs fs
    /\ send_all c coll (i2c_port_tx p) msgs (q, s) = Ok (q', s') /\ i2c_idle s' /\ i2c_bus s' = i2c_bus s ++ news
    /\ Takes p q fs q' news.
Proof. exact i2c_port_lemma. Qed.
Print Assumptions C78_i2c_port.
Theorem C78_i2c_buffer :
  forall k c coll msgs, static_ok coll = true ->
  Forall (fun mv => sendable coll mv /\ sizeof_bound coll (fst mv) <= 255) msgs ->
  exists fs s', Forall2 (fun mv f => is_message_frame c coll (fst mv) (snd mv) f) msgs fs
    /\ send_all c coll (i2c_port_tx (fun (q : unit) (d : list Z) => (q, Z.min k (zlen d)))) msgs (tt, i2c_init) = Ok (tt, s')
    /\ i2c_bus s' = map (firstn (Z.to_nat k)) fs.
Proof. exact i2c_buffer_lemma. Qed.
Print Assumptions C78_i2c_buffer.
(** A port that takes three bytes of each of the first two writes and two of later ones; a bus with a
    buffer of 8 bytes. *)
Example C78_case :
  let p : port nat := fun q d => (Datatypes.S q, if Nat.ltb q 2 then 3 else 2) in
  send (desktop true) test_basic MessageC (port_tx p) (combine (mt_fields MessageC) (map (VFloat false) [1;2;3])) (O, [])
    = Ok (8%nat, [[1]; [2]; [2]; [1;0]; [2;0]; [3;0]; [3]; [4]])
  /\ (do r <- send_all (desktop true) test_basic (i2c_port_tx (fun (q : unit) (d : list Z) => (q, Z.min 8 (zlen d))))
               two_messages (tt, i2c_init); Ok (i2c_bus (snd r))) = Ok [[1;0;2;251;200;212;254;3]; [1;4;2;3;4]].
Proof. cbv zeta. split; vm_compute; reflexivity. Qed.
