(** Properties C12-C16: field and tuple codec, byte order, message lengths. *)
From Verif Require Import SpecSend SendLemmas Protocol.

(** C12 *)
Theorem C12_field_round_trip :
  forall c t v pre, fty_ok t -> has_type v t = true ->
  exists bs, buffer_field c vector_tx (t, v) pre = Ok (pre ++ bs) /\ length bs = fsize t
    /\ forall rest, unbuffer c (zlen (pre ++ bs ++ rest)) (pre ++ bs ++ rest) t (zlen pre) = Ok v.
Proof. exact field_codec_lemma. Qed.
Print Assumptions C12_field_round_trip.

Theorem C12_field_encoding_injective :
  forall c t v v' bs, fty_ok t -> has_type v t = true -> has_type v' t = true ->
  buffer_field c vector_tx (t, v) [] = Ok bs -> buffer_field c vector_tx (t, v') [] = Ok bs -> v = v'.
Proof. exact field_codec_inj. Qed.
Print Assumptions C12_field_encoding_injective.
Example C12_case : fty_ok i16 /\ has_type (VInt (-300)) i16 = true
  /\ buffer_field (desktop true) vector_tx (i16, VInt (-300)) [] = Ok [212; 254]
  /\ buffer_field (bigend true) vector_tx (i16, VInt (-300)) [] = Ok [254; 212]
  /\ unbuffer (desktop true) 5 [9; 212; 254; 1; 1] i16 1 = Ok (VInt (-300)).
Proof. repeat split. unfold fty_ok. cbn. lia. Qed.

(** C13 *)
Theorem C13_tuple_round_trip :
  forall c ts vs pre, Forall fty_ok ts -> has_types vs ts = true ->
  exists bs, buffer_tuple c vector_tx (combine ts vs) pre = Ok (pre ++ bs)
    /\ length bs = list_sum (map fsize ts)
    /\ forall rest, deserialize c (zlen (pre ++ bs ++ rest)) (pre ++ bs ++ rest) ts (zlen pre) [] = Ok vs.
Proof. exact tuple_codec_lemma. Qed.
Print Assumptions C13_tuple_round_trip.
Example C13_case : Forall fty_ok [i16; TBool; f32]
  /\ has_types [VInt 258; VBool true; VFloat false 67305985] [i16; TBool; f32] = true
  /\ deserialize (desktop true) 9 [7; 2; 1; 1; 1; 2; 3; 4; 0] [i16; TBool; f32] 1 []
     = Ok [VInt 258; VBool true; VFloat false 67305985].
Proof.
  split; [repeat (apply Forall_cons || apply Forall_nil); unfold fty_ok; cbn; lia | split; reflexivity].
Qed.

(** C14: with different byte orders the integer arrives byte-reversed ... *)
Theorem C14_byte_order_reverses :
  forall c c' k s n z, little c <> little c' -> (0 < n)%nat ->
  has_type (VInt z) (TIntN k s n) = true ->
  exists bs z', buffer_field c vector_tx (TIntN k s n, VInt z) [] = Ok bs
    /\ unbuffer c' (zlen bs) bs (TIntN k s n) 0 = Ok (VInt z')
    /\ has_type (VInt z') (TIntN k s n) = true
    /\ forall i, (i < n)%nat -> spec_byte z' i = spec_byte z (n - 1 - i).
Proof. exact byte_order_lemma. Qed.
Print Assumptions C14_byte_order_reverses.
(** ... so for every integer type wider than a byte some value arrives as another. *)
Theorem C14_value_preserved_refuted :
  forall c c' k s n, little c <> little c' -> (2 <= n)%nat ->
  exists z bs z', has_type (VInt z) (TIntN k s n) = true
    /\ buffer_field c vector_tx (TIntN k s n, VInt z) [] = Ok bs
    /\ unbuffer c' (zlen bs) bs (TIntN k s n) 0 = Ok (VInt z') /\ z' <> z.
Proof. exact byte_order_refuted_lemma. Qed.
Print Assumptions C14_value_preserved_refuted.
Example C14_case : little (desktop true) <> little (bigend true)
  /\ buffer_field (desktop true) vector_tx (i16, VInt (-300)) [] = Ok [212; 254]
  /\ unbuffer (bigend true) 2 [212; 254] i16 0 = Ok (VInt (-11010)).
Proof. repeat split. discriminate. Qed.

(** C15 *)
Theorem C15_max_message_length :
  forall coll, static_ok coll = true ->
  (forall m, In m (mc_types coll) ->
     Z.of_nat (frame_size (mc_env coll) m) <= max_message_length coll)
  /\ (exists m, In m (mc_types coll) /\ max_message_length coll = Z.of_nat (frame_size (mc_env coll) m))
  /\ receive_buffer_size coll = 3 * max_message_length coll
  /\ capacity coll = 3 * max_message_length coll.
Proof. exact max_length_lemma. Qed.
Print Assumptions C15_max_message_length.
Example C15_case : static_ok test_checksum = true /\ max_message_length test_checksum = 18
  /\ frame_size (mc_env test_checksum) MessageC = 18%nat /\ capacity test_checksum = 54.
Proof. repeat split. Qed.

(** C16 *)
Theorem C16_message_length_lookup :
  forall coll id, static_ok coll = true -> 0 <= id < 256 ->
  (forall m, has_id coll m id ->
     get_message_length coll id = Ok (Z.of_nat (frame_size (mc_env coll) m))
     /\ message_length_static coll (Z.to_nat id) = Some (Z.of_nat (frame_size (mc_env coll) m)))
  /\ ((forall m, ~ has_id coll m id) -> get_message_length coll id = Ok 0
        /\ message_length_static coll (Z.to_nat id) = None).
Proof. exact length_lookup_lemma. Qed.
Print Assumptions C16_message_length_lookup.
Example C16_case : has_id test_basic MessageMaxArity 5
  /\ get_message_length test_basic 5 = Ok 14 /\ get_message_length test_basic 6 = Ok 0
  /\ let wide := Collection [MType 0 (repeat u8 5); MType 1 (repeat (TRaw 8) 40)] Basic in
     static_ok wide = true /\ get_message_length wide 1 = Ok 325.
Proof. repeat split. discriminate. Qed.
