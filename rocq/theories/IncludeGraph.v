(** The inclusion of the library's headers. *)
From Coq Require Export Ascii String List Arith.
Export ListNotations.
Local Open Scope string_scope.

(** #include "p" and #include <p>. *)
Inductive inclusion := Quoted (p : string) | Angled (p : string).

(** A header: its path in the repository, the macro of its include guard, its #include lines in order.  All of them have
    the form #pragma once, #ifndef GUARD, #define GUARD, #include lines, declarations, #endif.  (Some #include lines of
    util/BoostAssertMsg.h and util/VectorSimulator.h are under conditions; they name headers of the C++ library and Boost's
    current_function.hpp only and are taken as always read.) *)
Record header := Header { h_path : string; h_guard : string; h_includes : list inclusion }.

(** The headers of the library. *)
Definition library : list header := [
  (** tuple-transmission/BoundMessageType_fwd.h:20-21 *)
  Header "tuple-transmission/BoundMessageType_fwd.h" "INCLUDED_BoundMessageType_fwd_h_GUID_3f89cf7f_d57b_4d17_a900_8b1d028427a1"
    [];
  (** tuple-transmission/detail/constants/ArityConfig.h:31-32 *)
  Header "tuple-transmission/detail/constants/ArityConfig.h" "INCLUDED_FusionConfig_h_GUID_e185dc4f_3d12_4f22_ae37_ee131be6d12a"
    [];
  (** util/booststdint.h:38-45 *)
  Header "util/booststdint.h" "INCLUDED_booststdint_h_GUID_96d717cd_827b_4889_8505_6a9102af0dae"
    [Angled "boost/cstdint.hpp"];
  (** tuple-transmission/detail/types/MessageIdType.h:20-24 *)
  Header "tuple-transmission/detail/types/MessageIdType.h" "INCLUDED_MessageIdType_h_GUID_5d3f6687_240b_49f7_b325_52c417787cad"
    [Angled "util/booststdint.h"];
  (** tuple-transmission/detail/operations/MessageArity.h:20-27 *)
  Header "tuple-transmission/detail/operations/MessageArity.h" "INCLUDED_MessageArity_h_GUID_f23d7d62_179c_498a_9fa7_2d40b375ef15"
    [Angled "boost/mpl/size.hpp"];
  (** tuple-transmission/detail/operations/MessageCount.h:20-27 *)
  Header "tuple-transmission/detail/operations/MessageCount.h" "INCLUDED_MessageCount_h_GUID_f0cfe291_5791_490d_a738_9da0f5c5dda5"
    [Angled "boost/mpl/size.hpp"];
  (** util/MPLFindIndex.h:30-41 *)
  Header "util/MPLFindIndex.h" "INCLUDED_MPLFindIndex_h_GUID_85ff7967_6f99_4669_91c8_2b6c63e12e00"
    [Angled "boost/mpl/contains.hpp"; Angled "boost/mpl/distance.hpp"; Angled "boost/mpl/find.hpp"; Angled "boost/mpl/int.hpp"; Angled "boost/mpl/assert.hpp"];
  (** tuple-transmission/BoundMessageType.h:20-37 *)
  Header "tuple-transmission/BoundMessageType.h" "INCLUDED_BoundMessageType_h_GUID_fcc31d2e_6819_4b42_a365_0c7798060bad"
    [Quoted "BoundMessageType_fwd.h"; Quoted "detail/constants/ArityConfig.h"; Quoted "detail/types/MessageIdType.h"; Quoted "detail/operations/MessageArity.h"; Quoted "detail/operations/MessageCount.h"; Angled "util/MPLFindIndex.h"; Angled "boost/mpl/assert.hpp"; Angled "boost/mpl/equal.hpp"; Angled "boost/mpl/contains.hpp"; Angled "boost/mpl/int.hpp"; Angled "boost/mpl/greater.hpp"; Angled "boost/mpl/not.hpp"];
  (** tuple-transmission/MessageCollection.h:20-21 *)
  Header "tuple-transmission/MessageCollection.h" "INCLUDED_MessageCollection_h_GUID_81024018_afb3_496b_9041_7c5e4119d94d"
    [];
  (** tuple-transmission/MessageType.h:20-21 *)
  Header "tuple-transmission/MessageType.h" "INCLUDED_MessageType_h_GUID_eef26e08_32f9_4c37_9c5b_058b281c319a"
    [];
  (** tuple-transmission/Receiver_fwd.h:20-21 *)
  Header "tuple-transmission/Receiver_fwd.h" "INCLUDED_Receiver_fwd_h_GUID_b09d1fc3_5c93_416b_b8cb_5a3ec25f0209"
    [];
  (** tuple-transmission/detail/operations/Sizeof_fwd.h:20-21 *)
  Header "tuple-transmission/detail/operations/Sizeof_fwd.h" "INCLUDED_Sizeof_fwd_h_GUID_69cde6c1_b7f9_44cf_af65_461317b38cbb"
    [];
  (** tuple-transmission/detail/operations/Sizeof.h:20-31 *)
  Header "tuple-transmission/detail/operations/Sizeof.h" "INCLUDED_Sizeof_h_GUID_3ceba20a_f94b_42e0_9db4_4dd04dedfc12"
    [Quoted "Sizeof_fwd.h"; Quoted "../../BoundMessageType_fwd.h"; Angled "boost/mpl/accumulate.hpp"; Angled "boost/mpl/plus.hpp"; Angled "boost/mpl/placeholders.hpp"; Angled "boost/mpl/sizeof.hpp"];
  (** tuple-transmission/detail/operations/MaxMessageLength.h:20-30 *)
  Header "tuple-transmission/detail/operations/MaxMessageLength.h" "INCLUDED_MaxMessageLength_h_GUID_1839c18a_36e9_48ed_8cd8_02e3f34fce28"
    [Quoted "Sizeof.h"; Quoted "../../BoundMessageType.h"; Angled "boost/mpl/less.hpp"; Angled "boost/mpl/deref.hpp"; Angled "boost/mpl/max_element.hpp"];
  (** tuple-transmission/detail/constants/MessageBufferSizeScale.h:20-27 *)
  Header "tuple-transmission/detail/constants/MessageBufferSizeScale.h" "INCLUDED_MessageBufferSizeScale_h_GUID_b8da68a5_994a_481e_b030_1f76e9c34176"
    [Angled "boost/mpl/int.hpp"];
  (** tuple-transmission/detail/operations/ComputeReceiveBufferSize.h:20-28 *)
  Header "tuple-transmission/detail/operations/ComputeReceiveBufferSize.h" "INCLUDED_ComputeReceiveBufferSize_h_GUID_f572e46a_ae62_41f2_9046_fbd575dca2f0"
    [Quoted "MaxMessageLength.h"; Quoted "../constants/MessageBufferSizeScale.h"; Angled "boost/mpl/times.hpp"];
  (** tuple-transmission/detail/operations/IsIdValid.h:20-25 *)
  Header "tuple-transmission/detail/operations/IsIdValid.h" "INCLUDED_IsIdValid_h_GUID_78626b63_35d3_4fc6_8033_ef1119ae337f"
    [Quoted "../types/MessageIdType.h"; Quoted "MessageCount.h"];
  (** tuple-transmission/detail/types/MessageSizeType.h:20-27 *)
  Header "tuple-transmission/detail/types/MessageSizeType.h" "INCLUDED_MessageSizeType_h_GUID_e46ad97b_2123_49bd_8b67_fc7ea9712e1c"
    [Quoted "../operations/MaxMessageLength.h"; Angled "boost/integer.hpp"];
  (** util/MPLApplyAt.h:31-44 *)
  Header "util/MPLApplyAt.h" "INCLUDED_MPLApplyAt_h_GUID_6bdb6d98_b8f6_48d6_aa23_378c7de0e596"
    [Angled "boost/integer.hpp"; Angled "boost/mpl/at.hpp"; Angled "boost/mpl/int.hpp"; Angled "boost/mpl/less.hpp"; Angled "boost/mpl/size.hpp"; Angled "boost/mpl/bool.hpp"; Angled "boost/mpl/identity.hpp"];
  (** tuple-transmission/detail/operations/MessageLength.h:20-32 *)
  Header "tuple-transmission/detail/operations/MessageLength.h" "INCLUDED_MessageLength_h_GUID_0215a2a9_3a73_4021_bfb6_e4a0e8f20dda"
    [Quoted "../types/MessageSizeType.h"; Quoted "../types/MessageIdType.h"; Quoted "MessageCount.h"; Quoted "IsIdValid.h"; Quoted "../../BoundMessageType.h"; Angled "util/MPLApplyAt.h"; Angled "boost/mpl/at.hpp"];
  (** util/VectorSimulator.h:30-47 *)
  Header "util/VectorSimulator.h" "INCLUDED_VectorSimulator_h_GUID_3982483b_70a3_4b3a_a50a_4d948fb44655"
    [Angled "boost/config.hpp"; Angled "stdexcept"];
  (** util/BoostAssertMsg.h:30-66 *)
  Header "util/BoostAssertMsg.h" "INCLUDED_BoostAssertMsg_h_GUID_2b5195d1_9921_401b_920c_7068ce573fd8"
    [Angled "boost/assert.hpp"; Angled "boost/current_function.hpp"; Angled "cstdlib"; Angled "iostream"; Angled "boost/current_function.hpp"];
  (** util/ReceiveBuffer.h:30-45 *)
  Header "util/ReceiveBuffer.h" "INCLUDED_ReceiveBuffer_h_GUID_2d1681f0_0ffe_495d_8ec9_fd730b801721"
    [Quoted "VectorSimulator.h"; Angled "util/booststdint.h"; Angled "boost/array.hpp"; Angled "boost/integer.hpp"; Angled "boost/assert.hpp"; Angled "util/BoostAssertMsg.h"; Angled "algorithm"; Angled "cmath"];
  (** tuple-transmission/detail/types/EnvelopeReceiveBuffer.h:20-33 *)
  Header "tuple-transmission/detail/types/EnvelopeReceiveBuffer.h" "INCLUDED_EnvelopeReceiveBuffer_h_GUID_e5115905_1c09_43a9_93b6_48c9f42aa951"
    [Quoted "../operations/ComputeReceiveBufferSize.h"; Quoted "../operations/IsIdValid.h"; Quoted "../operations/MessageLength.h"; Quoted "MessageSizeType.h"; Quoted "MessageIdType.h"; Angled "util/ReceiveBuffer.h"; Angled "boost/optional.hpp"; Angled "boost/assert.hpp"];
  (** tuple-transmission/detail/operations/DeserializeToFusion.h:20-31 *)
  Header "tuple-transmission/detail/operations/DeserializeToFusion.h" "INCLUDED_DeserializeToFusion_h_GUID_b17df18e_243c_49cf_ab9f_491cf3dc504f"
    [Quoted "../constants/ArityConfig.h"; Angled "boost/fusion/mpl.hpp"; Angled "boost/fusion/include/push_back.hpp"; Angled "boost/fusion/include/cons.hpp"; Angled "boost/fusion/include/as_list.hpp"; Angled "boost/mpl/identity.hpp"];
  (** tuple-transmission/detail/operations/DeserializeAndInvoke.h:20-26 *)
  Header "tuple-transmission/detail/operations/DeserializeAndInvoke.h" "INCLUDED_DeserializeAndInvoke_h_GUID_252a9b27_ba20_4cd5_84ba_a399a673ed92"
    [Quoted "../types/MessageIdType.h"; Quoted "DeserializeToFusion.h"; Angled "util/MPLApplyAt.h"];
  (** tuple-transmission/detail/bases/ReceiveAdapterBase_fwd.h:20-21 *)
  Header "tuple-transmission/detail/bases/ReceiveAdapterBase_fwd.h" "INCLUDED_ReceiveAdapterBase_fwd_h_GUID_beac541f_4654_4a4d_87e0_f231d9cc7826"
    [];
  (** tuple-transmission/Receiver.h:20-31 *)
  Header "tuple-transmission/Receiver.h" "INCLUDED_Receiver_h_GUID_9e1418a4_6874_426b_9113_cc5e57ee3fb5"
    [Quoted "Receiver_fwd.h"; Quoted "detail/types/EnvelopeReceiveBuffer.h"; Quoted "detail/types/MessageIdType.h"; Quoted "detail/operations/DeserializeAndInvoke.h"; Quoted "detail/bases/ReceiveAdapterBase_fwd.h"; Angled "boost/optional.hpp"];
  (** tuple-transmission/ParameterHandlerBase.h:20-31 *)
  Header "tuple-transmission/ParameterHandlerBase.h" "INCLUDED_ParameterHandlerBase_h_GUID_79f0cb9d_69d6_4cbc_be36_a30344064e9d"
    [Quoted "detail/constants/ArityConfig.h"; Quoted "Receiver.h"; Angled "boost/fusion/include/push_front.hpp"; Angled "boost/fusion/functional/invocation/invoke_procedure.hpp"; Angled "boost/utility/enable_if.hpp"; Angled "boost/fusion/include/is_sequence.hpp"];
  (** tuple-transmission/PartialHandlerBase.h:22-31 *)
  Header "tuple-transmission/PartialHandlerBase.h" "INCLUDED_PartialHandlerBase_h_GUID_314b3576_c339_42e9_ac75_cccb9b7f0bfe"
    [Quoted "Receiver.h"; Quoted "ParameterHandlerBase.h"; Angled "boost/utility/enable_if.hpp"; Angled "boost/fusion/include/is_sequence.hpp"];
  (** tuple-transmission/detail/bases/TransmitterBase_fwd.h:20-21 *)
  Header "tuple-transmission/detail/bases/TransmitterBase_fwd.h" "INCLUDED_TransmitterBase_fwd_h_GUID_7ac7a06f_b4a6_46bb_8f5b_69c13fd8918f"
    [];
  (** tuple-transmission/detail/types/IntegralTypes.h:20-24 *)
  Header "tuple-transmission/detail/types/IntegralTypes.h" "INCLUDED_IntegralTypes_h_GUID_b0170a70_b25e_464c_8aea_fd8c654e95f2"
    [Angled "util/booststdint.h"];
  (** tuple-transmission/detail/operations/SendOverloads_Generated.h:22-36 *)
  Header "tuple-transmission/detail/operations/SendOverloads_Generated.h" "INCLUDED_SendOverloads_Generated_h_GUID_ceb4f589_526e_49d7_84c5_0b38f6d1fc42"
    [Quoted "../constants/ArityConfig.h"; Quoted "MessageArity.h"; Quoted "../bases/TransmitterBase_fwd.h"; Angled "boost/fusion/include/make_list.hpp"; Angled "boost/mpl/size.hpp"; Angled "boost/mpl/int.hpp"; Angled "boost/mpl/at.hpp"; Angled "boost/mpl/equal.hpp"; Angled "boost/utility/enable_if.hpp"];
  (** tuple-transmission/Send.h:20-36 *)
  Header "tuple-transmission/Send.h" "INCLUDED_SendMessage_h_GUID_9cbfc065_ea71_4097_8993_c4e0b0fb14c5"
    [Quoted "detail/constants/ArityConfig.h"; Quoted "detail/bases/TransmitterBase_fwd.h"; Quoted "detail/types/IntegralTypes.h"; Quoted "detail/operations/SendOverloads_Generated.h"; Quoted "BoundMessageType.h"; Angled "boost/mpl/equal.hpp"; Angled "boost/mpl/or.hpp"; Angled "boost/mpl/and.hpp"; Angled "boost/mpl/empty.hpp"; Angled "boost/mpl/assert.hpp"; Angled "boost/fusion/mpl.hpp"];
  (** tuple-transmission/detail/bases/EnvelopeBase_fwd.h:20-21 *)
  Header "tuple-transmission/detail/bases/EnvelopeBase_fwd.h" "INCLUDED_EnvelopeBase_fwd_h_GUID_cf227b9a_5049_483d_a942_80966857935e"
    [];
  (** tuple-transmission/detail/bases/EnvelopeBase.h:20-26 *)
  Header "tuple-transmission/detail/bases/EnvelopeBase.h" "INCLUDED_EnvelopeBase_h_GUID_aa476fba_c58f_42aa_b6bf_f5937201105b"
    [Quoted "EnvelopeBase_fwd.h"; Quoted "../types/MessageIdType.h"; Angled "util/BoostAssertMsg.h"];
  (** tuple-transmission/detail/bases/ReceiveAdapterBase.h:20-30 *)
  Header "tuple-transmission/detail/bases/ReceiveAdapterBase.h" "INCLUDED_ReceiveAdapterBase_h_GUID_34fbc703_624a_4041_b94f_b4edd021263f"
    [Quoted "../types/IntegralTypes.h"; Angled "limits"];
  (** tuple-transmission/detail/bases/SerializerBase.h:20-32 *)
  Header "tuple-transmission/detail/bases/SerializerBase.h" "INCLUDED_SerializerBase_h_GUID_c34cd60a_eb2c_4fa4_b774_bfb021305cec"
    [Quoted "../constants/ArityConfig.h"; Quoted "../types/IntegralTypes.h"; Angled "boost/utility/enable_if.hpp"; Angled "boost/type_traits/is_base_of.hpp"; Angled "boost/config.hpp"; Angled "boost/mpl/identity.hpp"; Angled "boost/fusion/include/for_each.hpp"];
  (** tuple-transmission/detail/bases/TransmitterBase.h:20-28 *)
  Header "tuple-transmission/detail/bases/TransmitterBase.h" "INCLUDED_TransmitterBase_h_GUID_16d34310_de5f_41ae_b669_8c88adb4b1e0"
    [Quoted "TransmitterBase_fwd.h"; Quoted "../types/IntegralTypes.h"; Angled "boost/config.hpp"];
  (** tuple-transmission/detail/constants/ControlCodes.h:20-27 *)
  Header "tuple-transmission/detail/constants/ControlCodes.h" "INCLUDED_ControlCodes_h_GUID_8f8bf468_f143_47fb_be26_883227af00e3"
    [Angled "util/booststdint.h"];
  (** tuple-transmission/detail/operations/MessageCount_fwd.h:20-21 *)
  Header "tuple-transmission/detail/operations/MessageCount_fwd.h" "INCLUDED_MessageCount_fwd_h_GUID_cfe35955_066b_464e_9262_74f333b92858"
    [];
  (** tuple-transmission/detail/types/MessageSizeType_fwd.h:20-21 *)
  Header "tuple-transmission/detail/types/MessageSizeType_fwd.h" "INCLUDED_MessageSizeType_fwd_h_GUID_5c1278f3_284d_4531_ae34_03fa7bcce25b"
    [];
  (** tuple-transmission/serializers/BitwiseCopySerialization.h:20-30 *)
  Header "tuple-transmission/serializers/BitwiseCopySerialization.h" "INCLUDED_BitwiseCopySerialization_h_GUID_4d50bc7f_c702_437a_a2df_f715f1cea845"
    [Quoted "../detail/bases/SerializerBase.h"; Angled "cstring"];
  (** tuple-transmission/envelopes/Basic.h:20-31 *)
  Header "tuple-transmission/envelopes/Basic.h" "INCLUDED_envelopes_Basic_h_GUID_759f0310_b9bd_4bc3_aca7_0fb4238b31fd"
    [Quoted "../detail/bases/EnvelopeBase.h"; Quoted "../detail/constants/ControlCodes.h"; Quoted "../detail/types/IntegralTypes.h"; Quoted "../serializers/BitwiseCopySerialization.h"; Angled "boost/mpl/plus.hpp"; Angled "boost/mpl/int.hpp"];
  (** tuple-transmission/transmitters/ChecksumComputer.h:20-25 *)
  Header "tuple-transmission/transmitters/ChecksumComputer.h" "INCLUDED_ChecksumComputer_h_GUID_80d37814_ff4e_4f0d_af5e_5829daff7df6"
    [Quoted "../detail/bases/TransmitterBase.h"; Quoted "../detail/types/IntegralTypes.h"];
  (** tuple-transmission/transmitters/TransmitterComposition.h:20-28 *)
  Header "tuple-transmission/transmitters/TransmitterComposition.h" "INCLUDED_TransmitterComposition_h_GUID_d334eef0_f213_482b_b615_913f37df35bf"
    [Quoted "../detail/bases/TransmitterBase_fwd.h"; Quoted "../detail/types/IntegralTypes.h"; Angled "boost/config.hpp"];
  (** tuple-transmission/envelopes/BasicChecksum.h:20-33 *)
  Header "tuple-transmission/envelopes/BasicChecksum.h" "INCLUDED_envelopes_BasicChecksum_h_GUID_532406a6_8426_4b80_9f3c_6c7b16b7a49e"
    [Quoted "../detail/bases/EnvelopeBase.h"; Quoted "../detail/constants/ControlCodes.h"; Quoted "../detail/types/IntegralTypes.h"; Quoted "../transmitters/ChecksumComputer.h"; Quoted "../transmitters/TransmitterComposition.h"; Quoted "../serializers/BitwiseCopySerialization.h"; Angled "boost/mpl/plus.hpp"; Angled "boost/mpl/int.hpp"];
  (** tuple-transmission/envelopes/Envelopes_fwd.h:20-21 *)
  Header "tuple-transmission/envelopes/Envelopes_fwd.h" "INCLUDED_Envelopes_fwd_h_GUID_279aafc3_ef60_495c_ba0a_a11af212d30a"
    [];
  (** tuple-transmission/receiveadapters/ArduinoSerial.h:20-32 *)
  Header "tuple-transmission/receiveadapters/ArduinoSerial.h" "INCLUDED_ArduinoSerial_h_GUID_2c1ad135_82b0_4de2_a5a4_1aff33bc1558"
    [Quoted "../detail/types/IntegralTypes.h"; Quoted "../detail/bases/ReceiveAdapterBase.h"; Angled "cmath"; Angled "limits"];
  (** tuple-transmission/receiveadapters/VrpnSerial.h:20-28 *)
  Header "tuple-transmission/receiveadapters/VrpnSerial.h" "INCLUDED_VrpnSerial_h_GUID_99c80318_810b_4b76_a6ee_abeb7c444fbd"
    [Quoted "../detail/types/IntegralTypes.h"; Quoted "../detail/bases/ReceiveAdapterBase.h"; Angled "vrpn_SerialPort.h"];
  (** tuple-transmission/transmitters/BoostArrayBuffer.h:20-30 *)
  Header "tuple-transmission/transmitters/BoostArrayBuffer.h" "INCLUDED_BoostArrayBuffer_h_GUID_e7fb6660_2fbf_489d_9fbd_b4b77089b401"
    [Quoted "../detail/bases/TransmitterBase.h"; Angled "boost/array.hpp"; Angled "algorithm"];
  (** tuple-transmission/transmitters/ArduinoI2C.h:20-25 *)
  Header "tuple-transmission/transmitters/ArduinoI2C.h" "INCLUDED_ArduinoI2CTransmitter_h_GUID_a948b207_8b92_41e2_ac13_9020d01dc412"
    [Quoted "../detail/bases/TransmitterBase.h"; Quoted "BoostArrayBuffer.h"];
  (** tuple-transmission/transmitters/ArduinoSerial.h:20-24 *)
  Header "tuple-transmission/transmitters/ArduinoSerial.h" "INCLUDED_ArduinoSerialTransmitter_h_GUID_83d9f433_13ac_4b1d_88b1_8ef673dfd648"
    [Quoted "../detail/bases/TransmitterBase.h"];
  (** tuple-transmission/transmitters/AutosizedBoostArrayBuffer.h:20-26 *)
  Header "tuple-transmission/transmitters/AutosizedBoostArrayBuffer.h" "INCLUDED_AutosizedBoostArrayBuffer_h_GUID_fee1f069_68fd_455a_b3a7_932d8b8a00f9"
    [Quoted "BoostArrayBuffer.h"; Quoted "../detail/operations/Sizeof.h"; Quoted "../detail/operations/MaxMessageLength.h"];
  (** tuple-transmission/transmitters/VectorBuffer.h:20-32 *)
  Header "tuple-transmission/transmitters/VectorBuffer.h" "INCLUDED_VectorBuffer_h_GUID_57f1692b_dc67_4c88_894c_0ef3b8b91423"
    [Quoted "../detail/bases/TransmitterBase.h"; Quoted "../detail/operations/MaxMessageLength.h"; Angled "vector"; Angled "iterator"];
  (** tuple-transmission/transmitters/VrpnSerial.h:20-27 *)
  Header "tuple-transmission/transmitters/VrpnSerial.h" "INCLUDED_VrpnSerial_h_GUID_b6a7fab1_4156_4ef2_a375_64c76f2e2d85"
    [Quoted "../detail/bases/TransmitterBase.h"; Angled "vrpn_SerialPort.h"];
  (** tuple_transmission.h:20-21 *)
  Header "tuple_transmission.h" "INCLUDED_tuple_transmission_h_GUID_40d8ea93_aa3b_4885_bd5e_c2fad6a1b903"
    []
].

(** ** Finding the file *)

(** The parts of a path. *)
Fixpoint parts_from (part s : string) : list string :=
  match s with
  | EmptyString => [part]
  | String c r => if Ascii.eqb c "/" then part :: parts_from EmptyString r else parts_from (part ++ String c EmptyString) r
  end.
Definition parts (s : string) : list string := parts_from EmptyString s.

(** Going on from a directory (innermost part first). *)
Fixpoint walk (dir l : list string) : list string :=
  match l with
  | [] => dir
  | p :: l' => walk (if String.eqb p ".." then tl dir else p :: dir) l'
  end.
Definition path_from (dir : list string) (p : string) : string := String.concat "/" (rev (walk dir (parts p))).
Definition directory (path : string) : list string := tl (rev (parts path)).

Definition find_header (lib : list header) (path : string) : option header :=
  find (fun h => String.eqb (h_path h) path) lib.

(** The header of the library meant by an #include line of a file in the directory [dir]: "p" is looked for in that directory first,
    then like <p> from the root of the repository, which is on the include path (CMakeLists.txt).  None: a file of
    somebody else. *)
Definition found (lib : list header) (dir : list string) (i : inclusion) : option header :=
  match i with
  | Quoted p => match find_header lib (path_from dir p) with Some h => Some h | None => find_header lib p end
  | Angled p => find_header lib p
  end.
Definition inclusion_name (i : inclusion) : string := match i with Quoted p | Angled p => p end.

(** ** Reading a translation unit *)

(** What happens, in order: the declarations of a header of the library are read; a file of somebody else is read
    because of an #include line in that header, or in the application's own file. *)
Inductive event := Declarations (path : string) | Foreign (by_header : option string) (name : string).

Record unit_state := Unit { u_defined : list string; u_log : list event }.
Definition log (e : event) (st : unit_state) : unit_state := Unit (u_defined st) (u_log st ++ [e]).
Definition is_defined (st : unit_state) (g : string) : bool := existsb (String.eqb g) (u_defined st).

(** Several #include lines, in order. *)
Fixpoint each {A S} (f : A -> S -> option S) (l : list A) (s : S) : option S :=
  match l with
  | [] => Some s
  | a :: l' => match f a s with Some s' => each f l' s' | None => None end
  end.

(** An #include line.  None: they are nested more deeply than [fuel]. *)
Fixpoint include (lib : list header) (fuel : nat) (by_header : option string) (dir : list string) (i : inclusion) (st : unit_state)
  : option unit_state :=
  match fuel with
  | O => None
  | S fuel' =>
      match found lib dir i with
      | None => Some (log (Foreign by_header (inclusion_name i)) st)
      | Some h =>
          if is_defined st (h_guard h) then Some st
          else
            match each (include lib fuel' (Some (h_path h)) (directory (h_path h))) (h_includes h)
                       (Unit (h_guard h :: u_defined st) (u_log st)) with
            | Some st' => Some (log (Declarations (h_path h)) st')
            | None => None
            end
      end
  end.

(** A file of an application in the directory [dir] with #include lines [is], when the macros [defined] exist. *)
Definition read_unit (dir : list string) (defined : list string) (is : list inclusion) : option unit_state :=
  each (include library (S (length library)) None dir) is (Unit defined []).
