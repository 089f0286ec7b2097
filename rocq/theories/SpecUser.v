(** Specification vocabulary for adapter classes of an application. *)
From Verif Require Export UserClasses.

(** The class is the adapter [a] of [Receive.v]: it throws nothing; it has a getNumAvailable of its own or inherits
    that of ReceiveAdapterWithoutAvailable. *)
Definition class_of (a : adapter) (k : adapter_class) : Prop :=
  (ac_available k = Some (Some (ad_available a))
   \/ ac_available k = None /\ ac_without k = true /\ ad_available a mod 256 = 255)
  /\ exists f, ac_receive k = Some f /\ forall n, f n = let '(data, ret) := ad_read a n in (data, Some ret).

(** The class throws when a receiver with room for [room] bytes calls it: its getNumAvailable does, or its
    receiveIntoBuffer after it has stored no more bytes than it was asked for. *)
Definition throws_when (room : Z) (k : adapter_class) : Prop :=
  exists f, ac_receive k = Some f /\
    ( ac_available k = Some None
    \/ (exists n data, ac_available k = Some (Some n)
         /\ f (Z.min (n mod 256) room) = (data, None) /\ zlen data <= Z.min (n mod 256) room)
    \/ (ac_available k = None /\ ac_without k = true
         /\ exists data, f (Z.min 255 room) = (data, None) /\ zlen data <= Z.min 255 room) ).
