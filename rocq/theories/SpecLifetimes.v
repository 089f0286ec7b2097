(** Specification vocabulary for lifetimes of handlers. *)
From Verif Require Export Lifetimes SpecReceiver.

(** The same behaviour and calls with nothing ever destroyed. *)
Definition acts_of (acts : list lact) : list hact := flat_map (fun a => match a with LAct a => [a] | LEnd _ => [] end) acts.
Definition immortal (beh : lbehav) : hbehav := fun log => HResult (acts_of (lr_acts (beh log))) (lr_throws (beh log)).
Definition ops_of (ops : list lop) : list op := flat_map (fun o => match o with LOp o => [o] | LDestroy _ => [] end) ops.

(** The objects one handler call destroys. *)
Definition ended (acts : list lact) : list Z := flat_map (fun a => match a with LAct _ => [] | LEnd x => [x] end) acts.

(** Of the calls [new], made after the calls [log] with the objects [gone] destroyed, each is made to an object that
    neither is among these nor has been destroyed by an earlier one of the calls. *)
Fixpoint to_the_living (beh : lbehav) (gone : list Z) (log new : list delivery) : Prop :=
  match new with
  | [] => True
  | d :: rest => ~ In (h_obj (d_handler d)) gone
      /\ to_the_living beh (ended (lr_acts (beh (log ++ [d]))) ++ gone) (log ++ [d]) rest
  end.

(** The objects gone after the calls [new]. *)
Fixpoint gone_after (beh : lbehav) (gone : list Z) (log new : list delivery) : list Z :=
  match new with
  | [] => gone
  | d :: rest => gone_after beh (ended (lr_acts (beh (log ++ [d]))) ++ gone) (log ++ [d]) rest
  end.

(** What the operations return, but for destructions. *)
Definition rets_of (ops : list lop) (rs : list opret) : list opret :=
  flat_map (fun x => match fst x with LOp _ => [snd x] | LDestroy _ => [] end) (combine ops rs).
