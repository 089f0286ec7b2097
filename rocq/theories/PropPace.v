(** Property C96: a port that itself keeps a limited number of bytes. *)
From Verif Require Import PaceLemmas.

(** C96: bytes of sent messages arrive in bursts at a port that keeps [F] bytes; after each burst the program calls
    receiveFrom and processMessages once.  If a bucket of size [F], from which 2 M + 1 bytes (at most 255) leak per turn, does
    not overflow, where M is the length of the longest message, then no byte is lost and no more bytes wait at the port than
    in the bucket; the messages delivered are the first ones sent; all of them when none are left at the port. *)
Theorem C96_bucket :
  forall c coll, static_ok coll = true -> index_safe c (capacity coll) ->
  forall beh, steady beh -> (forall log, hr_throws (beh log) = false) ->
  forall fuel, (Z.to_nat (capacity coll) < fuel)%nat ->
  forall vrpn F cs msgs S h bursts rest, little cs = little c -> Forall (sendable coll) msgs ->
  send_all cs coll vector_tx msgs [] = Ok S -> S = concat bursts ++ rest -> within (turn_rate coll) F 0 bursts ->
  exists w P, loop_turns vrpn F fuel c coll beh bursts (Looping (start coll (Some h)) [] []) = Ok (Looping w P [])
    /\ zlen P <= waiting (turn_rate coll) 0 bursts
    /\ (exists k, map content (w_log w) = firstn k msgs)
    /\ zlen (held w) < max_message_length coll
    /\ (P = [] -> rest = [] -> map content (w_log w) = msgs /\ held w = []).
Proof. exact port_bucket. Qed.
Print Assumptions C96_bucket.

(** If no burst is longer than what a turn takes, then after every turn the port is empty and every message that has arrived
    completely is delivered. *)
Theorem C96_prompt :
  forall c coll, static_ok coll = true -> index_safe c (capacity coll) ->
  forall beh, steady beh -> (forall log, hr_throws (beh log) = false) ->
  forall fuel, (Z.to_nat (capacity coll) < fuel)%nat ->
  forall vrpn F cs msgs S h bursts m vs f j, little cs = little c -> Forall (sendable coll) msgs ->
  send_all cs coll vector_tx msgs [] = Ok S -> sendable coll (m, vs) -> is_message_frame cs coll m vs f -> (j < length f)%nat ->
  concat bursts = S ++ firstn j f -> Forall (fun d => zlen d <= Z.min F (turn_rate coll)) bursts ->
  exists w, loop_turns vrpn F fuel c coll beh bursts (Looping (start coll (Some h)) [] []) = Ok (Looping w [] [])
    /\ map content (w_log w) = msgs /\ held w = firstn j f.
Proof. exact port_prompt. Qed.
Print Assumptions C96_prompt.

(** A port of 64 bytes, as an Arduino's, and the test messages, of which a turn takes 35 bytes: 64 bytes at once, then 26,
    then a turn during which none arrive.  A port of 40 bytes loses 24 of them, and with them four messages. *)
Example C96_case :
  let msgs := firstn 12 keeping in
  let S := match send_all (desktop true) test_basic vector_tx msgs [] with Ok s => s | _ => [] end in
  let bursts := [firstn 64 S; skipn 64 S; []] in
  turn_rate test_basic = 35 /\ map zlen bursts = [64; 26; 0] /\ concat bursts = S
  /\ within 35 64 0 bursts /\ map (fun n => waiting 35 0 (firstn n bursts)) [1; 2; 3]%nat = [29; 20; 0]
  /\ (exists w, loop_turns false 64 60 (desktop true) test_basic quiet bursts (Looping (start test_basic (Some hd1)) [] [])
        = Ok (Looping w [] []) /\ map content (w_log w) = msgs)
  /\ exists w, loop_turns false 40 60 (desktop true) test_basic quiet bursts (Looping (start test_basic (Some hd1)) [] [])
       = Ok (Looping w [] (skipn 40 (firstn 64 S))) /\ length (w_log w) = 8%nat.
Proof.
  cbn zeta. split; [reflexivity|]. split; [vm_compute; reflexivity|]. split; [vm_compute; reflexivity|].
  split; [split; [apply Z.leb_le; vm_compute; reflexivity|]; split; [apply Z.leb_le; vm_compute; reflexivity|];
          split; [apply Z.leb_le; vm_compute; reflexivity | exact I]|].
  split; [vm_compute; reflexivity|]. split; eexists; (split; [vm_compute; reflexivity|]); vm_compute; reflexivity.
Qed.

(** The rate is sharp: bursts one byte longer overflow a port although it keeps much more than a whole burst, if the messages
    are such that a receiver holds all but the last byte of the longest one after every turn. *)
Theorem C96_sharp :
  exists msgs S bursts rest w P lost,
  static_ok test_basic = true /\ Forall (sendable test_basic) msgs
  /\ send_all (desktop true) test_basic vector_tx msgs [] = Ok S /\ S = concat bursts ++ rest
  /\ Forall (fun d => zlen d = turn_rate test_basic + 1) bursts
  /\ loop_turns false 64 60 (desktop true) test_basic quiet bursts (Looping (start test_basic (Some hd1)) [] []) = Ok (Looping w P lost)
  /\ lost <> [].
Proof. exact losing_witness. Qed.
Print Assumptions C96_sharp.
