(** Property C100: interrupts in the midst of an operation of the receive buffer. *)
From Verif Require Import TornLemmas.

(** C100: without interrupts the accesses are those of the operations of the other claims. *)
Theorem C100_quiet :
  forall c cap o b,
  t_run c cap (t_empty o MReturn) [] b = Ok (rb_empty b, b, [])
  /\ t_run c cap (t_size o cap MReturn) [] b = Ok (rb_size cap b, b, [])
  /\ (forall i, t_run c cap (t_index o c cap i MReturn) [] b = (do x <- rb_index c cap b i; Ok (x, b, [])))
  /\ (forall n, t_run c cap (t_pop_front o c cap n) [] b = (do (b', x) <- rb_pop_front c cap n b; Ok (x, b', [])))
  /\ (forall n, t_run c cap (t_pop_back o c cap n) [] b = (do (b', x) <- rb_pop_back c cap n b; Ok (x, b', []))).
Proof. exact quiet_lemma. Qed.
Print Assumptions C100_quiet.

(** Bytes appended by an interrupt between any two accesses of empty(), when they fit behind the contents or the buffer is empty:
    it answers what it would have answered before or after them, and nothing is lost. *)
Theorem C100_empty :
  forall c cap, cap_ok cap -> index_safe c cap ->
  forall o b X coming, rep cap b X -> zlen X + zlen (concat coming) <= cap ->
  X = [] \/ rb_pastEnd b + zlen (concat coming) <= cap ->
  exists e b' used rest,
    t_run c cap (t_empty o MReturn) coming b = Ok (e, b', rest)
    /\ coming = used ++ rest /\ rep cap b' (X ++ concat used)
    /\ (e = true -> X = []) /\ (e = false -> X ++ concat used <> []).
Proof. exact room_empty. Qed.
Print Assumptions C100_empty.

(** size() of a buffer that is not empty, the bytes fitting behind the contents: the size at some moment of the call. *)
Theorem C100_size :
  forall c cap, cap_ok cap -> index_safe c cap ->
  forall o b X coming, rep cap b X -> X <> [] -> rb_pastEnd b + zlen (concat coming) <= cap ->
  exists b' earlier later rest,
    t_run c cap (t_size o cap MReturn) coming b = Ok (zlen X + zlen (concat earlier), b', rest)
    /\ coming = earlier ++ later ++ rest /\ rep cap b' (X ++ concat (earlier ++ later)).
Proof. exact room_size. Qed.
Print Assumptions C100_size.

(** operator[]: the element there. *)
Theorem C100_index :
  forall c cap, cap_ok cap -> index_safe c cap ->
  forall o i b X coming, rep cap b X -> 0 <= i < zlen X -> rb_pastEnd b + zlen (concat coming) <= cap ->
  exists b' used rest,
    t_run c cap (t_index o c cap i MReturn) coming b = Ok (nth (Z.to_nat i) X 0, b', rest)
    /\ coming = used ++ rest /\ rep cap b' (X ++ concat used).
Proof. exact room_index. Qed.
Print Assumptions C100_index.

(** pop_front of as many elements as one likes: it removes these and no others, and no byte that comes is lost. *)
Theorem C100_pop_front :
  forall c cap, cap_ok cap -> index_safe c cap ->
  forall o b P x X coming, rep cap b ((x :: P) ++ X) -> rb_pastEnd b + zlen (concat coming) <= cap ->
  exists b' used rest,
    t_run c cap (t_pop_front o c cap (zlen (x :: P))) coming b = Ok (x, b', rest)
    /\ coming = used ++ rest /\ rep cap b' (X ++ concat used).
Proof. exact room_pop_front. Qed.
Print Assumptions C100_pop_front.

(** Three bytes are removed while two and then three come. *)
Example C100_case :
  exists b b' x,
  rb_push_range (desktop true) 16 [1; 2; 3; 4; 5; 6; 7; 8] (rb_init 16) = Ok b
  /\ t_run (desktop true) 16 (t_pop_front true (desktop true) 16 3) [[]; [9; 10]; []; []; []; []; []; [11; 12; 13]; []; [14]] b
     = Ok (x, b', []) /\ x = 1 /\ rb_bytes b' = [4; 5; 6; 7; 8; 9; 10; 11; 12; 13; 14].
Proof.
  do 3 eexists. split; [vm_compute; reflexivity|]. split; [vm_compute; reflexivity|]. split; vm_compute; reflexivity.
Qed.

(** Expected whenever the bytes fit into the buffer.  It is not so.  An interrupt that comes between the reading and the writing of
    _begin, and for whose bytes the contents have to be moved, makes pop_front() remove, besides the element, as many bytes as had
    been removed since the contents were last moved. *)
Theorem C100_moved :
  forall c cap, cap_ok cap -> index_safe c cap ->
  forall o b x X d, rep cap b (x :: X) -> rb_pastEnd b + zlen d > cap -> zlen (x :: X) + zlen d <= cap ->
  rb_begin b + 1 <= zlen (x :: X) + zlen d ->
  exists n b', t_run c cap (t_pop_front o c cap 1) (repeat [] n ++ [d]) b = Ok (x, b', [])
    /\ rep cap b' (skipn (Z.to_nat (rb_begin b + 1)) ((x :: X) ++ d)).
Proof. exact moved_front. Qed.
Print Assumptions C100_moved.

(** With sixteen bytes, after three have been removed and while the fourth is: it goes, and three more with it. *)
Theorem C100_moved_refuted :
  forall o, exists b0 b x d b' n,
  rb_push_range (desktop true) 16 [1; 2; 3; 4; 5; 6; 7; 8; 9; 10; 11; 12; 13; 14; 15; 16] (rb_init 16) = Ok b0
  /\ rb_pop_front (desktop true) 16 3 b0 = Ok (b, x)
  /\ t_run (desktop true) 16 (t_pop_front o (desktop true) 16 1) (repeat [] n ++ [d]) b = Ok (4, b', [])
  /\ rb_bytes b = [4; 5; 6; 7; 8; 9; 10; 11; 12; 13; 14; 15; 16] /\ d = [17; 18]
  /\ rb_bytes b' = [8; 9; 10; 11; 12; 13; 14; 15; 16; 17; 18].
Proof. exact pop_witness. Qed.
Print Assumptions C100_moved_refuted.

(** size() of an empty buffer in which one byte arrives says that there are more. *)
Theorem C100_size_refuted :
  forall o, exists b0 b x d n b',
  rb_push_range (desktop true) 16 [1; 2; 3; 4; 5] (rb_init 16) = Ok b0
  /\ rb_pop_front (desktop true) 16 5 b0 = Ok (b, x)
  /\ t_run (desktop true) 16 (t_size o 16 MReturn) [[]; d] b = Ok (n, b', [])
  /\ rb_bytes b = [] /\ rb_bytes b' = d /\ zlen d = 1 /\ zlen d < n.
Proof. exact size_witness. Qed.
Print Assumptions C100_size_refuted.

(** empty() answers true of a buffer that holds bytes before and after, when _begin is read first. *)
Theorem C100_empty_refuted :
  exists b0 b x d b',
  rb_push_range (desktop true) 16 [1; 2; 3; 4; 5; 6; 7; 8; 9; 10; 11; 12; 13; 14; 15; 16] (rb_init 16) = Ok b0
  /\ rb_pop_front (desktop true) 16 12 b0 = Ok (b, x)
  /\ t_run (desktop true) 16 (t_empty true MReturn) [[]; d] b = Ok (true, b', [])
  /\ zlen (rb_bytes b) = 4 /\ rb_bytes b' = rb_bytes b ++ d.
Proof. exact empty_witness. Qed.
Print Assumptions C100_empty_refuted.

(** pop_back() (which a receiver does not call): all that comes between the reading and the writing of _pastEnd is lost, even when
    it fits behind the contents. *)
Theorem C100_pop_back :
  forall c cap, cap_ok cap -> index_safe c cap ->
  forall o b X x d, rep cap b (X ++ [x]) -> rb_pastEnd b + zlen d <= cap ->
  exists n b', t_run c cap (t_pop_back o c cap 1) (repeat [] n ++ [d]) b = Ok (x, b', [])
    /\ rep cap b' X.
Proof. exact lost_back. Qed.
Print Assumptions C100_pop_back.
