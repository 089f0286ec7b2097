(** Reading the generated headers: what declarations does a header contain? *)
From Coq Require Export Ascii String List Arith DecimalString.
Export ListNotations.
Local Open Scope string_scope.

(** ** Tokens *)

(** A word (identifier, keyword or number) or a punctuation character. *)
Inductive tok := W (w : string) | P (c : ascii).

Definition between (lo hi c : ascii) : bool :=
  Nat.leb (nat_of_ascii lo) (nat_of_ascii c) && Nat.leb (nat_of_ascii c) (nat_of_ascii hi).
Definition word_char (c : ascii) : bool :=
  between "a" "z" c || between "A" "Z" c || between "0" "9" c || Ascii.eqb c "_".
Definition newline_char : ascii := ascii_of_nat 10.
Definition space_char (c : ascii) : bool :=
  Ascii.eqb c " " || Ascii.eqb c (ascii_of_nat 9) || Ascii.eqb c newline_char.

(** At the start of a line (only blanks and comments so far), further on, or in a preprocessing directive. *)
Inductive place := LineStart | InLine | Directive.
Definition inside (p : place) : place := match p with LineStart => InLine | _ => p end.

(** Between tokens, inside a word, behind a slash, in a comment to the end of the line, in a bracketed comment,
    behind a star in one. *)
Inductive lexing :=
| Out (p : place) | InWord (p : place) (w : string) | Slash (p : place) | LineComment (p : place)
| BlockComment (p : place) | Star (p : place).

(** The end of a line ends a directive and is otherwise a blank. *)
Definition line_end (p : place) : list tok := match p with Directive => [P newline_char] | _ => [] end.

(** A # elsewhere than at the start of a line does not begin a directive; such a text is kept apart by
    the word "#", which no text contains. *)
Definition hash (p : place) : list tok * lexing :=
  match p with LineStart => ([P "#"], Out Directive) | InLine => ([W "#"], Out InLine) | Directive => ([P "#"], Out Directive) end.

Definition from_out (p : place) (c : ascii) : list tok * lexing :=
  if Ascii.eqb c newline_char then (line_end p, Out LineStart)
  else if space_char c then ([], Out p)
  else if Ascii.eqb c "/" then ([], Slash p)
  else if word_char c then ([], InWord (inside p) (String c EmptyString))
  else if Ascii.eqb c "#" then hash p
  else ([P c], Out (inside p)).

Definition lex_step (st : lexing) (c : ascii) : list tok * lexing :=
  match st with
  | Out p => from_out p c
  | InWord p w =>
      if word_char c then ([], InWord p (w ++ String c EmptyString))
      else let '(t, st') := from_out p c in (W w :: t, st')
  | Slash p =>
      if Ascii.eqb c "/" then ([], LineComment p)
      else if Ascii.eqb c "*" then ([], BlockComment p)
      else let '(t, st') := from_out (inside p) c in (P "/" :: t, st')
  | LineComment p => if Ascii.eqb c newline_char then (line_end p, Out LineStart) else ([], LineComment p)
  | BlockComment p => ([], if Ascii.eqb c "*" then Star p else BlockComment p)
  | Star p => ([], if Ascii.eqb c "/" then Out p else if Ascii.eqb c "*" then Star p else BlockComment p)
  end.

Fixpoint lex (st : lexing) (s : string) : list tok :=
  match s with
  | EmptyString => match st with InWord _ w => [W w] | Slash _ => [P "/"] | _ => [] end
  | String c r => let '(t, st') := lex_step st c in (t ++ lex st' r)%list
  end.

(** The tokens of a C++ text without string literals containing comments; the end of a directive is a token. *)
Definition tokens (s : string) : list tok := lex (Out LineStart) s.

(** ** Reading *)

Definition then_ {A B} (o : option A) (f : A -> option B) : option B :=
  match o with Some a => f a | None => None end.
Local Notation "'let*' x := m 'in' k" := (then_ m (fun x => k)) (at level 200, x pattern, m at level 100, k at level 200).

Definition tok_eqb (a b : tok) : bool :=
  match a, b with W x, W y => String.eqb x y | P x, P y => Ascii.eqb x y | _, _ => false end.

(** The given tokens must come next. *)
Fixpoint eat (want s : list tok) : option (list tok) :=
  match want, s with
  | [], _ => Some s
  | t :: want', x :: s' => if tok_eqb t x then eat want' s' else None
  | _, [] => None
  end.
Definition expect (text : string) (s : list tok) : option (list tok) := eat (tokens text) s.
(** The end of a directive. *)
Definition eol (s : list tok) : option (list tok) := eat [P newline_char] s.

(** A word, a number. *)
Definition word (s : list tok) : option (string * list tok) :=
  match s with W w :: s' => Some (w, s') | _ => None end.
Definition number (s : list tok) : option (nat * list tok) :=
  match s with
  | W w :: s' => match NilEmpty.uint_of_string w with Some d => Some (Nat.of_uint d, s') | None => None end
  | _ => None
  end.

(** Everything up to the punctuation character [p], which is dropped. *)
Fixpoint until (p : ascii) (s : list tok) : option (list tok * list tok) :=
  match s with
  | [] => None
  | x :: s' => if tok_eqb (P p) x then Some ([], s') else let* (a, r) := until p s' in Some (x :: a, r)
  end.

(** Words, each behind the tokens [before], separated by commas and ended by [p]. *)
Fixpoint words (fuel : nat) (before : string) (p : ascii) (s : list tok) : option (list string * list tok) :=
  match fuel with
  | O => None
  | S fuel' =>
      let* s := expect before s in
      let* (w, s) := word s in
      match s with
      | P q :: s =>
          if Ascii.eqb q p then Some ([w], s)
          else if Ascii.eqb q "," then let* (ws, s) := words fuel' before p s in Some (w :: ws, s)
          else None
      | _ => None
      end
  end.

(** ** An overload of send *)

Record overload := Overload {
  ov_template : list string;      (* template parameters *)
  ov_arity : nat;                 (* number in the condition *)
  ov_tested : list tok;           (* the message type in the condition *)
  ov_fields : list (list tok * nat);  (* types of the field parameters: sequence and position *)
  ov_names : list string;         (* their names *)
  ov_called : list tok * list tok;    (* template arguments of the send called *)
  ov_passed : list string         (* what is put into the sequence passed to it *)
}.

(** , typename mpl::at_c<SEQUENCE, N>::type NAME ... ) *)
Fixpoint parameters (fuel : nat) (s : list tok) : option (list (list tok * nat) * list string * list tok) :=
  match fuel with
  | O => None
  | S fuel' =>
      match s with
      | P q :: s =>
          if Ascii.eqb q ")" then Some ([], [], s)
          else if Ascii.eqb q "," then
            let* s := expect "typename mpl::at_c<" s in
            let* (l, s) := until "," s in
            let* (n, s) := number s in
            let* s := expect ">::type" s in
            let* (w, s) := word s in
            let* (fs, ws, s) := parameters fuel' s in
            Some ((l, n) :: fs, w :: ws, s)
          else None
      | _ => None
      end
  end.

Definition read_overload (s : list tok) : option (overload * list tok) :=
  let* s := expect "template<" s in
  let* (ts, s) := words (length s) "typename" ">" s in
  let* s := expect "inline typename enable_if< mpl::equal<mpl::int_<" s in
  let* (n, s) := number s in
  let* s := expect ">, MessageArity<" s in
  let* (m, s) := until ">" s in
  let* s := expect ">, void>::type send(transmitters::TransmitterBase<TransmitterDerived> & tx" s in
  let* (fs, ws, s) := parameters (length s) s in
  let* s := expect "{ ::transmission::send<" s in
  let* (c, s) := until "," s in
  let* (m', s) := until ">" s in
  let* s := expect "( tx, fusion::make_list(" s in
  let* (args, s) := match s with
                    | P q :: s' => if Ascii.eqb q ")" then Some ([], s') else None
                    | _ => words (length s) "" ")" s
                    end in
  let* s := expect "); }" s in
  Some (Overload ts n m fs ws (c, m') args, s).

(** The overloads between #if FUSION_MAX_LIST_SIZE >= N and #endif. *)
Record section := Section { sec_guard : nat; sec_overloads : list overload }.

Fixpoint overloads (fuel : nat) (s : list tok) : option (list overload * list tok) :=
  match fuel with
  | O => None
  | S fuel' =>
      match expect "#endif" s with
      | Some s => let* s := eol s in Some ([], s)
      | None => let* (o, s) := read_overload s in let* (os, s) := overloads fuel' s in Some (o :: os, s)
      end
  end.

Fixpoint sections (fuel : nat) (s : list tok) : option (list section * list tok) :=
  match fuel with
  | O => None
  | S fuel' =>
      match expect "#if FUSION_MAX_LIST_SIZE >=" s with
      | None => Some ([], s)
      | Some s =>
          let* (n, s) := number s in
          let* s := eol s in
          let* (os, s) := overloads (length s) s in
          let* (r, s) := sections fuel' s in
          Some (Section n os :: r, s)
      end
  end.

(** #pragma once, and the #ifndef and #define of an include guard. *)
Definition read_guard (s : list tok) : option (string * list tok) :=
  let* s := expect "#pragma once" s in let* s := eol s in
  let* s := expect "#ifndef" s in let* (g, s) := word s in let* s := eol s in
  let* s := expect "#define" s in let* (g', s) := word s in let* s := eol s in
  if String.eqb g g' then Some (g, s) else None.

(** #include lines; each one without its end. *)
Fixpoint read_includes (fuel : nat) (s : list tok) : option (list (list tok) * list tok) :=
  match fuel with
  | O => None
  | S fuel' =>
      match expect "#include" s with
      | None => Some ([], s)
      | Some s => let* (i, s) := until newline_char s in let* (is, s) := read_includes fuel' s in Some (i :: is, s)
      end
  end.

(** The closing #endif, with nothing behind it. *)
Definition read_end (s : list tok) : option unit :=
  let* s := expect "#endif" s in let* s := eol s in match s with [] => Some tt | _ => None end.

(** The declarations in SendOverloads_Generated.h around the overloads: they begin with that of the send called and end
    with the typedef SendOverloadMaxArity, whose value is read; behind the overloads the namespaces are closed. *)
Definition read_send_opening (s : list tok) : option (nat * list tok) :=
  let* s := expect "namespace transmission {
      template<typename Collection, typename Message, typename TransmitterDerived, typename MessageContentsType>
      void send(transmitters::TransmitterBase<TransmitterDerived> & tx, MessageContentsType const & contents);
      namespace detail { namespace operations { namespace generated {
        namespace mpl = boost::mpl; namespace fusion = boost::fusion; using boost::enable_if;
        typedef mpl::int_<" s in
  let* (n, s) := number s in
  let* s := expect "> SendOverloadMaxArity;" s in
  Some (n, s).
Definition read_send_closing (s : list tok) : option (list tok) :=
  expect "}}} using detail::operations::generated::send; }" s.

(** SendOverloads_Generated.h: the value of SendOverloadMaxArity, and the overloads. *)
Definition read_send_header (text : string) : option (nat * list section) :=
  let s := tokens text in
  let* (_, s) := read_guard s in
  let* (_, s) := read_includes (length s) s in
  let* (n, s) := read_send_opening s in
  let* (secs, s) := sections (S (length s)) s in
  let* s := read_send_closing s in
  let* _ := read_end s in
  Some (n, secs).

(** A type without the keyword typename that may be in front. *)
Definition plain_type (t : list tok) : list tok :=
  match t with W "typename" :: r => r | _ => t end.

(** An overload of send taking a transmitter and [k] fields forwards them, each with the type of the field
    at its position, in the order given. *)
Definition forwards (k : nat) (o : overload) : Prop :=
  ov_arity o = k
  /\ map snd (ov_fields o) = seq 0 k
  /\ Forall (fun f => plain_type (fst f) = plain_type (ov_tested o) ++ tokens "::sequence_type")%list (ov_fields o)
  /\ length (ov_names o) = k /\ NoDup (ov_names o) /\ ~ In "tx" (ov_names o)
  /\ ov_passed o = ov_names o
  /\ snd (ov_called o) = ov_tested o.

(** For [k] fields there are two overloads, which forward that many fields: one with the collection and
    the message type as template parameters, one with a BoundMessageType. *)
Definition overload_pair (k : nat) (os : list overload) : Prop :=
  exists a b, os = [a; b]
  /\ forwards k a
  /\ ov_template a = ["MessageCollectionType"; "MessageType"; "TransmitterDerived"]
  /\ ov_called a = (tokens "MessageCollectionType", tokens "MessageType")
  /\ forwards k b
  /\ ov_template b = ["BoundMessage"; "TransmitterDerived"]
  /\ ov_called b = (tokens "typename BoundMessage::message_collection", tokens "typename BoundMessage::message_type").
Definition both_overloads (s : section) : Prop := overload_pair (sec_guard s) (sec_overloads s).

(** ** The default handlers of PartialHandlerBase.h *)

Record handler_fn := HandlerFn {
  hf_template : list string;       (* template parameters *)
  hf_message : string;             (* type of the first parameter *)
  hf_values : list string;         (* types of the parameters for the values *)
  hf_conditions : list (list tok)  (* types of the further parameters, all with default NULL *)
}.

(** , TYPE ... , typename CONDITION* = NULL ... ) *)
Fixpoint value_types (fuel : nat) (s : list tok) : option (list string * list tok) :=
  match fuel with
  | O => None
  | S fuel' =>
      let* s' := expect "," s in
      match expect "typename" s' with
      | Some _ => Some ([], s)
      | None => let* (w, s) := word s' in let* (ws, s) := value_types fuel' s in Some (w :: ws, s)
      end
  end.
Fixpoint conditions (fuel : nat) (s : list tok) : option (list (list tok) * list tok) :=
  match fuel with
  | O => None
  | S fuel' =>
      match expect ")" s with
      | Some s => Some ([], s)
      | None =>
          let* s := expect ", typename" s in
          let* (c, s) := until "*" s in
          let* s := expect "= NULL" s in
          let* (cs, s) := conditions fuel' s in Some (c :: cs, s)
      end
  end.

Definition read_handler_fn (s : list tok) : option (handler_fn * list tok) :=
  let* s := expect "template<" s in
  let* (ts, s) := words (length s) "typename" ">" s in
  let* s := expect "void operator()(" s in
  let* (m, s) := word s in
  let* s := expect "const &" s in
  let* (vs, s) := value_types (length s) s in
  let* (cs, s) := conditions (length s) s in
  let* s := expect "{}" s in
  Some (HandlerFn ts m vs cs, s).

Fixpoint handler_fns (fuel : nat) (s : list tok) : option (list handler_fn * list tok) :=
  match fuel with
  | O => None
  | S fuel' =>
      match expect "template" s with
      | None => Some ([], s)
      | Some _ => let* (f, s) := read_handler_fn s in let* (fs, s) := handler_fns fuel' s in Some (f :: fs, s)
      end
  end.

(** The class around them. *)
Definition read_partial_opening (s : list tok) : option (list tok) :=
  expect "namespace transmission {
    template<typename Derived> class PartialHandlerBase : public ParameterHandlerBase<Derived> {
      public: using ParameterHandlerBase<Derived>::operator();" s.

(** The functions of the class, which must be all of it. *)
Definition read_partial_header (text : string) : option (list handler_fn) :=
  let s := tokens text in
  let* (_, s) := read_guard s in
  let* (_, s) := read_includes (length s) s in
  let* s := read_partial_opening s in
  let* (fs, s) := handler_fns (S (length s)) s in
  let* s := expect "}; }" s in
  let* _ := read_end s in
  Some fs.

(** A function accepting any message type and any [k] values, for one value not a Fusion sequence. *)
Definition accepts_any (k : nat) (f : handler_fn) : Prop :=
  length (hf_values f) = k
  /\ hf_template f = hf_message f :: hf_values f /\ NoDup (hf_template f)
  /\ hf_conditions f =
       (tokens (hf_message f ++ "::message_type_tag")
        :: match hf_values f with
           | [t] => [tokens ("boost::disable_if<boost::fusion::traits::is_sequence<" ++ t ++ "> >::type")]
           | _ => []
           end)%list.

(** ** The limits in ArityConfig.h *)

(** #ifndef NAME #define NAME N #endif *)
Definition read_define (s : list tok) : option ((string * nat) * list tok) :=
  let* s := expect "#ifndef" s in let* (w, s) := word s in let* s := eol s in
  let* s := expect "#define" s in let* (w', s) := word s in let* (n, s) := number s in let* s := eol s in
  let* s := expect "#endif" s in let* s := eol s in
  if String.eqb w w' then Some ((w, n), s) else None.

(** Behind the include guard, two limits and the enumeration. *)
Definition read_config (s : list tok) : option ((string * nat) * (string * nat) * (string * nat)) :=
  let* (_, s) := read_guard s in
  let* (d1, s) := read_define s in
  let* (d2, s) := read_define s in
  let* s := expect "namespace transmission { namespace detail { namespace constants { enum {" s in
  let* (w, s) := word s in
  let* s := expect "=" s in
  let* (n, s) := number s in
  let* s := expect "}; } } }" s in
  let* _ := read_end s in
  Some (d1, d2, (w, n)).
Definition read_config_header (text : string) := read_config (tokens text).

(** ** Preprocessing *)

(** The value of each macro defined. *)
Definition macros := string -> option (list tok).
Definition define (x : string) (v : list tok) (ms : macros) : macros := fun y => if String.eqb y x then Some v else ms y.

(** The number that a macro stands for in a condition; 0 if it is not defined. *)
Definition macro_value (ms : macros) (x : string) : option nat :=
  match ms x with
  | None => Some 0
  | Some [W w] => match NilEmpty.uint_of_string w with Some d => Some (Nat.of_uint d) | None => None end
  | Some _ => None
  end.

(** A directive without its # and its end, or a token of the text. *)
Inductive item := Dir (d : list tok) | Text (t : tok).
Fixpoint items (directive : option (list tok)) (s : list tok) : option (list item) :=
  match s with
  | [] => match directive with None => Some [] | Some _ => None end
  | t :: s' =>
      match directive with
      | Some d => if tok_eqb (P newline_char) t then let* r := items None s' in Some (Dir d :: r)
                  else items (Some (d ++ [t])%list) s'
      | None => if tok_eqb (P "#") t then items (Some []) s'
                else let* r := items None s' in Some (Text t :: r)
      end
  end.

(** The conditions around the place reached: does each hold? *)
Record pp_state := PP { pp_macros : macros; pp_conditions : list bool; pp_includes : list (list tok); pp_text : list tok }.
Definition pp_active (st : pp_state) : bool := forallb (fun b => b) (pp_conditions st).
Definition pp_if (b : bool) (st : pp_state) : pp_state :=
  PP (pp_macros st) (b :: pp_conditions st) (pp_includes st) (pp_text st).

(** One item.  Directives other than those used in the generated headers are not known; macros are not
    replaced in the text (none of its words is one). *)
Definition pp_step (st : pp_state) (i : item) : option pp_state :=
  let 'PP ms cs is ts := st in
  match i with
  | Text t => Some (if pp_active st then PP ms cs is (ts ++ [t]) else st)%list
  | Dir [W "endif"] => match cs with [] => None | _ :: cs' => Some (PP ms cs' is ts) end
  | Dir [W "ifndef"; W x] => Some (pp_if (match ms x with None => true | Some _ => false end) st)
  | Dir [W "if"; W x; P ">"; P "="; W w] =>
      if pp_active st then
        let* v := macro_value ms x in
        let* d := NilEmpty.uint_of_string w in
        Some (pp_if (Nat.leb (Nat.of_uint d) v) st)
      else Some (pp_if false st)
  | Dir (W "define" :: W x :: v) => Some (if pp_active st then PP (define x v ms) cs is ts else st)
  | Dir (W "include" :: f) => Some (if pp_active st then PP ms cs (is ++ [f]) ts else st)%list
  | Dir [W "pragma"; W "once"] => Some st
  | Dir _ => if pp_active st then None else Some st
  end.

Fixpoint pp_run (st : pp_state) (l : list item) : option pp_state :=
  match l with [] => Some st | i :: l' => let* st := pp_step st i in pp_run st l' end.

(** Preprocessing a text with the macros [ms]: the macros behind it, the files to include, and the tokens left. *)
Definition preprocess (ms : macros) (text : string) : option (macros * list (list tok) * list tok) :=
  let* l := items None (tokens text) in
  let* st := pp_run (PP ms [] [] []) l in
  match pp_conditions st with [] => Some (pp_macros st, pp_includes st, pp_text st) | _ => None end.

(** The macros against reading ArityConfig.h and SendOverloads_Generated.h twice. *)
Definition config_guard : string := "INCLUDED_FusionConfig_h_GUID_e185dc4f_3d12_4f22_ae37_ee131be6d12a".
Definition send_guard : string := "INCLUDED_SendOverloads_Generated_h_GUID_ceb4f589_526e_49d7_84c5_0b38f6d1fc42".

(** SendOverloads_Generated.h when preprocessed: the value of SendOverloadMaxArity and the overloads. *)
Fixpoint plain_overloads (fuel : nat) (s : list tok) : option (list overload * list tok) :=
  match fuel with
  | O => None
  | S fuel' =>
      match expect "template" s with
      | None => Some ([], s)
      | Some _ => let* (o, s) := read_overload s in let* (os, s) := plain_overloads fuel' s in Some (o :: os, s)
      end
  end.
Definition read_sends (s : list tok) : option (nat * list overload) :=
  let* (n, s) := read_send_opening s in
  let* (os, s) := plain_overloads (S (length s)) s in
  let* s := read_send_closing s in
  match s with [] => Some (n, os) | _ => None end.

(** The name of the generating script is printed inside a bracketed comment. *)
Definition comment_safe (s : string) : Prop := forall n, String.get n s <> Some "*"%char.
