(** The declarations in the headers that the scripts generate. *)
From Coq Require Import Lia DecimalNat Bool.
From Verif Require Export Generate SpecGenerate.
Local Open Scope string_scope.

Lemma sapp_assoc (a b c : string) : (a ++ b) ++ c = a ++ b ++ c.
Proof. induction a as [|x a IH]; cbn [append]; [reflexivity | rewrite IH; reflexivity]. Qed.
Lemma sapp_nil (a : string) : a ++ "" = a.
Proof. induction a as [|x a IH]; cbn [append]; [reflexivity | rewrite IH; reflexivity]. Qed.

(** ** Lexing piece by piece *)

Fixpoint run (st : lexing) (s : string) : list tok * lexing :=
  match s with
  | EmptyString => ([], st)
  | String c r => let '(t, st1) := lex_step st c in let '(t2, st2) := run st1 r in ((t ++ t2)%list, st2)
  end.

Lemma lex_run s : forall st r, lex st (s ++ r) = (fst (run st s) ++ lex (snd (run st s)) r)%list.
Proof.
  induction s as [|c s IH]; intros st r; [reflexivity|]. cbn [append lex run].
  destruct (lex_step st c) as [t st1]. rewrite IH. destruct (run st1 s) as [t2 st2]. cbn [fst snd].
  apply app_assoc.
Qed.

(** Words. *)
Fixpoint wordy (s : string) : bool :=
  match s with EmptyString => true | String c r => word_char c && wordy r end.

Lemma word_char_out p c : word_char c = true -> from_out p c = ([], InWord (inside p) (String c "")).
Proof. destruct c as [[] [] [] [] [] [] [] []]; vm_compute; intros H; try discriminate H; reflexivity. Qed.

Lemma lex_in_word p w : forall v r, wordy w = true -> lex (InWord p v) (w ++ r) = lex (InWord p (v ++ w)) r.
Proof.
  induction w as [|c w IH]; intros v r H; [rewrite sapp_nil; reflexivity|].
  cbn [wordy] in H. apply andb_prop in H as (Hc & Hw). cbn [append lex lex_step]. rewrite Hc. cbn [app].
  rewrite IH by exact Hw. rewrite sapp_assoc. reflexivity.
Qed.

Lemma lex_word p w r : wordy w = true -> w <> "" -> lex (Out p) (w ++ r) = lex (InWord (inside p) w) r.
Proof.
  destruct w as [|c w]; intros H Hne; [contradiction|].
  cbn [wordy] in H. apply andb_prop in H as (Hc & Hw). cbn [append lex lex_step].
  rewrite (word_char_out p c Hc). cbn [app]. rewrite lex_in_word by exact Hw. reflexivity.
Qed.

Lemma lex_line_comment p w : forall r, wordy w = true -> lex (LineComment p) (w ++ r) = lex (LineComment p) r.
Proof.
  induction w as [|c w IH]; intros r H; [reflexivity|].
  cbn [wordy] in H. apply andb_prop in H as (Hc & Hw). cbn [append lex lex_step].
  replace (Ascii.eqb c newline_char) with false; [apply IH, Hw|].
  destruct (Ascii.eqb_spec c newline_char) as [->|]; [discriminate | reflexivity].
Qed.

Definition ends_word (s : string) : bool := match s with EmptyString => false | String c _ => negb (word_char c) end.
Lemma lex_end p w s r : ends_word s = true -> lex (InWord p w) (s ++ r) = W w :: lex (Out p) (s ++ r).
Proof.
  destruct s as [|c s]; [discriminate|]. cbn [ends_word append lex lex_step]. intros H.
  apply negb_true_iff in H. rewrite H. destruct (from_out p c) as [t st]. reflexivity.
Qed.

(** Numbers. *)
Lemma uint_wordy d : wordy (NilEmpty.string_of_uint d) = true.
Proof. induction d; cbn [NilEmpty.string_of_uint wordy]; auto. Qed.
Lemma dec_wordy n : wordy (dec n) = true.
Proof. apply uint_wordy. Qed.
Lemma dec_ne n : dec n <> "".
Proof.
  unfold dec. pose proof (Unsigned.to_of (Nat.to_uint n)) as H. rewrite Unsigned.of_to in H.
  destruct (Nat.to_uint n); [discriminate H | discriminate..].
Qed.
Lemma lex_dec p n r : lex (Out p) (dec n ++ r) = lex (InWord (inside p) (dec n)) r.
Proof. apply lex_word; [apply dec_wordy | apply dec_ne]. Qed.
Lemma number_dec n s : number (W (dec n) :: s) = Some (n, s).
Proof. cbn [number]. unfold dec. rewrite NilEmpty.usu, Unsigned.of_to. reflexivity. Qed.
Lemma dec_inj a b : dec a = dec b -> a = b.
Proof. intros H. pose proof (number_dec a []) as A. pose proof (number_dec b []) as B. rewrite H in A. congruence. Qed.

(** The script's name. *)
Lemma lex_source p s : comment_safe s -> forall r, lex (BlockComment p) (s ++ r) = lex (BlockComment p) r.
Proof.
  induction s as [|c s IH]; intros H r; [reflexivity|]. cbn [append lex lex_step].
  destruct (Ascii.eqb_spec c "*") as [->|_]; [exfalso; exact (H 0%nat eq_refl)|]. cbn [app].
  apply IH. intros n. exact (H (S n)).
Qed.

(** Types: they end inside a word. *)
Definition type_text (s : string) (t : list tok) : Prop :=
  exists t0 w, run (Out InLine) s = (t0, InWord InLine w) /\ t = (t0 ++ [W w])%list.
Lemma lex_type s t u r : type_text s t -> ends_word u = true -> lex (Out InLine) (s ++ u ++ r) = (t ++ lex (Out InLine) (u ++ r))%list.
Proof.
  intros (t0 & w & E & ->) Hu. rewrite lex_run, E. cbn [fst snd]. rewrite lex_end by exact Hu.
  rewrite <- app_assoc. reflexivity.
Qed.

(** ** Lines *)

Definition unlines (l : list string) : string := fold_right (fun a r => a ++ newline ++ r) "" l.
Lemma join_lines l : l <> [] -> String.concat newline l ++ newline = unlines l.
Proof.
  induction l as [|a l IH]; intros H; [contradiction|]. destruct l as [|b l].
  - cbn [String.concat unlines fold_right]. rewrite sapp_nil. reflexivity.
  - change (String.concat newline (a :: b :: l)) with (a ++ newline ++ String.concat newline (b :: l)).
    rewrite !sapp_assoc, IH by discriminate. reflexivity.
Qed.
Lemma unlines_app a b : unlines (a ++ b)%list = unlines a ++ unlines b.
Proof. induction a as [|x a IH]; [reflexivity|]. cbn. change (fold_right _ _ (a ++ b)%list) with (unlines (a ++ b)%list).
  rewrite IH. rewrite !sapp_assoc. reflexivity. Qed.
Lemma unlines_concat ls : unlines (List.concat ls) = fold_right (fun l r => unlines l ++ r) "" ls.
Proof. induction ls as [|l ls IH]; [reflexivity|]. cbn [List.concat fold_right]. rewrite unlines_app, IH. reflexivity. Qed.

Lemma all_some {A} (f : nat -> option A) (g : nat -> A) l : (forall i, f i = Some (g i)) -> all (map f l) = Some (map g l).
Proof. intros H. induction l as [|i l IH]; [reflexivity|]. cbn [map all]. rewrite H. cbn [lua_bind]. rewrite IH. reflexivity. Qed.

(** Lexing the next literal piece. *)
Ltac lit :=
  match goal with
  | |- context [lex (InWord ?p ?w) (?s ++ ?r)] => rewrite (lex_end p w s r) by reflexivity
  | |- context [lex ?st (?s ++ ?r)] =>
      rewrite (lex_run s st r); let x := eval vm_compute in (run st s) in change (run st s) with x; cbn [fst snd app]
  end.

(** Reading the next literal tokens. *)
Ltac exp :=
  match goal with
  | |- context [expect ?t ?s] =>
      let w := eval vm_compute in (tokens t) in change (expect t s) with (eat w s);
      cbn [eat tok_eqb String.eqb Ascii.eqb Bool.eqb then_]
  end.

(** ** The overloads of send *)

Definition parameter_text (sq : string) (i : nat) : string :=
  "typename mpl::at_c<" ++ sq ++ ", " ++ dec (i - 1) ++ ">::type a" ++ dec i.
Lemma send_parameter_text sq i : send_parameter sq i = Some (parameter_text sq i).
Proof.
  unfold send_parameter, parameter_text. cbn [fmt lua_bind]. rewrite sapp_nil. reflexivity.
Qed.

Definition parameter_toks (sq : list tok) (i : nat) : list tok :=
  ([P ","; W "typename"; W "mpl"; P ":"; P ":"; W "at_c"; P "<"]
   ++ sq ++ [P ","; W (dec (i - 1)); P ">"; P ":"; P ":"; W "type"; W ("a" ++ dec i)])%list.

Lemma concat_cons sep a l : String.concat sep (a :: l) = a ++ fold_right (fun b r => sep ++ b ++ r) "" l.
Proof.
  revert a. induction l as [|b l IH]; intros a; [cbn; rewrite sapp_nil; reflexivity|].
  change (String.concat sep (a :: b :: l)) with (a ++ sep ++ String.concat sep (b :: l)). rewrite IH. reflexivity.
Qed.

Definition sep_text : string := "," ++ newline ++ indent 4 0 0 ++ "     ".

Lemma lex_parameters sq sqt u r : type_text sq sqt -> ends_word u = true -> forall l w,
  lex (InWord InLine w) (fold_right (fun b r => sep_text ++ b ++ r) "" (map (parameter_text sq) l) ++ u ++ r)
  = (W w :: flat_map (parameter_toks sqt) l ++ lex (Out InLine) (u ++ r))%list.
Proof.
  intros Hsq Hu. induction l as [|i l IH]; intros w; [cbn [map fold_right append flat_map app]; rewrite lex_end by exact Hu; reflexivity|].
  cbn [map fold_right flat_map]. rewrite !sapp_assoc.
  rewrite (lex_end InLine w sep_text) by reflexivity. lit.
  unfold parameter_text at 1. rewrite !sapp_assoc. lit. rewrite (lex_type sq sqt) by (assumption || reflexivity).
  lit. rewrite lex_dec. lit. lit. rewrite lex_in_word by apply dec_wordy. rewrite IH.
  unfold parameter_toks at 2. rewrite <- !app_assoc. cbn [app]. reflexivity.
Qed.

Definition name_toks (l : list string) : list tok :=
  match l with [] => [] | a :: l => W a :: flat_map (fun b => [P ","; W b]) l end.

Lemma lex_names u r l : ends_word u = true -> Forall (fun a => wordy a = true /\ a <> "") l ->
  lex (Out InLine) (String.concat ", " l ++ u ++ r) = (name_toks l ++ lex (Out InLine) (u ++ r))%list.
Proof.
  intros Hu H. destruct l as [|a l]; [reflexivity|]. inversion H as [|? ? (Ha & Hn) Hl]; subst.
  rewrite concat_cons, !sapp_assoc. rewrite lex_word by assumption. cbn [name_toks]. clear H Ha Hn. revert a.
  induction l as [|b l IH]; intros a.
  - cbn [fold_right append flat_map app]. rewrite lex_end by exact Hu. reflexivity.
  - inversion Hl as [|? ? (Hb & Hbn) Hl']; subst. cbn [fold_right flat_map]. rewrite !sapp_assoc.
    lit. lit. rewrite lex_word by assumption. rewrite IH by assumption. reflexivity.
Qed.

Definition field_name (i : nat) : string := "a" ++ dec i.

(** The tokens of one overload behind its template head. *)
Definition helper_toks (k : nat) (c m sq : list tok) : list tok :=
  ([W "inline"; W "typename"; W "enable_if"; P "<"; W "mpl"; P ":"; P ":"; W "equal"; P "<"; W "mpl"; P ":"; P ":"; W "int_"; P "<";
    W (dec k); P ">"; P ","; W "MessageArity"; P "<"] ++ m ++ [P ">"; P ">"; P ","; W "void"; P ">"; P ":"; P ":"; W "type";
    W "send"; P "("; W "transmitters"; P ":"; P ":"; W "TransmitterBase"; P "<"; W "TransmitterDerived"; P ">"; P "&"; W "tx"]
   ++ flat_map (parameter_toks sq) (seq 1 k)
   ++ [P ")"; P "{"; P ":"; P ":"; W "transmission"; P ":"; P ":"; W "send"; P "<"] ++ c ++ [P ","] ++ m
   ++ [P ">"; P "("; W "tx"; P ","; W "fusion"; P ":"; P ":"; W "make_list"; P "("] ++ name_toks (map field_name (seq 1 k))
   ++ [P ")"; P ")"; P ";"; P "}"])%list.

Lemma field_names_wordy l : Forall (fun a => wordy a = true /\ a <> "") (map field_name l).
Proof.
  apply Forall_forall. intros a H. apply in_map_iff in H as (i & <- & _). split; [|discriminate].
  unfold field_name. cbn [append wordy]. apply dec_wordy.
Qed.

Lemma helper_lexes k C M SQ c m sq : type_text C c -> type_text M m -> type_text SQ sq ->
  exists ls, generate_helper k C M SQ = Some ls
    /\ forall r, lex (Out LineStart) (unlines ls ++ r) = (helper_toks k c m sq ++ lex (Out LineStart) r)%list.
Proof.
  intros HC HM HS. unfold generate_helper.
  assert (fmt "inline typename enable_if< mpl::equal<mpl::int_<%d>, MessageArity<%s> >, void>::type" [dec k; M]
    = Some ("inline typename enable_if< mpl::equal<mpl::int_<" ++ dec k ++ ">, MessageArity<" ++ M ++ "> >, void>::type")) as -> by reflexivity.
  cbn [lua_bind]. rewrite (all_some _ (parameter_text SQ)) by apply send_parameter_text. cbn [lua_bind].
  assert (forall a, fmt ("send(%s) {" ++ newline) [a] = Some ("send(" ++ a ++ ") {" ++ newline)) as -> by reflexivity.
  cbn [lua_bind].
  assert (fmt "::transmission::send<%s, %s>(" [C; M] = Some ("::transmission::send<" ++ C ++ ", " ++ M ++ ">(")) as -> by reflexivity.
  cbn [lua_bind]. eexists. split; [reflexivity|]. intros r.
  cbn [unlines fold_right]. unfold out. rewrite !sapp_assoc. fold sep_text. rewrite concat_cons, !sapp_assoc.
  lit. lit. rewrite lex_dec. lit. lit. rewrite (lex_type M m) by (assumption || reflexivity).
  lit. lit. lit. lit. lit. lit. rewrite (lex_parameters SQ sq) by (assumption || reflexivity).
  do 5 lit. rewrite (lex_type C c) by (assumption || reflexivity). lit. rewrite (lex_type M m) by (assumption || reflexivity).
  do 7 lit. unfold gen_range. fold field_name. change (fun i => "a" ++ dec i) with field_name.
  rewrite lex_names by (reflexivity || apply field_names_wordy).
  do 7 lit. unfold helper_toks. rewrite <- !app_assoc. cbn [app].
  reflexivity.
Qed.

(** Reading them back. *)
Lemma eat_app want s : eat want (want ++ s)%list = Some s.
Proof.
  induction want as [|t want IH]; [destruct s; reflexivity|]. cbn [app eat].
  replace (tok_eqb t t) with true; [exact IH|]. destruct t; cbn [tok_eqb]; symmetry; [apply String.eqb_refl | apply Ascii.eqb_refl].
Qed.
Lemma expect_app text t s : tokens text = t -> expect text (t ++ s)%list = Some s.
Proof. intros <-. apply eat_app. Qed.

Definition no_p (p : ascii) (l : list tok) : bool := forallb (fun t => negb (tok_eqb (P p) t)) l.
Lemma until_app p l s : no_p p l = true -> until p (l ++ P p :: s)%list = Some (l, s).
Proof.
  induction l as [|x l IH]; intros H.
  - cbn [app until]. cbn [tok_eqb]. rewrite Ascii.eqb_refl. reflexivity.
  - cbn [no_p forallb] in H. apply andb_prop in H as (Hx & Hl). cbn [app until].
    apply negb_true_iff in Hx. rewrite Hx. rewrite IH by exact Hl. reflexivity.
Qed.

Lemma parameters_read sq l : no_p "," sq = true -> forall fuel s, (length l < fuel)%nat ->
  parameters fuel (flat_map (parameter_toks sq) l ++ P ")" :: s)%list
  = Some (map (fun i => (sq, (i - 1)%nat)) l, map field_name l, s).
Proof.
  intros Hsq. induction l as [|i l IH]; intros fuel s Hf; (destruct fuel as [|fuel]; [cbn in Hf; lia|]); [reflexivity|].
  cbn [flat_map]. unfold parameter_toks at 1. rewrite <- !app_assoc. cbn [app parameters].
  change (Ascii.eqb "," ")") with false. change (Ascii.eqb "," ",") with true. cbv iota.
  exp. rewrite until_app by exact Hsq. cbn [then_]. rewrite number_dec. cbn [then_]. exp. cbn [word then_].
  rewrite IH by (cbn [length] in Hf; lia). reflexivity.
Qed.

Lemma words_read l : l <> [] -> forall fuel p s, (length l <= fuel)%nat -> Ascii.eqb "," p = false ->
  words fuel "" p (name_toks l ++ P p :: s)%list = Some (l, s).
Proof.
  induction l as [|a l IH]; intros Hne fuel p s Hf Hp; [contradiction|]. destruct fuel as [|fuel]; [cbn in Hf; lia|].
  destruct l as [|b l].
  - cbn [name_toks flat_map app words]. exp. cbn [word then_]. rewrite Ascii.eqb_refl. reflexivity.
  - cbn [name_toks flat_map app words]. exp. cbn [word then_]. rewrite Hp. change (Ascii.eqb "," ",") with true. cbv iota.
    change (W b :: flat_map (fun b => [P ","; W b]) l ++ P p :: s)%list with (name_toks (b :: l) ++ P p :: s)%list.
    rewrite IH by (discriminate || assumption || (cbn [length] in *; lia)). reflexivity.
Qed.

Definition typename_toks (l : list string) : list tok :=
  match l with [] => [] | a :: l => W "typename" :: W a :: flat_map (fun b => [P ","; W "typename"; W b]) l end.
Lemma typenames_read l : l <> [] -> forall fuel p s, (length l <= fuel)%nat -> Ascii.eqb "," p = false ->
  words fuel "typename" p (typename_toks l ++ P p :: s)%list = Some (l, s).
Proof.
  induction l as [|a l IH]; intros Hne fuel p s Hf Hp; [contradiction|]. destruct fuel as [|fuel]; [cbn in Hf; lia|].
  destruct l as [|b l].
  - cbn [typename_toks flat_map app words]. exp. cbn [word then_]. rewrite Ascii.eqb_refl. reflexivity.
  - cbn [typename_toks flat_map app words]. exp. cbn [word then_]. rewrite Hp. change (Ascii.eqb "," ",") with true. cbv iota.
    change (W "typename" :: W b :: flat_map (fun b => [P ","; W "typename"; W b]) l ++ P p :: s)%list
      with (typename_toks (b :: l) ++ P p :: s)%list.
    rewrite IH by (discriminate || assumption || (cbn [length] in *; lia)). reflexivity.
Qed.

Definition overload_toks (ts : list string) (k : nat) (c m sq : list tok) : list tok :=
  ([W "template"; P "<"] ++ typename_toks ts ++ [P ">"] ++ helper_toks k c m sq)%list.

Lemma flat_length {A B} (f : A -> list B) l : (forall x, 1 <= length (f x))%nat -> (length l <= length (flat_map f l))%nat.
Proof.
  intros H. induction l as [|x l IH]; cbn [flat_map length]; [lia|]. rewrite app_length. specialize (H x). lia.
Qed.
Lemma typename_toks_length l : (length l <= length (typename_toks l))%nat.
Proof.
  destruct l as [|a l]; cbn [typename_toks length]; [lia|].
  pose proof (flat_length (fun b => [P ","; W "typename"; W b]) l ltac:(intros; cbn; lia)). lia.
Qed.
Lemma name_toks_length l : (length l <= length (name_toks l))%nat.
Proof.
  destruct l as [|a l]; cbn [name_toks length]; [lia|].
  pose proof (flat_length (fun b => [P ","; W b]) l ltac:(intros; cbn; lia)). lia.
Qed.

Definition the_overload (ts : list string) (k : nat) (c m sq : list tok) : overload :=
  Overload ts k m (map (fun i => (sq, (i - 1)%nat)) (seq 1 k)) (map field_name (seq 1 k)) (c, m) (map field_name (seq 1 k)).

Lemma overload_read ts k c m sq s : ts <> [] -> no_p "," sq = true -> no_p ">" m = true -> no_p "," c = true ->
  read_overload (overload_toks ts k c m sq ++ s)%list = Some (the_overload ts k c m sq, s).
Proof.
  intros Hts Hsq Hm Hc. unfold overload_toks, read_overload. rewrite <- !app_assoc. cbn [app].
  exp. cbn [then_]. rewrite typenames_read; [|exact Hts| |reflexivity].
  2:{ rewrite app_length. pose proof (typename_toks_length ts). lia. }
  cbn [then_]. unfold helper_toks. rewrite <- !app_assoc. cbn [app]. exp. cbn [then_]. rewrite number_dec. cbn [then_].
  exp. cbn [then_]. rewrite until_app by exact Hm. cbn [then_]. exp. cbn [then_].
  rewrite parameters_read; [|exact Hsq|].
  2:{ rewrite app_length. cbn [length]. pose proof (flat_length (parameter_toks sq) (seq 1 k)) as H.
      assert (forall x, 1 <= length (parameter_toks sq x))%nat as H1 by (intros x; unfold parameter_toks; cbn; lia).
      specialize (H H1). lia. }
  cbn [then_]. exp. cbn [then_]. rewrite until_app by exact Hc. cbn [then_]. rewrite until_app by exact Hm. cbn [then_].
  exp. cbn [then_]. destruct k as [|k].
  - cbn [seq map name_toks app]. cbn [Ascii.eqb Bool.eqb then_]. exp. reflexivity.
  - set (l := map field_name (seq 1 (S k))) in *.
    assert (l <> []) as Hl by discriminate.
    assert (match name_toks l with P _ :: _ => False | [] => False | _ => True end) as Hh by exact I.
    destruct (name_toks l ++ P ")" :: P ")" :: P ";" :: P "}" :: s)%list as [|[w|q] rest] eqn:E.
    + destruct (name_toks l); discriminate.
    + rewrite <- E. rewrite words_read; [|exact Hl| |reflexivity].
      2:{ rewrite app_length. pose proof (name_toks_length l). lia. }
      cbn [then_]. exp. reflexivity.
    + exfalso. destruct (name_toks l) as [|[w|q0] nt]; cbn in E; try contradiction. discriminate.
Qed.

(** The lines for one arity. *)
Definition sq_toks (m : list tok) : list tok := (m ++ [P ":"; P ":"; W "sequence_type"])%list.
Definition message1 : list tok := [W "MessageType"].
Definition message2 : list tok := [W "typename"; W "BoundMessage"; P ":"; P ":"; W "message_type"].
Definition overload1 (k : nat) : overload :=
  the_overload ["MessageCollectionType"; "MessageType"; "TransmitterDerived"] k [W "MessageCollectionType"] message1 (W "typename" :: sq_toks message1).
Definition overload2 (k : nat) : overload :=
  the_overload ["BoundMessage"; "TransmitterDerived"] k [W "typename"; W "BoundMessage"; P ":"; P ":"; W "message_collection"]
    message2 (sq_toks message2).

Definition section_toks (k : nat) : list tok :=
  ([P "#"; W "if"; W "FUSION_MAX_LIST_SIZE"; P ">"; P "="; W (dec k); P "010"]
   ++ overload_toks ["MessageCollectionType"; "MessageType"; "TransmitterDerived"] k [W "MessageCollectionType"] message1
        (W "typename" :: sq_toks message1)
   ++ overload_toks ["BoundMessage"; "TransmitterDerived"] k [W "typename"; W "BoundMessage"; P ":"; P ":"; W "message_collection"]
        message2 (sq_toks message2)
   ++ [P "#"; W "endif"; P "010"])%list.

Ltac type_text := eexists; eexists; split; [vm_compute; reflexivity | reflexivity].

Lemma section_lexes k : exists ls, send_generate k = Some ls
  /\ forall r, lex (Out LineStart) (unlines ls ++ r) = (section_toks k ++ lex (Out LineStart) r)%list.
Proof.
  unfold send_generate.
  destruct (helper_lexes k "MessageCollectionType" "MessageType" "typename MessageType::sequence_type"
              [W "MessageCollectionType"] message1 (W "typename" :: sq_toks message1)) as (o1 & -> & H1); [type_text..|].
  destruct (helper_lexes k "typename BoundMessage::message_collection" "typename BoundMessage::message_type"
              "typename BoundMessage::message_type::sequence_type"
              [W "typename"; W "BoundMessage"; P ":"; P ":"; W "message_collection"] message2 (sq_toks message2)) as (o2 & -> & H2); [type_text..|].
  assert (fmt "#if FUSION_MAX_LIST_SIZE >= %d" [dec k] = Some ("#if FUSION_MAX_LIST_SIZE >= " ++ dec k)) as ->
    by (cbn [fmt lua_bind]; rewrite sapp_nil; reflexivity).
  assert (fmt "/// template parameters, and taking a transmitter, plus values for %d message fields directly" [dec k]
    = Some ("/// template parameters, and taking a transmitter, plus values for " ++ dec k ++ " message fields directly")) as -> by reflexivity.
  assert (fmt "/// template parameter, and taking a transmitter, plus values for %d message fields directly" [dec k]
    = Some ("/// template parameter, and taking a transmitter, plus values for " ++ dec k ++ " message fields directly")) as -> by reflexivity.
  cbn [lua_bind]. eexists. split; [reflexivity|]. intros r. rewrite !unlines_app, !sapp_assoc.
  cbn [unlines fold_right]. unfold out. rewrite !sapp_assoc.
  lit. lit. rewrite lex_dec. lit. do 6 lit. rewrite lex_line_comment by apply dec_wordy. do 8 lit.
  lit. rewrite H1. do 5 lit. rewrite lex_line_comment by apply dec_wordy. do 8 lit. lit. rewrite H2. do 4 lit. lit.
  unfold section_toks, overload_toks. cbn [typename_toks flat_map app]. repeat (rewrite <- !app_assoc; cbn [app]). reflexivity.
Qed.

Definition lines_of (k : nat) : list string := match send_generate k with Some l => l | None => [] end.
Lemma send_generate_lines k : send_generate k = Some (lines_of k).
Proof. unfold lines_of. destruct (section_lexes k) as (ls & -> & _). reflexivity. Qed.
Lemma lines_lex k r : lex (Out LineStart) (unlines (lines_of k) ++ r) = (section_toks k ++ lex (Out LineStart) r)%list.
Proof. unfold lines_of. destruct (section_lexes k) as (ls & -> & H). apply H. Qed.

Lemma all_lines_lex l r : lex (Out LineStart) (fold_right (fun l r => unlines l ++ r) "" (map lines_of l) ++ r)
  = (flat_map section_toks l ++ lex (Out LineStart) r)%list.
Proof.
  induction l as [|k l IH]; [reflexivity|]. cbn [map fold_right flat_map]. rewrite sapp_assoc, lines_lex, IH.
  apply app_assoc.
Qed.

(** Sections read back. *)
Definition the_section (k : nat) : section := Section k [overload1 k; overload2 k].

Lemma overloads_read k s fuel : (3 <= fuel)%nat ->
  overloads fuel (overload_toks ["MessageCollectionType"; "MessageType"; "TransmitterDerived"] k [W "MessageCollectionType"] message1
        (W "typename" :: sq_toks message1)
   ++ overload_toks ["BoundMessage"; "TransmitterDerived"] k [W "typename"; W "BoundMessage"; P ":"; P ":"; W "message_collection"]
        message2 (sq_toks message2)
   ++ [P "#"; W "endif"; P "010"] ++ s)%list = Some ([overload1 k; overload2 k], s).
Proof.
  intros Hf. destruct fuel as [|[|[|fuel]]]; try lia. cbn [overloads].
  assert (forall ts k c m sq s, expect "#endif" (overload_toks ts k c m sq ++ s)%list = None) as HN by reflexivity.
  rewrite HN. rewrite overload_read by (discriminate || reflexivity). cbn [then_].
  rewrite HN. rewrite overload_read by (discriminate || reflexivity). cbn [then_]. exp. destruct s; reflexivity.
Qed.

Lemma sections_read l s : expect "#if FUSION_MAX_LIST_SIZE >=" s = None -> forall fuel, (length l < fuel)%nat ->
  sections fuel (flat_map section_toks l ++ s)%list = Some (map the_section l, s).
Proof.
  intros Hs. induction l as [|k l IH]; intros fuel Hf; (destruct fuel as [|fuel]; [cbn in Hf; lia|]).
  - cbn [flat_map app map sections]. rewrite Hs. reflexivity.
  - cbn [flat_map map]. unfold section_toks at 1. rewrite <- !app_assoc. cbn [app sections]. exp. rewrite number_dec. cbn [then_].
    assert (forall s, eol (P "010" :: s) = Some s) as -> by (intros []; reflexivity). cbn [then_].
    match goal with |- context [overloads ?n (?a ++ ?b ++ P "#" :: W "endif" :: P "010" :: ?r)%list] =>
      change (overloads n (a ++ b ++ P "#" :: W "endif" :: P "010" :: r)%list) with (overloads n (a ++ b ++ [P "#"; W "endif"; P "010"] ++ r)%list) end.
    rewrite overloads_read. 2:{ rewrite app_length. unfold overload_toks at 1. rewrite app_length. cbn [length]. unfold helper_toks.
      rewrite !app_length. cbn [length]. lia. }
    cbn [then_]. rewrite IH by (cbn [length] in Hf; lia). reflexivity.
Qed.

(** ** Whole headers *)

Fixpoint no_percent (s : string) : bool :=
  match s with EmptyString => true | String c r => negb (Ascii.eqb c "%") && no_percent r end.
Lemma fmt_plain s : no_percent s = true -> fmt s [] = Some s.
Proof.
  induction s as [|c s IH]; intros H; [reflexivity|]. cbn [no_percent] in H. apply andb_prop in H as (Hc & Hs).
  specialize (IH Hs). destruct c as [[] [] [] [] [] [] [] []]; cbn [fmt]; rewrite ?IH; try reflexivity. discriminate Hc.
Qed.
Lemma no_percent_app a b : no_percent (a ++ b) = no_percent a && no_percent b.
Proof. induction a as [|c a IH]; [reflexivity|]. cbn [append no_percent]. rewrite IH. apply andb_assoc. Qed.
Lemma uint_plain d : no_percent (NilEmpty.string_of_uint d) = true.
Proof. induction d; cbn [NilEmpty.string_of_uint no_percent]; auto. Qed.
Lemma dec_plain n : no_percent (dec n) = true.
Proof. apply uint_plain. Qed.

(** A text with one %s. *)
Fixpoint before (s : string) : string :=
  match s with EmptyString => "" | String c r => if Ascii.eqb c "%" then "" else String c (before r) end.
Fixpoint behind (s : string) : option string :=
  match s with
  | EmptyString => None
  | String c r => if Ascii.eqb c "%" then match r with String "s" r' => Some r' | _ => None end else behind r
  end.
Lemma fmt_one s b r x : behind s = Some b -> no_percent b = true -> no_percent r = true ->
  fmt (s ++ r) [x] = Some (before s ++ x ++ b ++ r).
Proof.
  intros Hb Hn Hr. revert Hb. induction s as [|c s IH]; intros Hb; [discriminate|]. cbn [before behind append] in *.
  destruct (Ascii.eqb_spec c "%") as [->|Hc].
  - destruct s as [|d s]; [discriminate|]. assert (d = "s"%char /\ s = b) as (-> & ->).
    { destruct d as [[] [] [] [] [] [] [] []]; try discriminate Hb. injection Hb as ->. split; reflexivity. }
    cbn [append fmt]. rewrite fmt_plain; [reflexivity|]. rewrite no_percent_app, Hn, Hr. reflexivity.
  - specialize (IH Hb). destruct c as [[] [] [] [] [] [] [] []]; cbn [fmt append]; rewrite ?IH; try reflexivity. contradiction Hc; reflexivity.
Qed.

Lemma variadic_text prefix suffix generate (g : nat -> list string) lo hi source p :
  fmt prefix [source] = Some p -> (forall i, generate i = Some (g i)) ->
  variadic prefix suffix generate lo hi source
  = Some (p ++ newline ++ fold_right (fun l r => unlines l ++ r) "" (map g (seq lo (hi + 1 - lo))) ++ suffix ++ newline).
Proof.
  intros Hp Hg. unfold variadic. rewrite Hp. cbn [lua_bind]. rewrite (all_some generate g) by exact Hg. cbn [lua_bind].
  rewrite join_lines by discriminate. cbn [unlines fold_right].
  change (fold_right (fun a r => a ++ newline ++ r) "") with unlines. rewrite unlines_app, unlines_concat. cbn [unlines fold_right]. rewrite sapp_nil. reflexivity.
Qed.
