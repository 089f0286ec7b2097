(** Reading the whole headers. *)
From Coq Require Import Lia Bool FinFun.
From Verif Require Export Headers GenerateLemmas.
Local Open Scope string_scope.

Ltac lit_big :=
  match goal with
  | |- context [lex ?st (?s ++ ?r)] =>
      rewrite (lex_run s st r); let x := eval vm_compute in (run st s) in change (run st s) with x; cbn [fst snd]
  end.

(** Reading tokens that are known. *)
Ltac reads t := let x := eval vm_compute in t in replace t with x by (vm_compute; reflexivity); cbn [then_].
Ltac read_guard := match goal with |- context [read_guard ?s] => reads (read_guard s) end.
Ltac includes := match goal with |- context [read_includes ?n ?s] => reads (read_includes n s) end.

(** The first part of the prefix, up to the limit. *)
Definition prefix1 : string := Eval cbv [send_prefix] in
  (fun s => s) ltac:(let x := eval cbv beta delta [send_prefix] in (send_prefix 0) in
                     match x with append ?a _ => exact a end).
Definition prefix2 : string := ltac:(let x := eval cbv beta delta [send_prefix] in (send_prefix 0) in
                     match x with append _ (append _ ?a) => exact a end).
Lemma send_prefix_parts n : send_prefix n = prefix1 ++ dec n ++ prefix2.
Proof. reflexivity. Qed.

Lemma send_reads smin smax source : comment_safe source ->
  exists text, send_header smin smax source = Some text
    /\ read_send_header text = Some (smax, map the_section (seq smin (smax + 1 - smin))).
Proof.
  intros Hs. unfold send_header. rewrite send_prefix_parts.
  destruct (behind prefix1) as [b|] eqn:Eb; [|discriminate].
  assert (fmt (prefix1 ++ dec smax ++ prefix2) [source] = Some (before prefix1 ++ source ++ b ++ dec smax ++ prefix2)) as Hf.
  { apply fmt_one; [exact Eb | injection Eb as <-; reflexivity |]. rewrite no_percent_app, dec_plain. reflexivity. }
  rewrite (variadic_text _ _ _ _ _ _ _ _ Hf send_generate_lines). clear Hf. injection Eb as <-.
  eexists. split; [reflexivity|]. unfold read_send_header, tokens at 1. rewrite !sapp_assoc.
  lit_big. cbn [app]. rewrite (lex_source _ source Hs). lit_big. rewrite lex_dec. cbn [inside].
  lit. lit. lit. rewrite all_lines_lex. cbv zeta.
  match goal with |- context [W (dec smax) :: ?r] => remember (W (dec smax) :: r) as R eqn:ER end.
  read_guard. includes. subst R. unfold read_send_opening. exp. rewrite number_dec. cbn [then_]. exp.
  assert (exists u, lex (Out LineStart) (send_suffix ++ newline) = u /\ expect "#if FUSION_MAX_LIST_SIZE >=" u = None
     /\ exists x, read_send_closing u = Some x /\ read_end x = Some tt) as (u & -> & Hu & x & Hx & He).
  { eexists. split; [vm_compute; reflexivity|]. split; [reflexivity|]. eexists. split; reflexivity. }
  rewrite sections_read; [|exact Hu|].
  2:{ rewrite app_length, <- Nat.add_succ_l. pose proof (flat_length section_toks (seq smin (smax + 1 - smin))) as H.
      assert (forall x, 1 <= length (section_toks x))%nat as H1 by (intros; unfold section_toks; cbn; lia). specialize (H H1). lia. }
  cbn [then_]. rewrite Hx. cbn [then_]. rewrite He. reflexivity.
Qed.

(** ** The default handlers *)

Definition type_name (i : nat) : string := "T" ++ dec i.
Definition tag_toks : list tok := [W "M"; P ":"; P ":"; W "message_type_tag"].
Definition sequence_toks : list tok :=
  [W "boost"; P ":"; P ":"; W "disable_if"; P "<"; W "boost"; P ":"; P ":"; W "fusion"; P ":"; P ":"; W "traits"; P ":"; P ":";
   W "is_sequence"; P "<"; W "T1"; P ">"; P ">"; P ":"; P ":"; W "type"].
Definition condition_toks (c : list tok) : list tok := ([P ","; W "typename"] ++ c ++ [P "*"; P "="; W "NULL"])%list.
Definition the_conditions (k : nat) : list (list tok) := tag_toks :: if Nat.eqb k 1 then [sequence_toks] else [].

Definition handler_toks (k : nat) : list tok :=
  ([W "template"; P "<"] ++ typename_toks ("M" :: map type_name (seq 1 k))
   ++ [P ">"; W "void"; W "operator"; P "("; P ")"; P "("; W "M"; W "const"; P "&"]
   ++ flat_map (fun w => [P ","; W w]) (map type_name (seq 1 k))
   ++ flat_map condition_toks (the_conditions k) ++ [P ")"; P "{"; P "}"])%list.

Lemma type_names_wordy l : Forall (fun a => wordy a = true /\ a <> "") (map type_name l).
Proof.
  apply Forall_forall. intros a H. apply in_map_iff in H as (i & <- & _). split; [|discriminate].
  unfold type_name. cbn [append wordy]. apply dec_wordy.
Qed.

Lemma lex_typenames u r l : ends_word u = true -> Forall (fun a => wordy a = true /\ a <> "") l ->
  lex (Out InLine) (String.concat ", " (map (append "typename ") l) ++ u ++ r) = (typename_toks l ++ lex (Out InLine) (u ++ r))%list.
Proof.
  intros Hu H. destruct l as [|a l]; [reflexivity|]. inversion H as [|? ? (Ha & Hn) Hl]; subst.
  cbn [map]. rewrite concat_cons, !sapp_assoc. lit. rewrite lex_word by assumption. cbn [typename_toks app]. f_equal. clear H Ha Hn. revert a.
  induction l as [|b l IH]; intros a.
  - cbn [map fold_right append flat_map app]. rewrite lex_end by exact Hu. reflexivity.
  - inversion Hl as [|? ? (Hb & Hbn) Hl']; subst. cbn [map fold_right flat_map]. rewrite !sapp_assoc.
    lit. lit. lit. rewrite lex_word by assumption. rewrite IH by assumption. reflexivity.
Qed.

Lemma handler_lexes k : exists ls, partial_generate k = Some ls
  /\ forall r, lex (Out LineStart) (unlines ls ++ r) = (handler_toks k ++ lex (Out LineStart) r)%list.
Proof.
  unfold partial_generate.
  assert (forall a, fmt "template<%s>" [a] = Some ("template<" ++ a ++ ">")) as -> by reflexivity.
  assert (forall a, fmt ("void operator()(%s) {}" ++ newline) [a] = Some ("void operator()(" ++ a ++ ") {}" ++ newline)) as -> by reflexivity.
  cbn [lua_bind]. eexists. split; [reflexivity|]. intros r.
  unfold gen_range. change (fun i => ("T" ++ dec i)%string) with type_name.
  assert (map (fun i => ("typename T" ++ dec i)%string) (seq 1 k) = map (append "typename ") (map type_name (seq 1 k))) as ->
    by (rewrite map_map; reflexivity).
  cbn [unlines fold_right]. unfold out. rewrite !sapp_assoc.
  destruct k as [|k]; [cbn [seq map Nat.ltb Nat.leb Nat.eqb app String.concat]; rewrite !sapp_assoc; repeat lit; reflexivity|].
  pose proof (type_names_wordy (seq 1 (S k))) as Hw. unfold handler_toks, the_conditions.
  set (l := map type_name (seq 1 (S k))) in *. change (Nat.ltb 0 (S k)) with true. cbv iota. cbn [app].
  assert (l <> []) as Hl by discriminate.
  assert (forall x, String.concat ", " ["typename M"; String.concat ", " (map (append "typename ") l)] ++ x
     = "typename M" ++ ", " ++ String.concat ", " (map (append "typename ") l) ++ x) as E1
    by (intros; cbn [String.concat]; rewrite !sapp_assoc; reflexivity).
  rewrite E1. lit. lit. lit. lit. lit. rewrite lex_typenames by (reflexivity || assumption). lit. lit. lit. lit.
  rewrite !concat_cons. cbn [fold_right]. rewrite !sapp_assoc. lit. lit. rewrite lex_names by (reflexivity || assumption).
  assert (forall x, P "," :: name_toks l ++ x = flat_map (fun w => [P ","; W w]) l ++ x)%list as E2
    by (intros; destruct l; [contradiction | reflexivity]).
  assert (forall x, W "M" :: P "," :: typename_toks l ++ x = tl (typename_toks ("M" :: l)) ++ x)%list as E3
    by (intros; destruct l; [contradiction | reflexivity]).
  rewrite E2, E3. change (typename_toks ("M" :: l)) with (W "typename" :: tl (typename_toks ("M" :: l))).
  repeat (rewrite <- !app_assoc; cbn [app]). do 3 f_equal. do 11 f_equal.
  destruct (Nat.eqb (S k) 1); cbn [fold_right]; rewrite ?sapp_assoc; repeat lit; cbn [flat_map condition_toks tag_toks sequence_toks app];
    reflexivity.
Qed.

Lemma value_types_read l s : Forall (fun w => String.eqb "typename" w = false) l -> forall fuel, (length l < fuel)%nat ->
  value_types fuel (flat_map (fun w => [P ","; W w]) l ++ P "," :: W "typename" :: s)%list
  = Some (l, P "," :: W "typename" :: s).
Proof.
  intros H. induction H as [|w l Hw Hl IH]; intros fuel Hf; (destruct fuel as [|fuel]; [cbn in Hf; lia|]); [reflexivity|].
  cbn [flat_map app value_types].
  assert (forall s, expect "," (P "," :: s) = Some s) as -> by (intros s0; destruct s0; reflexivity). cbn [then_].
  assert (forall s, expect "typename" (W w :: s) = None) as ->
    by (intros s0; change (expect "typename" (W w :: s0)) with (if String.eqb "typename" w then eat [] s0 else None); rewrite Hw; reflexivity).
  cbn [word then_]. rewrite IH by (cbn [length] in Hf; lia). reflexivity.
Qed.

Lemma conditions_read l s : Forall (fun c => no_p "*" c = true) l -> forall fuel, (length l < fuel)%nat ->
  conditions fuel (flat_map condition_toks l ++ P ")" :: s)%list = Some (l, s).
Proof.
  intros H. induction H as [|c l Hc Hl IH]; intros fuel Hf; (destruct fuel as [|fuel]; [cbn in Hf; lia|]).
  - cbn [flat_map app conditions]. exp. destruct s; reflexivity.
  - cbn [flat_map]. unfold condition_toks at 1. rewrite <- !app_assoc. cbn [app conditions].
    assert (forall s, expect ")" (P "," :: s) = None) as -> by reflexivity.
    exp. rewrite until_app by exact Hc. cbn [then_]. exp. rewrite IH by (cbn [length] in Hf; lia). reflexivity.
Qed.

Definition the_handler (k : nat) : handler_fn :=
  HandlerFn ("M" :: map type_name (seq 1 k)) "M" (map type_name (seq 1 k)) (the_conditions k).

Lemma handler_read k s : read_handler_fn (handler_toks k ++ s)%list = Some (the_handler k, s).
Proof.
  unfold handler_toks, read_handler_fn. rewrite <- !app_assoc. cbn [app]. exp. cbn [then_].
  rewrite typenames_read; [|discriminate| |reflexivity].
  2:{ rewrite app_length. pose proof (typename_toks_length ("M" :: map type_name (seq 1 k))). lia. }
  cbn [then_]. exp. cbn [word then_]. exp. unfold the_conditions at 1 2. set (l := map type_name (seq 1 k)) in *.
  set (x := (flat_map condition_toks _ ++ P ")" :: P "{" :: P "}" :: s)%list).
  assert (exists y, x = P "," :: W "typename" :: y) as (y & Ey) by (eexists; reflexivity).
  rewrite Ey. rewrite value_types_read.
  2:{ apply Forall_forall. intros w Hw. apply in_map_iff in Hw as (i & <- & _). reflexivity. }
  2:{ rewrite app_length. pose proof (flat_length (fun w => [P ","; W w]) l ltac:(intros; cbn; lia)). cbn [length]. lia. }
  cbn [then_]. rewrite <- Ey. subst x.
  change (tag_toks :: if Nat.eqb k 1 then [sequence_toks] else []) with (the_conditions k). rewrite conditions_read.
  2:{ unfold the_conditions. destruct (Nat.eqb k 1); repeat constructor. }
  2:{ rewrite app_length. pose proof (flat_length condition_toks (the_conditions k) ltac:(intros; unfold condition_toks; cbn; lia)). cbn [length]. lia. }
  cbn [then_]. exp. destruct s; reflexivity.
Qed.

Lemma handlers_read l s : expect "template" s = None -> forall fuel, (length l < fuel)%nat ->
  handler_fns fuel (flat_map handler_toks l ++ s)%list = Some (map the_handler l, s).
Proof.
  intros Hs. induction l as [|k l IH]; intros fuel Hf; (destruct fuel as [|fuel]; [cbn in Hf; lia|]).
  - cbn [flat_map app map handler_fns]. rewrite Hs. reflexivity.
  - cbn [flat_map map handler_fns]. rewrite <- app_assoc.
    assert (exists x, expect "template" (handler_toks k ++ flat_map handler_toks l ++ s)%list = Some x) as (x & ->) by (eexists; reflexivity).
    rewrite handler_read. cbn [then_]. rewrite IH by (cbn [length] in Hf; lia). reflexivity.
Qed.

Definition handler_lines (k : nat) : list string := match partial_generate k with Some l => l | None => [] end.
Lemma partial_generate_lines k : partial_generate k = Some (handler_lines k).
Proof. unfold handler_lines. destruct (handler_lexes k) as (ls & -> & _). reflexivity. Qed.
Lemma handler_lines_lex l r : lex (Out LineStart) (fold_right (fun l r => unlines l ++ r) "" (map handler_lines l) ++ r)
  = (flat_map handler_toks l ++ lex (Out LineStart) r)%list.
Proof.
  induction l as [|k l IH]; [reflexivity|]. cbn [map fold_right flat_map]. rewrite sapp_assoc.
  unfold handler_lines at 1. destruct (handler_lexes k) as (ls & -> & H). rewrite H, IH. apply app_assoc.
Qed.

Lemma partial_reads rmin rmax source : comment_safe source ->
  exists text, partial_header rmin rmax source = Some text
    /\ read_partial_header text = Some (map the_handler (seq rmin (rmax + 1 - rmin))).
Proof.
  intros Hs. unfold partial_header.
  destruct (behind partial_prefix) as [b|] eqn:Eb; [|discriminate].
  assert (fmt partial_prefix [source] = Some (before partial_prefix ++ source ++ b)) as Hf.
  { pose proof (fmt_one partial_prefix b "" source Eb) as H. rewrite !sapp_nil in H.
    apply H; [injection Eb as <-; reflexivity | reflexivity]. }
  rewrite (variadic_text _ _ _ _ _ _ _ _ Hf partial_generate_lines). clear Hf. injection Eb as <-.
  eexists. split; [reflexivity|]. unfold read_partial_header. cbv zeta.
  match goal with |- context [tokens (?a ++ ?b)] => change (tokens (a ++ b)) with (lex (Out LineStart) (a ++ b)) end. rewrite !sapp_assoc.
  lit_big. cbn [app]. rewrite (lex_source _ source Hs). lit_big.
  lit. cbn [app]. rewrite handler_lines_lex.
  match goal with |- context [(flat_map handler_toks ?l ++ ?r)%list] => remember (flat_map handler_toks l ++ r)%list as R eqn:ER end.
  read_guard. includes. unfold read_partial_opening. exp. subst R.
  assert (exists u, lex (Out LineStart) (partial_suffix ++ newline) = u /\ expect "template" u = None
     /\ exists x, expect "}; }" u = Some x /\ read_end x = Some tt) as (u & -> & Hu & x & Hx & He).
  { eexists. split; [vm_compute; reflexivity|]. split; [reflexivity|]. eexists. split; reflexivity. }
  rewrite handlers_read; [|exact Hu|].
  2:{ rewrite app_length, <- Nat.add_succ_l. pose proof (flat_length handler_toks (seq rmin (rmax + 1 - rmin))) as H.
      assert (forall x, 1 <= length (handler_toks x))%nat as H1 by (intros; unfold handler_toks; cbn; lia). specialize (H H1). lia. }
  cbn [then_]. rewrite Hx. cbn [then_]. rewrite He. reflexivity.
Qed.

(** ** The limits *)

Ltac piece :=
  match goal with
  | |- context [lex (Out ?p) (dec ?n ++ ?r)] => rewrite (lex_dec p n r)
  | _ => lit
  end.

Definition config_text (rmax : nat) : list tok :=
  [W "namespace"; W "transmission"; P "{"; W "namespace"; W "detail"; P "{"; W "namespace"; W "constants"; P "{"; W "enum"; P "{";
   W "ReceiveMaxArity"; P "="; W (dec rmax); P "}"; P ";"; P "}"; P "}"; P "}"].
Definition config_toks (smax rmax : nat) : list tok :=
  ([P "#"; W "pragma"; W "once"; P "010"; P "#"; W "ifndef"; W config_guard; P "010"; P "#"; W "define"; W config_guard; P "010";
    P "#"; W "ifndef"; W "FUSION_MAX_LIST_SIZE"; P "010"; P "#"; W "define"; W "FUSION_MAX_LIST_SIZE"; W (dec smax); P "010";
    P "#"; W "endif"; P "010";
    P "#"; W "ifndef"; W "BOOST_FUSION_INVOKE_PROCEDURE_MAX_ARITY"; P "010";
    P "#"; W "define"; W "BOOST_FUSION_INVOKE_PROCEDURE_MAX_ARITY"; W (dec (rmax + 1)); P "010"; P "#"; W "endif"; P "010"]
   ++ config_text rmax ++ [P "#"; W "endif"; P "010"])%list.

Lemma config_tokens smax rmax source : comment_safe source ->
  exists text, config_header smax rmax source = Some text
    /\ tokens text = config_toks smax rmax.
Proof.
  intros Hs. unfold config_header.
  destruct (behind config_prefix) as [b|] eqn:Eb; [|discriminate].
  assert (fmt config_prefix [source] = Some (before config_prefix ++ source ++ b)) as Hf.
  { pose proof (fmt_one config_prefix b "" source Eb) as H. rewrite !sapp_nil in H.
    apply H; [injection Eb as <-; reflexivity | reflexivity]. }
  assert (forall n, fmt "#define FUSION_MAX_LIST_SIZE %d" [dec n] = Some ("#define FUSION_MAX_LIST_SIZE " ++ dec n)) as E1
    by (intros; cbn [fmt lua_bind]; rewrite sapp_nil; reflexivity).
  assert (forall n, fmt "#define BOOST_FUSION_INVOKE_PROCEDURE_MAX_ARITY %d" [dec n]
     = Some ("#define BOOST_FUSION_INVOKE_PROCEDURE_MAX_ARITY " ++ dec n)) as E2
    by (intros; cbn [fmt lua_bind]; rewrite sapp_nil; reflexivity).
  assert (forall n, fmt "ReceiveMaxArity = %d" [dec n] = Some ("ReceiveMaxArity = " ++ dec n)) as E3
    by (intros; cbn [fmt lua_bind]; rewrite sapp_nil; reflexivity).
  pose (d1 := "#define FUSION_MAX_LIST_SIZE " ++ dec smax).
  pose (d2 := "#define BOOST_FUSION_INVOKE_PROCEDURE_MAX_ARITY " ++ dec (rmax + 1)).
  pose (d3 := "ReceiveMaxArity = " ++ dec rmax).
  pose (ls := [out 0 0 0 "#ifndef FUSION_MAX_LIST_SIZE"; out 0 0 0 d1; out 0 0 0 "#endif";
        out 0 0 0 "#ifndef BOOST_FUSION_INVOKE_PROCEDURE_MAX_ARITY"; out 0 0 0 d2; out 0 0 0 "#endif";
        out 0 0 0 "namespace transmission {"; out 0 1 0 "namespace detail {"; out 0 2 0 "namespace constants {";
        out 0 3 0 "enum {"; out 0 4 0 d3; out 0 3 0 "};"; out 0 2 0 "} // end of namespace constants";
        out 0 1 0 "} // end of namespace detail"; out 0 0 0 "} // end of namespace transmission"]).
  assert (forall i : nat, config_generate smax rmax i = Some ((fun _ => ls) i)) as Hg.
  { intros i. unfold config_generate. rewrite E1, E2, E3. reflexivity. }
  rewrite (variadic_text _ _ _ _ _ _ _ _ Hf Hg). clear Hf Hg. injection Eb as <-.
  eexists. split; [reflexivity|]. change (seq 0 (0 + 1 - 0)) with [0%nat]. cbn [map fold_right].
  subst ls. unfold out. cbn [unlines fold_right]. subst d1 d2 d3.
  unfold tokens. rewrite !sapp_assoc.
  lit_big. cbn [app]. rewrite (lex_source _ source Hs). lit_big. cbn [app].
  repeat piece.
  match goal with |- context [lex ?st newline] => let x := eval vm_compute in (lex st newline) in change (lex st newline) with x end.
  reflexivity.
Qed.

Lemma config_reads smax rmax source : comment_safe source ->
  exists text, config_header smax rmax source = Some text
    /\ read_config_header text = Some (("FUSION_MAX_LIST_SIZE", smax), ("BOOST_FUSION_INVOKE_PROCEDURE_MAX_ARITY", rmax + 1),
                                       ("ReceiveMaxArity", rmax))%nat.
Proof.
  intros Hs. destruct (config_tokens smax rmax source Hs) as (text & E & Ht). exists text. split; [exact E|].
  unfold read_config_header. rewrite Ht. unfold config_toks, config_text, config_guard. cbn [app].
  assert (forall s, eol (P "010" :: s) = Some s) as Hn by (intros []; reflexivity).
  unfold read_config, read_guard, read_define, read_end.
  repeat (exp || rewrite Hn || rewrite number_dec || (progress cbn [word then_ String.eqb Ascii.eqb Bool.eqb])).
  reflexivity.
Qed.

(** ** What was read *)

Lemma field_names_distinct l : NoDup l -> NoDup (map field_name l).
Proof.
  intros H. apply FinFun.Injective_map_NoDup; [|exact H]. intros a b E. unfold field_name in E. injection E as E. apply dec_inj, E.
Qed.
Lemma type_names_distinct l : NoDup l -> NoDup (map type_name l).
Proof.
  intros H. apply FinFun.Injective_map_NoDup; [|exact H]. intros a b E. unfold type_name in E. injection E as E. apply dec_inj, E.
Qed.

Lemma the_overload_forwards ts k c m sq : plain_type sq = (plain_type m ++ tokens "::sequence_type")%list ->
  forwards k (the_overload ts k c m sq).
Proof.
  intros Hsq. unfold forwards, the_overload.
  cbn [ov_arity ov_tested ov_fields ov_names ov_called ov_passed snd].
  repeat split.
  - rewrite map_map. cbn [snd]. rewrite <- seq_shift, map_map. rewrite <- (map_id (seq 0 k)) at 2. apply map_ext. intros; lia.
  - apply Forall_forall. intros f H. apply in_map_iff in H as (i & <- & _). exact Hsq.
  - rewrite map_length, seq_length. reflexivity.
  - apply field_names_distinct, seq_NoDup.
  - intros H. apply in_map_iff in H as (i & E & _). discriminate E.
Qed.

Lemma the_section_both k : both_overloads (the_section k).
Proof.
  exists (overload1 k), (overload2 k). repeat (split; [reflexivity || (apply the_overload_forwards; reflexivity)|]). reflexivity.
Qed.

Lemma the_handler_accepts k : accepts_any k (the_handler k).
Proof.
  unfold accepts_any, the_handler. cbn [hf_template hf_message hf_values hf_conditions].
  split; [rewrite map_length, seq_length; reflexivity|]. split; [reflexivity|]. split.
  - constructor; [|apply type_names_distinct, seq_NoDup]. intros H. apply in_map_iff in H as (i & E & _). discriminate E.
  - destruct k as [|[|k]]; reflexivity.
Qed.

Lemma generated_sends smin smax source : comment_safe source ->
  exists text secs, send_header smin smax source = Some text
    /\ read_send_header text = Some (smax, secs)
    /\ map sec_guard secs = seq smin (smax + 1 - smin)
    /\ Forall both_overloads secs.
Proof.
  intros Hs. destruct (send_reads smin smax source Hs) as (text & H1 & H2).
  exists text, (map the_section (seq smin (smax + 1 - smin))). repeat split; try assumption.
  - rewrite map_map. apply map_id.
  - apply Forall_forall. intros s H. apply in_map_iff in H as (k & <- & _). apply the_section_both.
Qed.

Lemma generated_handlers rmin rmax source : comment_safe source ->
  exists text fs, partial_header rmin rmax source = Some text
    /\ read_partial_header text = Some fs
    /\ Forall2 accepts_any (seq rmin (rmax + 1 - rmin)) fs.
Proof.
  intros Hs. destruct (partial_reads rmin rmax source Hs) as (text & H1 & H2).
  exists text. eexists. split; [exact H1|]. split; [exact H2|].
  clear. induction (seq rmin (rmax + 1 - rmin)) as [|k l IH]; cbn [map]; [constructor|].
  constructor; [apply the_handler_accepts | exact IH].
Qed.

Lemma no_star s : forallb (fun c => negb (Ascii.eqb c "*")) (list_ascii_of_string s) = true -> comment_safe s.
Proof.
  induction s as [|c s IH]; intros H n; [destruct n; discriminate|]. cbn [list_ascii_of_string forallb] in H.
  apply andb_prop in H as (Hc & Hs). destruct n as [|n]; cbn [String.get]; [|apply IH, Hs].
  intros E. injection E as ->. discriminate Hc.
Qed.

Definition send_source := "variadicGenerate.lua on input SendOverloads.gen.lua".
Definition partial_source := "variadicGenerate.lua on input PartialHandlerBase.gen.lua".
Definition config_source := "variadicGenerate.lua on input ArityConfig.gen.lua".

Lemma checked_in :
  send_header 0 9 send_source = Some send_overloads_h
  /\ partial_header 0 9 partial_source = Some partial_handler_base_h
  /\ config_header 9 9 config_source = Some arity_config_h.
Proof. vm_compute. repeat split. Qed.

(** The arities that the checked-in headers provide for, and what the model of send and of the handlers takes. *)
Lemma checked_in_sends : exists secs, read_send_header send_overloads_h = Some (9%nat, secs)
  /\ map sec_guard secs = seq 0 10 /\ Forall both_overloads secs.
Proof.
  destruct checked_in as (E & _ & _).
  destruct (generated_sends 0 9 send_source) as (text & secs & H1 & H2 & H3 & H4); [apply no_star; reflexivity|].
  rewrite E in H1. injection H1 as <-. exists secs. repeat split; assumption.
Qed.
Lemma checked_in_handlers : exists fs, read_partial_header partial_handler_base_h = Some fs /\ Forall2 accepts_any (seq 0 10) fs.
Proof.
  destruct checked_in as (_ & E & _).
  destruct (generated_handlers 0 9 partial_source) as (text & fs & H1 & H2 & H3); [apply no_star; reflexivity|].
  rewrite E in H1. injection H1 as <-. exists fs. split; assumption.
Qed.
Lemma checked_in_limits : read_config_header arity_config_h
  = Some (("FUSION_MAX_LIST_SIZE", 9), ("BOOST_FUSION_INVOKE_PROCEDURE_MAX_ARITY", 10), ("ReceiveMaxArity", 9))%nat.
Proof.
  destruct checked_in as (_ & _ & E).
  destruct (config_reads 9 9 config_source) as (text & H1 & H2); [apply no_star; reflexivity|].
  rewrite E in H1. injection H1 as <-. exact H2.
Qed.
