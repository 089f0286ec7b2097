(** Preprocessing the generated headers. *)
From Coq Require Import Lia Bool DecimalNat.
From Verif Require Export GenerateHeaders.
Local Open Scope string_scope.

Lemma items_app s : forall a d x y, items d a = Some x -> items None s = Some y -> items d (a ++ s)%list = Some (x ++ y)%list.
Proof.
  induction a as [|t a IH]; intros d x y Ha Hs.
  - cbn [items] in Ha. destruct d; [discriminate|]. injection Ha as <-. exact Hs.
  - cbn [items app] in *. destruct d as [d|].
    + destruct (tok_eqb (P newline_char) t).
      * destruct (items None a) as [r|] eqn:E; [|discriminate]. cbn [then_] in Ha. injection Ha as <-.
        rewrite (IH None r y E Hs). reflexivity.
      * apply IH; assumption.
    + destruct (tok_eqb (P "#") t).
      * apply IH; assumption.
      * destruct (items None a) as [r|] eqn:E; [|discriminate]. cbn [then_] in Ha. injection Ha as <-.
        rewrite (IH None r y E Hs). reflexivity.
Qed.
Lemma items_text l : no_p "#" l = true -> items None l = Some (map Text l).
Proof.
  induction l as [|t l IH]; intros H; [reflexivity|]. cbn [no_p forallb] in H. apply andb_prop in H as (Ht & Hl).
  apply negb_true_iff in Ht. cbn [items map]. rewrite Ht, (IH Hl). reflexivity.
Qed.
Lemma no_p_app p a b : no_p p (a ++ b)%list = no_p p a && no_p p b.
Proof. apply forallb_app. Qed.
Lemma no_p_flat {A} p (f : A -> list tok) l : (forall x, no_p p (f x) = true) -> no_p p (flat_map f l) = true.
Proof. intros H. induction l as [|x l IH]; [reflexivity|]. cbn [flat_map]. rewrite no_p_app, H, IH. reflexivity. Qed.

Lemma typename_toks_text l : no_p "#" (typename_toks l) = true.
Proof. destruct l as [|a l]; [reflexivity|]. cbn [typename_toks no_p forallb tok_eqb negb andb]. apply no_p_flat. reflexivity. Qed.
Lemma name_toks_text l : no_p "#" (name_toks l) = true.
Proof. destruct l as [|a l]; [reflexivity|]. cbn [name_toks no_p forallb tok_eqb negb andb]. apply no_p_flat. reflexivity. Qed.
Lemma overload_toks_text ts k c m sq : no_p "#" c = true -> no_p "#" m = true -> no_p "#" sq = true ->
  no_p "#" (overload_toks ts k c m sq) = true.
Proof.
  intros Hc Hm Hsq. unfold overload_toks, helper_toks. rewrite !no_p_app, typename_toks_text, name_toks_text, Hc, Hm.
  rewrite no_p_flat; [reflexivity|]. intros i. unfold parameter_toks. rewrite !no_p_app, Hsq. reflexivity.
Qed.

Lemma pp_run_app a : forall st b, pp_run st (a ++ b)%list = then_ (pp_run st a) (fun st => pp_run st b).
Proof.
  induction a as [|i a IH]; intros st b; [reflexivity|]. cbn [app pp_run]. destruct (pp_step st i); [apply IH | reflexivity].
Qed.
Lemma pp_run_text l : forall ms cs is ts,
  pp_run (PP ms cs is ts) (map Text l) = Some (PP ms cs is (ts ++ if forallb (fun b => b) cs then l else []))%list.
Proof.
  induction l as [|t l IH]; intros ms cs is ts.
  - cbn [map pp_run]. destruct (forallb _ cs); rewrite app_nil_r; reflexivity.
  - cbn [map pp_run pp_step then_]. unfold pp_active. cbn [pp_conditions]. destruct (forallb (fun b => b) cs) eqn:E.
    + rewrite IH, E, <- app_assoc. reflexivity.
    + rewrite IH, E. reflexivity.
Qed.

(** ** The overloads *)

Definition first_toks (k : nat) : list tok :=
  overload_toks ["MessageCollectionType"; "MessageType"; "TransmitterDerived"] k [W "MessageCollectionType"] message1
    (W "typename" :: sq_toks message1).
Definition second_toks (k : nat) : list tok :=
  overload_toks ["BoundMessage"; "TransmitterDerived"] k [W "typename"; W "BoundMessage"; P ":"; P ":"; W "message_collection"]
    message2 (sq_toks message2).
Definition pair_toks (k : nat) : list tok := (first_toks k ++ second_toks k)%list.

Lemma pair_toks_text k : no_p "#" (pair_toks k) = true.
Proof. unfold pair_toks. rewrite no_p_app. unfold first_toks, second_toks. rewrite !overload_toks_text by reflexivity. reflexivity. Qed.

Definition section_items (k : nat) : list item :=
  (Dir [W "if"; W "FUSION_MAX_LIST_SIZE"; P ">"; P "="; W (dec k)] :: map Text (pair_toks k) ++ [Dir [W "endif"]])%list.
Lemma section_items_of k : items None (section_toks k) = Some (section_items k).
Proof.
  change (section_toks k) with ([P "#"; W "if"; W "FUSION_MAX_LIST_SIZE"; P ">"; P "="; W (dec k); P "010"]
    ++ first_toks k ++ second_toks k ++ [P "#"; W "endif"; P "010"])%list.
  apply (items_app _ _ None [_]); [reflexivity|].
  rewrite app_assoc. apply items_app; [apply items_text, pair_toks_text | reflexivity].
Qed.
Lemma sections_items l : items None (flat_map section_toks l) = Some (flat_map section_items l).
Proof.
  induction l as [|k l IH]; [reflexivity|]. cbn [flat_map]. apply items_app; [apply section_items_of | exact IH].
Qed.

Lemma section_run k ms cs is ts v : macro_value ms "FUSION_MAX_LIST_SIZE" = Some v -> forallb (fun b => b) cs = true ->
  pp_run (PP ms cs is ts) (section_items k) = Some (PP ms cs is (ts ++ if Nat.leb k v then pair_toks k else []))%list.
Proof.
  intros Hv Hc. unfold section_items. cbn [pp_run pp_step]. unfold pp_active at 1. cbn [pp_conditions]. rewrite Hc, Hv. cbn [then_].
  unfold dec. rewrite NilEmpty.usu. cbn [then_]. rewrite Unsigned.of_to. unfold pp_if. cbn [pp_macros pp_conditions pp_includes pp_text].
  rewrite pp_run_app, pp_run_text. cbn [then_ pp_run pp_step forallb]. rewrite Hc, andb_true_r. reflexivity.
Qed.
Lemma section_skip k ms cs is ts : forallb (fun b => b) cs = false ->
  pp_run (PP ms cs is ts) (section_items k) = Some (PP ms cs is ts).
Proof.
  intros Hc. unfold section_items. cbn [pp_run pp_step]. unfold pp_active at 1. cbn [pp_conditions]. rewrite Hc. cbn [then_].
  unfold pp_if. cbn [pp_macros pp_conditions pp_includes pp_text].
  rewrite pp_run_app, pp_run_text. cbn [then_ pp_run pp_step forallb andb]. rewrite app_nil_r. reflexivity.
Qed.
Lemma sections_run ms cs is v : macro_value ms "FUSION_MAX_LIST_SIZE" = Some v -> forallb (fun b => b) cs = true -> forall l ts,
  pp_run (PP ms cs is ts) (flat_map section_items l)
  = Some (PP ms cs is (ts ++ flat_map pair_toks (filter (fun k => Nat.leb k v) l)))%list.
Proof.
  intros Hv Hc. induction l as [|k l IH]; intros ts; [cbn; rewrite app_nil_r; reflexivity|].
  cbn [flat_map filter]. rewrite pp_run_app, (section_run k ms cs is ts v Hv Hc). cbn [then_]. rewrite IH.
  destruct (Nat.leb k v); cbn [flat_map]; rewrite <- app_assoc; reflexivity.
Qed.
Lemma sections_skip ms cs is ts : forallb (fun b => b) cs = false -> forall l,
  pp_run (PP ms cs is ts) (flat_map section_items l) = Some (PP ms cs is ts).
Proof.
  intros Hc. induction l as [|k l IH]; [reflexivity|]. cbn [flat_map]. rewrite pp_run_app, section_skip by exact Hc. exact IH.
Qed.

(** ** The whole of SendOverloads_Generated.h *)

(** The tokens before the limit and between it and the overloads, and those behind them. *)
Definition send_head : list tok := ltac:(
  let b := eval vm_compute in (behind prefix1) in
  match b with Some ?b => let x := eval vm_compute in (fst (run (BlockComment LineStart) b)) in exact x end).
Definition send_tail : list tok := ltac:(let x := eval vm_compute in (lex (Out LineStart) (send_suffix ++ newline)) in exact x).

Lemma send_tokens smin smax source : comment_safe source ->
  exists text, send_header smin smax source = Some text
    /\ tokens text = (send_head ++ W (dec smax) :: [P ">"; W "SendOverloadMaxArity"; P ";"]
                      ++ flat_map section_toks (seq smin (smax + 1 - smin)) ++ send_tail)%list.
Proof.
  intros Hs. unfold send_header. rewrite send_prefix_parts.
  destruct (behind prefix1) as [b|] eqn:Eb; [|discriminate].
  assert (fmt (prefix1 ++ dec smax ++ prefix2) [source] = Some (before prefix1 ++ source ++ b ++ dec smax ++ prefix2)) as Hf.
  { apply fmt_one; [exact Eb | injection Eb as <-; reflexivity |]. rewrite no_percent_app, dec_plain. reflexivity. }
  rewrite (variadic_text _ _ _ _ _ _ _ _ Hf send_generate_lines). clear Hf. injection Eb as <-.
  eexists. split; [reflexivity|]. unfold tokens. rewrite !sapp_assoc.
  lit_big. cbn [app]. rewrite (lex_source _ source Hs). lit_big. rewrite lex_dec. cbn [inside].
  lit. lit. lit. rewrite all_lines_lex. reflexivity.
Qed.

Definition send_files : list (list tok) := ltac:(
  let r := eval vm_compute in (read_guard send_head) in
  match r with Some (_, ?s) => let x := eval vm_compute in (read_includes 100 s) in match x with Some (?i, _) => exact i end end).
Definition send_opening : list tok := ltac:(
  let r := eval vm_compute in (read_guard send_head) in
  match r with Some (_, ?s) => let x := eval vm_compute in (read_includes 100 s) in match x with Some (_, ?t) => exact t end end).
Definition send_closing : list tok := ltac:(
  let x := eval vm_compute in (firstn (length send_tail - 3) send_tail) in exact x).

Definition head_items : list item :=
  ([Dir [W "pragma"; W "once"]; Dir [W "ifndef"; W send_guard]; Dir [W "define"; W send_guard]]
   ++ map (fun f => Dir (W "include" :: f)) send_files ++ map Text send_opening)%list.
Definition tail_items : list item := (map Text send_closing ++ [Dir [W "endif"]])%list.
Lemma send_items smax l :
  items None (send_head ++ W (dec smax) :: [P ">"; W "SendOverloadMaxArity"; P ";"] ++ flat_map section_toks l ++ send_tail)%list
  = Some (head_items ++ map Text (W (dec smax) :: [P ">"; W "SendOverloadMaxArity"; P ";"]) ++ flat_map section_items l ++ tail_items)%list.
Proof.
  apply items_app; [vm_compute; reflexivity|].
  change (W (dec smax) :: [P ">"; W "SendOverloadMaxArity"; P ";"] ++ flat_map section_toks l ++ send_tail)%list
    with ([W (dec smax); P ">"; W "SendOverloadMaxArity"; P ";"] ++ flat_map section_toks l ++ send_tail)%list.
  apply items_app; [reflexivity|]. apply items_app; [apply sections_items | vm_compute; reflexivity].
Qed.

Lemma includes_run fs : forall ms cs is ts, forallb (fun b => b) cs = true ->
  pp_run (PP ms cs is ts) (map (fun f => Dir (W "include" :: f)) fs) = Some (PP ms cs (is ++ fs) ts)%list.
Proof.
  induction fs as [|f fs IH]; intros ms cs is ts Hc; [cbn; rewrite app_nil_r; reflexivity|].
  cbn [map pp_run].
  assert (pp_step (PP ms cs is ts) (Dir (W "include" :: f)) = Some (PP ms cs (is ++ [f]) ts)%list) as ->
    by (cbn [pp_step]; unfold pp_active; cbn [pp_conditions]; rewrite Hc; reflexivity).
  cbn [then_]. rewrite IH by exact Hc. rewrite <- app_assoc. reflexivity.
Qed.
Lemma includes_skip fs : forall ms cs is ts, forallb (fun b => b) cs = false ->
  pp_run (PP ms cs is ts) (map (fun f => Dir (W "include" :: f)) fs) = Some (PP ms cs is ts)%list.
Proof.
  induction fs as [|f fs IH]; intros ms cs is ts Hc; [reflexivity|].
  cbn [map pp_run].
  assert (pp_step (PP ms cs is ts) (Dir (W "include" :: f)) = Some (PP ms cs is ts)%list) as ->
    by (cbn [pp_step]; unfold pp_active; cbn [pp_conditions]; rewrite Hc; reflexivity).
  cbn [then_]. apply IH, Hc.
Qed.

(** The declarations left when the limit in force is [v]. *)
Definition sends_text (smin smax v : nat) : list tok :=
  (send_opening ++ [W (dec smax); P ">"; W "SendOverloadMaxArity"; P ";"]
   ++ flat_map pair_toks (filter (fun k => Nat.leb k v) (seq smin (smax + 1 - smin))) ++ send_closing)%list.

Lemma send_first smin smax source ms v : comment_safe source ->
  ms send_guard = None -> macro_value ms "FUSION_MAX_LIST_SIZE" = Some v ->
  exists text, send_header smin smax source = Some text
    /\ preprocess ms text = Some (define send_guard [] ms, send_files, sends_text smin smax v).
Proof.
  intros Hs Hg Hv. destruct (send_tokens smin smax source Hs) as (text & E & Ht). exists text. split; [exact E|].
  unfold preprocess. rewrite Ht, send_items. cbn [then_]. rewrite pp_run_app. unfold head_items. rewrite !pp_run_app.
  assert (pp_run (PP ms [] [] []) [Dir [W "pragma"; W "once"]; Dir [W "ifndef"; W send_guard]; Dir [W "define"; W send_guard]]
          = Some (PP (define send_guard [] ms) [true] [] [])) as ->.
  { change (pp_run (PP ms [] [] []) [Dir [W "pragma"; W "once"]; Dir [W "ifndef"; W send_guard]; Dir [W "define"; W send_guard]])
      with (pp_run (pp_if (match ms send_guard with None => true | Some _ => false end) (PP ms [] [] [])) [Dir [W "define"; W send_guard]]).
    rewrite Hg. reflexivity. }
  cbn [then_]. rewrite pp_run_app, includes_run by reflexivity. cbn [then_]. rewrite pp_run_text. cbn [then_ forallb andb].
  rewrite pp_run_app, pp_run_text. cbn [then_ forallb andb]. rewrite pp_run_app.
  rewrite (sections_run _ _ _ v); [|exact Hv | reflexivity]. cbn [then_].
  unfold tail_items. rewrite pp_run_app, pp_run_text. cbn [then_ forallb andb pp_run pp_step pp_conditions pp_macros pp_includes pp_text].
  unfold sends_text. rewrite <- !app_assoc. reflexivity.
Qed.

Lemma send_again smin smax source ms : comment_safe source -> ms send_guard <> None ->
  exists text, send_header smin smax source = Some text /\ preprocess ms text = Some (ms, [], []).
Proof.
  intros Hs Hg. destruct (send_tokens smin smax source Hs) as (text & E & Ht). exists text. split; [exact E|].
  unfold preprocess. rewrite Ht, send_items. cbn [then_]. rewrite pp_run_app. unfold head_items. rewrite !pp_run_app.
  assert (pp_run (PP ms [] [] []) [Dir [W "pragma"; W "once"]; Dir [W "ifndef"; W send_guard]; Dir [W "define"; W send_guard]]
          = Some (PP ms [false] [] [])) as ->.
  { change (pp_run (PP ms [] [] []) [Dir [W "pragma"; W "once"]; Dir [W "ifndef"; W send_guard]; Dir [W "define"; W send_guard]])
      with (pp_run (pp_if (match ms send_guard with None => true | Some _ => false end) (PP ms [] [] [])) [Dir [W "define"; W send_guard]]).
    destruct (ms send_guard); [reflexivity | contradiction]. }
  cbn [then_]. rewrite pp_run_app, includes_skip by reflexivity. cbn [then_]. rewrite pp_run_text. cbn [then_ forallb andb app].
  rewrite pp_run_app, pp_run_text. cbn [then_ forallb andb app]. rewrite pp_run_app.
  rewrite sections_skip by reflexivity. cbn [then_].
  unfold tail_items. rewrite pp_run_app, pp_run_text. reflexivity.
Qed.

(** Reading the overloads left. *)
Lemma pairs_read s l : expect "template" s = None -> forall fuel, (2 * length l < fuel)%nat ->
  plain_overloads fuel (flat_map pair_toks l ++ s)%list = Some (flat_map (fun k => [overload1 k; overload2 k]) l, s).
Proof.
  intros Hs. induction l as [|k l IH]; intros fuel Hf.
  - destruct fuel; [lia|]. cbn [flat_map app plain_overloads]. rewrite Hs. reflexivity.
  - cbn [length] in Hf. destruct fuel as [|[|fuel]]; try lia. cbn [flat_map]. unfold pair_toks at 1. rewrite <- !app_assoc.
    assert (forall ts k c m sq r, exists x, expect "template" (overload_toks ts k c m sq ++ r)%list = Some x) as HT.
    { intros ts k0 c m sq r. unfold overload_toks. rewrite <- app_assoc. cbn [app]. eexists. reflexivity. }
    cbn [plain_overloads]. unfold first_toks at 1 2. edestruct HT as (x & ->).
    rewrite overload_read by (discriminate || reflexivity). cbn [then_].
    unfold second_toks at 1 2. edestruct HT as (y & ->).
    rewrite overload_read by (discriminate || reflexivity). cbn [then_].
    rewrite IH by lia. reflexivity.
Qed.
Lemma flat_length2 {A B} n (f : A -> list B) l : (forall x, n <= length (f x))%nat -> (n * length l <= length (flat_map f l))%nat.
Proof.
  intros H. induction l as [|x l IH]; cbn [flat_map length]; [lia|]. rewrite app_length. specialize (H x). lia.
Qed.
Lemma sends_read smin smax v : read_sends (sends_text smin smax v)
  = Some (smax, flat_map (fun k => [overload1 k; overload2 k]) (filter (fun k => Nat.leb k v) (seq smin (smax + 1 - smin)))).
Proof.
  unfold sends_text, read_sends. set (l := filter _ _). unfold read_send_opening, send_opening.
  cbn [app]. exp. rewrite number_dec. cbn [then_]. exp.
  cbn [then_]. rewrite pairs_read; [reflexivity | reflexivity |].
  rewrite app_length. pose proof (flat_length2 2 pair_toks l) as H.
  assert (forall x, 2 <= length (pair_toks x))%nat as H2 by (intros; unfold pair_toks, first_toks, overload_toks; cbn; lia).
  specialize (H H2). lia.
Qed.

(** ** ArityConfig.h *)

Definition config_items (smax rmax : nat) : list item :=
  ([Dir [W "pragma"; W "once"]; Dir [W "ifndef"; W config_guard]; Dir [W "define"; W config_guard];
    Dir [W "ifndef"; W "FUSION_MAX_LIST_SIZE"]; Dir [W "define"; W "FUSION_MAX_LIST_SIZE"; W (dec smax)]; Dir [W "endif"];
    Dir [W "ifndef"; W "BOOST_FUSION_INVOKE_PROCEDURE_MAX_ARITY"];
    Dir [W "define"; W "BOOST_FUSION_INVOKE_PROCEDURE_MAX_ARITY"; W (dec (rmax + 1))]; Dir [W "endif"]]
   ++ map Text (config_text rmax) ++ [Dir [W "endif"]])%list.
Lemma config_items_of smax rmax : items None (config_toks smax rmax) = Some (config_items smax rmax).
Proof.
  apply items_app; [reflexivity|]. apply items_app; [apply items_text; reflexivity | reflexivity].
Qed.

(** What a macro is if [ms] does not define it. *)
Definition default (x : string) (v : list tok) (ms : macros) : macros :=
  match ms x with None => define x v ms | Some _ => ms end.
Lemma default_spec x v ms y : default x v ms y = if String.eqb y x then Some (match ms x with None => v | Some w => w end) else ms y.
Proof.
  unfold default, define. destruct (ms x) as [w|] eqn:E.
  - destruct (String.eqb_spec y x) as [->|]; [exact E | reflexivity].
  - reflexivity.
Qed.
Lemma default_run x v ms cs is ts : forallb (fun b => b) cs = true ->
  pp_run (PP ms cs is ts) [Dir [W "ifndef"; W x]; Dir (W "define" :: W x :: v); Dir [W "endif"]]
  = Some (PP (default x v ms) cs is ts).
Proof.
  intros Hc. unfold default. cbn [pp_run].
  change (pp_step (PP ms cs is ts) (Dir [W "ifndef"; W x]))
    with (Some (pp_if (match ms x with None => true | Some _ => false end) (PP ms cs is ts))).
  unfold pp_if. cbn [then_ pp_macros pp_conditions pp_includes pp_text].
  assert (forall b, pp_step (PP ms (b :: cs) is ts) (Dir (W "define" :: W x :: v))
     = Some (if b then PP (define x v ms) (b :: cs) is ts else PP ms (b :: cs) is ts)) as E.
  { intros b. cbn [pp_step]. unfold pp_active. cbn [pp_conditions forallb]. rewrite Hc, andb_true_r. reflexivity. }
  rewrite E. destruct (ms x); reflexivity.
Qed.

Definition config_macros (smax rmax : nat) (ms : macros) : macros :=
  default "BOOST_FUSION_INVOKE_PROCEDURE_MAX_ARITY" [W (dec (rmax + 1))]
    (default "FUSION_MAX_LIST_SIZE" [W (dec smax)] (define config_guard [] ms)).
Lemma config_first smax rmax source ms : comment_safe source -> ms config_guard = None ->
  exists text, config_header smax rmax source = Some text
    /\ preprocess ms text = Some (config_macros smax rmax ms, [], config_text rmax).
Proof.
  intros Hs Hg. destruct (config_tokens smax rmax source Hs) as (text & E & Ht). exists text. split; [exact E|].
  unfold preprocess. rewrite Ht, config_items_of. cbn [then_].
  change (config_items smax rmax) with
   ([Dir [W "pragma"; W "once"]; Dir [W "ifndef"; W config_guard]; Dir [W "define"; W config_guard]]
    ++ [Dir [W "ifndef"; W "FUSION_MAX_LIST_SIZE"]; Dir [W "define"; W "FUSION_MAX_LIST_SIZE"; W (dec smax)]; Dir [W "endif"]]
    ++ [Dir [W "ifndef"; W "BOOST_FUSION_INVOKE_PROCEDURE_MAX_ARITY"];
        Dir [W "define"; W "BOOST_FUSION_INVOKE_PROCEDURE_MAX_ARITY"; W (dec (rmax + 1))]; Dir [W "endif"]]
    ++ map Text (config_text rmax) ++ [Dir [W "endif"]])%list.
  rewrite pp_run_app.
  assert (pp_run (PP ms [] [] []) [Dir [W "pragma"; W "once"]; Dir [W "ifndef"; W config_guard]; Dir [W "define"; W config_guard]]
          = Some (PP (define config_guard [] ms) [true] [] [])) as ->.
  { change (pp_run (PP ms [] [] []) [Dir [W "pragma"; W "once"]; Dir [W "ifndef"; W config_guard]; Dir [W "define"; W config_guard]])
      with (pp_run (pp_if (match ms config_guard with None => true | Some _ => false end) (PP ms [] [] [])) [Dir [W "define"; W config_guard]]).
    rewrite Hg. reflexivity. }
  cbn [then_]. rewrite pp_run_app, default_run by reflexivity. cbn [then_]. rewrite pp_run_app, default_run by reflexivity. cbn [then_].
  rewrite pp_run_app, pp_run_text. reflexivity.
Qed.

Lemma default_skip x v ms cs is ts : forallb (fun b => b) cs = false ->
  pp_run (PP ms cs is ts) [Dir [W "ifndef"; W x]; Dir (W "define" :: W x :: v); Dir [W "endif"]]
  = Some (PP ms cs is ts).
Proof.
  intros Hc. cbn [pp_run].
  change (pp_step (PP ms cs is ts) (Dir [W "ifndef"; W x]))
    with (Some (pp_if (match ms x with None => true | Some _ => false end) (PP ms cs is ts))).
  unfold pp_if. cbn [then_ pp_macros pp_conditions pp_includes pp_text].
  assert (forall b, pp_step (PP ms (b :: cs) is ts) (Dir (W "define" :: W x :: v)) = Some (PP ms (b :: cs) is ts)) as E.
  { intros b. cbn [pp_step]. unfold pp_active. cbn [pp_conditions forallb]. rewrite Hc, andb_false_r. reflexivity. }
  rewrite E. reflexivity.
Qed.
Lemma config_again smax rmax source ms : comment_safe source -> ms config_guard <> None ->
  exists text, config_header smax rmax source = Some text /\ preprocess ms text = Some (ms, [], []).
Proof.
  intros Hs Hg. destruct (config_tokens smax rmax source Hs) as (text & E & Ht). exists text. split; [exact E|].
  unfold preprocess. rewrite Ht, config_items_of. cbn [then_].
  change (config_items smax rmax) with
   ([Dir [W "pragma"; W "once"]; Dir [W "ifndef"; W config_guard]; Dir [W "define"; W config_guard]]
    ++ [Dir [W "ifndef"; W "FUSION_MAX_LIST_SIZE"]; Dir [W "define"; W "FUSION_MAX_LIST_SIZE"; W (dec smax)]; Dir [W "endif"]]
    ++ [Dir [W "ifndef"; W "BOOST_FUSION_INVOKE_PROCEDURE_MAX_ARITY"];
        Dir [W "define"; W "BOOST_FUSION_INVOKE_PROCEDURE_MAX_ARITY"; W (dec (rmax + 1))]; Dir [W "endif"]]
    ++ map Text (config_text rmax) ++ [Dir [W "endif"]])%list.
  rewrite pp_run_app.
  assert (pp_run (PP ms [] [] []) [Dir [W "pragma"; W "once"]; Dir [W "ifndef"; W config_guard]; Dir [W "define"; W config_guard]]
          = Some (PP ms [false] [] [])) as ->.
  { change (pp_run (PP ms [] [] []) [Dir [W "pragma"; W "once"]; Dir [W "ifndef"; W config_guard]; Dir [W "define"; W config_guard]])
      with (pp_run (pp_if (match ms config_guard with None => true | Some _ => false end) (PP ms [] [] [])) [Dir [W "define"; W config_guard]]).
    destruct (ms config_guard); [reflexivity | contradiction]. }
  cbn [then_]. rewrite pp_run_app, default_skip by reflexivity. cbn [then_]. rewrite pp_run_app, default_skip by reflexivity. cbn [then_].
  rewrite pp_run_app, pp_run_text. reflexivity.
Qed.

(** ** Both headers *)

Lemma macro_value_word ms x n : ms x = Some [W (dec n)] -> macro_value ms x = Some n.
Proof. intros H. unfold macro_value. rewrite H. unfold dec. rewrite NilEmpty.usu, Unsigned.of_to. reflexivity. Qed.

Lemma config_limit smax rmax ms v :
  match ms "FUSION_MAX_LIST_SIZE" with None => v = smax | Some _ => macro_value ms "FUSION_MAX_LIST_SIZE" = Some v end ->
  macro_value (config_macros smax rmax ms) "FUSION_MAX_LIST_SIZE" = Some v.
Proof.
  intros H. unfold config_macros. unfold macro_value. rewrite !default_spec. cbn [String.eqb Ascii.eqb Bool.eqb].
  unfold define. change (String.eqb "FUSION_MAX_LIST_SIZE" config_guard) with false. cbv iota.
  unfold macro_value in H. destruct (ms "FUSION_MAX_LIST_SIZE") as [w|]; [exact H|]. subst v.
  unfold dec. rewrite NilEmpty.usu, Unsigned.of_to. reflexivity.
Qed.

Lemma limits_set smax rmax source ms : comment_safe source -> ms config_guard = None ->
  exists text ms' toks, config_header smax rmax source = Some text
    /\ preprocess ms text = Some (ms', [], toks)
    /\ (ms "FUSION_MAX_LIST_SIZE" = None -> macro_value ms' "FUSION_MAX_LIST_SIZE" = Some smax)
    /\ (ms "BOOST_FUSION_INVOKE_PROCEDURE_MAX_ARITY" = None -> macro_value ms' "BOOST_FUSION_INVOKE_PROCEDURE_MAX_ARITY" = Some (rmax + 1)%nat)
    /\ (forall x v, ms x = Some v -> ms' x = Some v)
    /\ (forall x, ms x = None -> ~ In x [config_guard; "FUSION_MAX_LIST_SIZE"; "BOOST_FUSION_INVOKE_PROCEDURE_MAX_ARITY"] -> ms' x = None).
Proof.
  intros Hs Hg. destruct (config_first smax rmax source ms Hs Hg) as (text & E & H).
  exists text. do 2 eexists. split; [exact E|]. split; [exact H|].
  split; [intros HF; apply config_limit; rewrite HF; reflexivity|].
  split.
  { intros HF. apply macro_value_word. unfold config_macros. rewrite !default_spec.
    cbn [String.eqb Ascii.eqb Bool.eqb]. unfold define.
    change (String.eqb "BOOST_FUSION_INVOKE_PROCEDURE_MAX_ARITY" config_guard) with false. cbv iota. rewrite HF. reflexivity. }
  unfold config_macros. split.
  - intros x v Hx. rewrite !default_spec. cbn [String.eqb Ascii.eqb Bool.eqb]. unfold define.
    change (String.eqb "BOOST_FUSION_INVOKE_PROCEDURE_MAX_ARITY" config_guard) with false.
    change (String.eqb "FUSION_MAX_LIST_SIZE" config_guard) with false. cbv iota.
    destruct (String.eqb_spec x "BOOST_FUSION_INVOKE_PROCEDURE_MAX_ARITY") as [->|]; [rewrite Hx; reflexivity|].
    destruct (String.eqb_spec x "FUSION_MAX_LIST_SIZE") as [->|]; [rewrite Hx; reflexivity|].
    destruct (String.eqb_spec x config_guard) as [->|]; [congruence | exact Hx].
  - intros x Hx Hn. rewrite !default_spec. cbn [String.eqb Ascii.eqb Bool.eqb]. unfold define.
    destruct (String.eqb_spec x "BOOST_FUSION_INVOKE_PROCEDURE_MAX_ARITY") as [->|]; [exfalso; apply Hn; cbn; tauto|].
    destruct (String.eqb_spec x "FUSION_MAX_LIST_SIZE") as [->|]; [exfalso; apply Hn; cbn; tauto|].
    destruct (String.eqb_spec x config_guard) as [->|]; [exfalso; apply Hn; cbn; tauto | exact Hx].
Qed.

Lemma pair_for k : overload_pair k [overload1 k; overload2 k].
Proof. exact (the_section_both k). Qed.

Lemma enabled smin smax rmax source1 source2 ms v : comment_safe source1 -> comment_safe source2 ->
  ms config_guard = None -> ms send_guard = None ->
  match ms "FUSION_MAX_LIST_SIZE" with None => v = smax | Some _ => macro_value ms "FUSION_MAX_LIST_SIZE" = Some v end ->
  exists config sends ms1 ms2 ctoks files stoks oss,
    config_header smax rmax source1 = Some config /\ send_header smin smax source2 = Some sends
    /\ preprocess ms config = Some (ms1, [], ctoks)
    /\ preprocess ms1 sends = Some (ms2, files, stoks)
    /\ hd_error files = Some (tokens """../constants/ArityConfig.h""")
    /\ read_sends stoks = Some (smax, List.concat oss)
    /\ Forall2 overload_pair (filter (fun k => Nat.leb k v) (seq smin (smax + 1 - smin))) oss
    /\ preprocess ms2 config = Some (ms2, [], []) /\ preprocess ms2 sends = Some (ms2, [], []).
Proof.
  intros H1 H2 Hc Hg Hv. destruct (config_first smax rmax source1 ms H1 Hc) as (config & E1 & P1).
  assert (config_macros smax rmax ms send_guard = None) as Hg1.
  { unfold config_macros. rewrite !default_spec. unfold define, send_guard, config_guard in *. cbn [String.eqb Ascii.eqb Bool.eqb]. exact Hg. }
  destruct (send_first smin smax source2 _ v H2 Hg1 (config_limit smax rmax ms v Hv)) as (sends & E2 & P2).
  exists config, sends. do 5 eexists.
  exists (map (fun k => [overload1 k; overload2 k]) (filter (fun k => Nat.leb k v) (seq smin (smax + 1 - smin)))).
  split; [exact E1|]. split; [exact E2|]. split; [exact P1|]. split; [exact P2|]. split; [reflexivity|].
  split; [rewrite <- flat_map_concat_map; apply sends_read|]. split.
  - induction (filter _ _) as [|k l IH]; cbn [map]; constructor; [apply pair_for | exact IH].
  - split.
    + destruct (config_again smax rmax source1 (define send_guard [] (config_macros smax rmax ms)) H1) as (t & Et & Pt).
      { unfold define. change (String.eqb config_guard send_guard) with false. cbv iota. unfold config_macros. rewrite !default_spec.
        unfold define, config_guard. cbn [String.eqb Ascii.eqb Bool.eqb]. discriminate. }
      rewrite E1 in Et. injection Et as <-. exact Pt.
    + destruct (send_again smin smax source2 (define send_guard [] (config_macros smax rmax ms)) H2) as (t & Et & Pt).
      { unfold define. rewrite String.eqb_refl. discriminate. }
      rewrite E2 in Et. injection Et as <-. exact Pt.
Qed.
