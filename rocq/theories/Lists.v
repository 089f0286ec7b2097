(** List and arithmetic lemmas. *)
From Verif Require Export Base.
Ltac Zify.zify_post_hook ::= Z.div_mod_to_equations.

Lemma zlen_nonneg {A} (l : list A) : 0 <= zlen l.
Proof. unfold zlen; lia. Qed.
Lemma zlen_app {A} (l1 l2 : list A) : zlen (l1 ++ l2) = zlen l1 + zlen l2.
Proof. unfold zlen; rewrite app_length; lia. Qed.
Lemma zlen_cons {A} (a : A) l : zlen (a :: l) = 1 + zlen l.
Proof. unfold zlen; simpl length; lia. Qed.
Lemma zlen_nil {A} : zlen (@nil A) = 0.
Proof. reflexivity. Qed.
Lemma zlen_repeat {A} (a : A) n : zlen (repeat a n) = Z.of_nat n.
Proof. unfold zlen; rewrite repeat_length; reflexivity. Qed.
Lemma zlen_0 {A} (l : list A) : zlen l = 0 -> l = [].
Proof. unfold zlen; destruct l; simpl; [reflexivity | lia]. Qed.

Lemma firstn_app_exact {A} (l1 l2 : list A) n : n = length l1 -> firstn n (l1 ++ l2) = l1.
Proof. intros ->. rewrite firstn_app, Nat.sub_diag, firstn_all. simpl. apply app_nil_r. Qed.
Lemma skipn_app_exact {A} (l1 l2 : list A) n : n = length l1 -> skipn n (l1 ++ l2) = l2.
Proof. intros ->. rewrite skipn_app, Nat.sub_diag, skipn_all. reflexivity. Qed.

Lemma split_at {A} (l : list A) (n : Z) : 0 <= n <= zlen l ->
  exists l1 l2, l = l1 ++ l2 /\ zlen l1 = n.
Proof.
  unfold zlen; intros H. exists (firstn (Z.to_nat n) l), (skipn (Z.to_nat n) l).
  rewrite firstn_skipn. split; [reflexivity|]. rewrite firstn_length. lia.
Qed.

Lemma trunc_small w x : 0 <= x < 2 ^ w -> trunc w x = x.
Proof. intros; unfold trunc; apply Z.mod_small; assumption. Qed.
Lemma trunc_range w x : 0 <= w -> 0 <= trunc w x < 2 ^ w.
Proof. intros; unfold trunc; apply Z.mod_pos_bound. apply Z.pow_pos_nonneg; lia. Qed.

Lemma uint_least_bits_bound n : 0 <= n < 2 ^ 64 -> n < 2 ^ uint_least_bits n.
Proof.
  intros H. unfold uint_least_bits.
  destruct (Z.ltb_spec n (2 ^ 8)); [assumption|].
  destruct (Z.ltb_spec n (2 ^ 16)); [assumption|].
  destruct (Z.ltb_spec n (2 ^ 32)); [assumption|]. lia.
Qed.
Lemma uint_least_bits_ge8 n : 8 <= uint_least_bits n.
Proof.
  unfold uint_least_bits.
  destruct (_ <? _); [lia|]. destruct (_ <? _); [lia|]. destruct (_ <? _); lia.
Qed.

Lemma bind_ok {A B} (m : outcome A) (k : A -> outcome B) b :
  bind m k = Ok b -> exists a, m = Ok a /\ k a = Ok b.
Proof. destruct m; simpl; intros H; try discriminate. eauto. Qed.

Lemma repeat_app_nat {A} (a : A) n m : repeat a (n + m) = repeat a n ++ repeat a m.
Proof. apply repeat_app. Qed.

Lemma skipn_skipn {A} n m (l : list A) : skipn n (skipn m l) = skipn (m + n) l.
Proof.
  revert l; induction m as [|m IH]; intros l; [reflexivity|].
  destruct l as [|a l]; simpl; [apply skipn_nil | apply IH].
Qed.
