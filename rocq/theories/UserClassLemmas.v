(** Lemmas about transmitter and adapter classes of an application. *)
From Verif Require Export SpecUser HandlerLemmas.

Lemma no_write_byte_lemma S (k : transmitter_class S) c coll m contents s :
  tc_byte k = None -> send c coll m (class_tx k) contents s = Rejected.
Proof.
  intros Hb. unfold send. destruct (negb _); [reflexivity|]. destruct (find_index _ _); [|reflexivity].
  assert (forall v s', tx_byte (class_tx k) v s' = Rejected) as HR by (intros; cbn; unfold class_byte; rewrite Hb; reflexivity).
  unfold envelope_send. destruct (mc_env coll).
  - unfold basic_send. rewrite HR. reflexivity.
  - unfold basic_checksum_send. cbn [compose_tx tx_byte bind checksum_tx checksum_byte]. cbn [fst snd]. unfold checksum_byte. cbn [bind].
    cbn [class_tx tx_byte] in HR. cbn [class_tx tx_byte]. rewrite HR. reflexivity.
Qed.

Lemma fold_failed {S} (byte : Z -> S -> outcome S) f o : (forall s, o <> Ok s) ->
  fold_left (fun o b => do s <- o; byte b s) f o = o.
Proof.
  revert o. induction f as [|b f IH]; intros o H; [reflexivity|]. cbn [fold_left].
  destruct o; try (cbn [bind]; apply IH; discriminate). exfalso. eapply H. reflexivity.
Qed.

Lemma fold_calls {S} (t : transmitter S) f : forall s, run_calls t (map CByte f) s = fold_left (fun o b => do s <- o; tx_byte t b s) f (Ok s).
Proof.
  induction f as [|b f IH]; intros s; [reflexivity|]. cbn [map run_calls run_call fold_left bind].
  destruct (tx_byte t b s) as [s1| | | |]; cbn [bind]; [apply IH|..]; rewrite fold_failed by discriminate; reflexivity.
Qed.

Lemma class_bytes_lemma S (k : transmitter_class S) byte c coll m vs :
  tc_byte k = Some byte -> tc_block k = None ->
  static_ok coll = true -> In m (mc_types coll) -> has_types vs (mt_fields m) = true ->
  exists f, is_message_frame c coll m vs f
    /\ forall s, send c coll m (class_tx k) (combine (mt_fields m) vs) s
        = do s' <- fold_left (fun o b => do s <- o; byte b s) f (Ok s);
          match tc_finished k with Some fin => fin s' | None => Ok s' end.
Proof.
  intros H1 H2 Hst Hin Hty.
  destruct (byte_only_lemma S byte (match tc_finished k with Some fin => fin | None => finished_fallback end) c coll m vs Hst Hin Hty)
    as (f & Hf & HS).
  exists f. split; [exact Hf|]. intros s.
  assert (class_tx k = Transmitter byte (write_fallback byte) (match tc_finished k with Some fin => fin | None => finished_fallback end)) as ->
    by (unfold class_tx, class_byte; rewrite H1, H2; reflexivity).
  rewrite HS, fold_calls. cbn [tx_byte]. destruct (fold_left _ f (Ok s)); try reflexivity.
  cbn [bind]. destruct (tc_finished k); reflexivity.
Qed.

Lemma class_calls_lemma c coll m vs : static_ok coll = true -> In m (mc_types coll) -> has_types vs (mt_fields m) = true ->
  exists id tail, is_message_frame c coll m vs ([1; id; 2] ++ spec_payload (little c) (mt_fields m) vs ++ tail)
    /\ forall S (k : transmitter_class S) byte block s, tc_byte k = Some byte -> tc_block k = Some block ->
         send c coll m (class_tx k) (combine (mt_fields m) vs) s
         = do s' <- fold_left (fun o x => do s <- o; match x with CByte b => byte b s | CBlock d => block d s end)
                      (map CByte [1; id; 2] ++ map (spec_field_call (little c)) (combine (mt_fields m) vs) ++ map CByte tail) (Ok s);
           match tc_finished k with Some fin => fin s' | None => Ok s' end.
Proof.
  intros Hst Hin Hty. destruct (exact_calls_lemma c coll m vs Hst Hin Hty) as (id & tail & Hf & _ & HS).
  exists id, tail. split; [exact Hf|]. intros S k byte block s H1 H2. rewrite HS.
  assert (forall l s, run_calls (class_tx k) l s
          = fold_left (fun o x => do s <- o; match x with CByte b => byte b s | CBlock d => block d s end) l (Ok s)) as ->.
  { induction l as [|x l IH]; intros s0; [reflexivity|]. cbn [run_calls fold_left].
    assert (run_call (class_tx k) x s0 = match x with CByte b => byte b s0 | CBlock d => block d s0 end) as ->
      by (unfold run_call, class_tx, class_byte; cbn [tx_byte tx_block]; rewrite H1, H2; reflexivity).
    change (do s1 <- Ok s0; match x with CByte b => byte b s1 | CBlock d => block d s1 end)
      with (match x with CByte b => byte b s0 | CBlock d => block d s0 end).
    set (o := match x with CByte b => byte b s0 | CBlock d => block d s0 end). clearbody o.
    assert (forall o', (forall s', o' <> Ok s') ->
              fold_left (fun o x => do s <- o; match x with CByte b => byte b s | CBlock d => block d s end) l o' = o') as HF.
    { clear. induction l as [|x l IH]; intros o' H; [reflexivity|]. cbn [fold_left].
      destruct o'; try (cbn [bind]; apply IH; discriminate). exfalso. eapply H. reflexivity. }
    destruct o; cbn [bind]; [apply IH|..]; rewrite HF by discriminate; reflexivity. }
  unfold class_tx; cbn [tx_finished]. destruct (fold_left _ _ (Ok s)); try reflexivity.
  cbn [bind]. destruct (tc_finished k); reflexivity.
Qed.

Lemma class_adapter_lemma c coll a k r : class_of a k ->
  u_receive_from 1 c coll k r = do (r', n) <- rx_receive_from c coll a r; Ok (r', Some n).
Proof.
  intros (Ha & f & Ef & Hf). unfold u_receive_from. rewrite Ef.
  assert (num_available 1 k = Ok (Some (adapter_available a))) as ->.
  { cbn [num_available]. destruct Ha as [->|(-> & -> & E)]; [reflexivity|].
    unfold adapter_available, trunc. change (2 ^ 8) with 256. rewrite E. reflexivity. }
  cbn [bind]. unfold rx_receive_from, er_from_functor, u_from_functor, rb_from_functor.
  set (n1 := Z.min (adapter_available a) _). destruct (rb_ensure_space c (capacity coll) n1 _) as [b1| | | |]; try reflexivity.
  cbn [bind]. unfold adapter_call. rewrite Hf. destruct (ad_read a (trunc 8 n1)) as [data ret]. cbn [option_map].
  destruct (rb_pastEnd b1 + zlen data <=? capacity coll); [|reflexivity].
  destruct (rb_verify c (capacity coll) _); reflexivity.
Qed.

Lemma endless_lemma fuel c coll k f r : ac_receive k = Some f -> ac_available k = None -> ac_without k = false ->
  u_receive_from fuel c coll k r = Hang.
Proof.
  intros Hr Ha Hw. unfold u_receive_from. rewrite Hr.
  assert (num_available fuel k = Hang) as -> by (induction fuel as [|fuel IH]; [reflexivity|]; cbn [num_available]; rewrite Ha, Hw; exact IH).
  reflexivity.
Qed.

Lemma no_receive_lemma fuel c coll k r : ac_receive k = None -> u_receive_from fuel c coll k r = Rejected.
Proof. intros H. unfold u_receive_from. rewrite H. reflexivity. Qed.

(** ** Exceptions *)
Section Throw.
Context (c : config) (coll : collection) (Hst : static_ok coll = true) (Hsafe : index_safe c (capacity coll)).
Local Notation cap := (capacity coll).

(** Bytes written after the end of the contents, the end staying where it is. *)
Lemma rep_beyond b X data : rep cap b X -> rb_pastEnd b + zlen data <= cap ->
  rep cap (RBuf (rb_begin b) (rb_pastEnd b) (arr_write (rb_contents b) (rb_pastEnd b) data)) X.
Proof.
  intros R Hfit. destruct (rep_write_end cap b X data R Hfit) as (A & B & HC & Hb & Hp & Hl).
  cbn [rb_begin rb_pastEnd rb_contents] in *. destruct R as (A2 & B2 & HC2 & Hb2 & Hp2 & Hl2).
  exists A, (data ++ B). cbn [rb_begin rb_pastEnd rb_contents]. rewrite HC. rewrite <- app_assoc. rewrite !zlen_app in *.
  repeat split; lia.
Qed.

Lemma sim_with_buf w b : sim coll w (view w) -> rep cap b (held w) ->
  sim coll (World (Receiver (ERB (er_id (rx_recv (w_rx w))) b) (rx_invoker (w_rx w)) (rx_functor (w_rx w)) (rx_last (w_rx w))) (w_log w)) (view w).
Proof. intros (R & HB & Hf & Hi & Hl & Hlog) Hb. unfold sim. conj; auto. Qed.

Lemma adapter_throw_lemma beh h0 ops S rs w k : tame beh -> history c coll beh (start coll h0) ops S rs w ->
  throws_when (rx_available coll (w_rx w)) k ->
  exists r, u_receive_from 1 c coll k (w_rx w) = Ok (r, None) /\ let v := World r (w_log w) in
    same_view coll w v
    /\ (forall ops' S' rs' w', history c coll beh w ops' S' rs' w' ->
        exists v', history c coll beh v ops' S' rs' v' /\ same_view coll w' v')
    /\ (forall ops' S' rs' v', history c coll beh v ops' S' rs' v' ->
        exists w', history c coll beh w ops' S' rs' w' /\ same_view coll w' v').
Proof.
  intros Ht H (f & Ef & HT). pose proof (history_sim c coll Hst Hsafe beh Ht _ _ _ _ _ H) as Hs.
  pose proof (sim_available coll Hst _ _ Hs) as Hv. cbn [view s_bytes] in Hv.
  pose proof (capacity_ok coll Hst) as Hcap. pose proof (zlen_nonneg (held w)).
  assert (forall n data, num_available 1 k = Ok (Some n) -> 0 <= n <= 255 ->
    f (Z.min n (rx_available coll (w_rx w))) = (data, None) -> zlen data <= Z.min n (rx_available coll (w_rx w)) ->
    exists r, u_receive_from 1 c coll k (w_rx w) = Ok (r, None) /\ sim coll (World r (w_log w)) (view w)) as HG.
  { intros n data En Hn Hf Hd. unfold u_receive_from. rewrite Ef, En. cbn [bind]. unfold u_from_functor.
    pose proof Hs as (R & _). cbn [view s_bytes] in R. pose proof (rep_size_le _ _ _ R) as Hle.
    change (to_sz cap (rb_max_size cap - rb_size cap (er_buf (rx_recv (w_rx w))))) with (rx_available coll (w_rx w)).
    set (n1 := Z.min n (rx_available coll (w_rx w))) in *.
    destruct (rep_ensure_space c cap Hcap Hsafe _ _ n1 R) as (b1 & -> & R1 & Hroom); [lia|lia|]. cbn [bind].
    rewrite (trunc_small 8 n1) by lia. rewrite Hf. cbn [option_map].
    rewrite (proj2 (Z.leb_le _ _)) by lia. cbn [bind]. eexists. split; [reflexivity|].
    apply sim_with_buf; [exact Hs|]. apply rep_beyond; [exact R1|lia]. }
  assert (exists r, u_receive_from 1 c coll k (w_rx w) = Ok (r, None) /\ sim coll (World r (w_log w)) (view w)) as (r & Er & Hr).
  { destruct HT as [HT|[(n & data & HT & Hf & Hd)|(HT & Hw & data & Hf & Hd)]].
    - exists (w_rx w). unfold u_receive_from. rewrite Ef. cbn [num_available]. rewrite HT. cbn [option_map bind].
      split; [reflexivity|]. destruct w as [r log]. exact Hs.
    - apply (HG (n mod 256) data); [cbn [num_available]; rewrite HT; reflexivity| |exact Hf|exact Hd].
      pose proof (Z.mod_pos_bound n 256 eq_refl). lia.
    - apply (HG 255 data); [cbn [num_available]; rewrite HT, Hw; reflexivity|lia|exact Hf|exact Hd]. }
  exists r. split; [exact Er|]. apply alike; assumption.
Qed.

Lemma append_throw_lemma beh h0 ops S rs w data k : tame beh -> history c coll beh (start coll h0) ops S rs w ->
  zlen data <= rx_available coll (w_rx w) ->
  exists r, u_append_throwing c coll data k (w_rx w) = Ok r /\ let v := World r (w_log w) in
    same_view coll w v
    /\ (forall ops' S' rs' w', history c coll beh w ops' S' rs' w' ->
        exists v', history c coll beh v ops' S' rs' v' /\ same_view coll w' v')
    /\ (forall ops' S' rs' v', history c coll beh v ops' S' rs' v' ->
        exists w', history c coll beh w ops' S' rs' w' /\ same_view coll w' v').
Proof.
  intros Ht H Hd. pose proof (history_sim c coll Hst Hsafe beh Ht _ _ _ _ _ H) as Hs.
  rewrite (sim_available coll Hst _ _ Hs) in Hd. cbn [view s_bytes] in Hd.
  pose proof (capacity_ok coll Hst) as Hcap. pose proof (zlen_nonneg (held w)). pose proof (zlen_nonneg data).
  unfold u_append_throwing. cbv zeta. rewrite (to_sz_small cap Hcap) by lia.
  pose proof Hs as (R & _). cbn [view s_bytes] in R.
  destruct (rep_ensure_space c cap Hcap Hsafe _ _ (zlen data) R) as (b1 & -> & R1 & Hroom); [lia|lia|]. cbn [bind].
  assert (zlen (firstn k data) <= zlen data) by (unfold zlen; rewrite firstn_length; lia).
  rewrite (proj2 (Z.leb_le _ _)) by lia. eexists. split; [reflexivity|]. cbv zeta. apply alike; auto.
  apply sim_with_buf; [exact Hs|]. apply rep_beyond; [exact R1|lia].
Qed.
End Throw.
