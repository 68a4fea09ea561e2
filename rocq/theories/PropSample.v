(** C44: timesteps one by one and as a batch. *)
From Verif Require Import Base Trajectory Tensor TrajUtil Sample.
Local Open Scope Z_scope.

(** ** Specification *)

(** Row [i] of a tensor, by its elements: the inner shape is kept. *)
Definition is_row (t : tensor) (i : nat) (r : tensor) : Prop :=
  exists d sh, t_shape t = d :: sh /\ (i < d)%nat /\ t_ty r = t_ty t /\ t_shape r = sh /\ length (t_data r) = elements sh /\
  forall j, (j < elements sh)%nat -> t_data r !! j = t_data t !! (i * elements sh + j)%nat.

(** A caller that asks for timesteps until it is told that the sequence has
    ended, and what it is given. *)
Inductive timesteps : sample -> list (meta * list tensor) -> Prop :=
| ts_last s d s' : sampler_next_timestep s = TSOk d true s' -> timesteps s [d]
| ts_more s d s' ds : sampler_next_timestep s = TSOk d false s' -> timesteps s' ds -> timesteps s (d :: ds).

(** Columns as they come out of chunks: pieces with at least one row each, of
    one type and inner shape. *)
Definition column_ok (ts : list tensor) : Prop :=
  ts <> [] /\ exists ty sh, Forall (fun t => tensor_ok t /\ t_ty t = ty /\ exists d, t_shape t = d :: sh /\ (1 <= d)%nat) ts.

(** ** Columns *)

Definition rows_of (col : list (tensor * nat)) : list tensor :=
  concat ((fun p => omap (fun i => sub_slice (fst p) i) (seq (snd p) (dim0 (fst p) - snd p))) <$> col).
Definition col_inv (col : list (tensor * nat)) : Prop := Forall (fun p => (snd p < dim0 (fst p))%nat) col.

Lemma sub_slice_some t i : (i < dim0 t)%nat -> exists r, sub_slice t i = Some r.
Proof. unfold dim0, sub_slice. destruct (t_shape t) as [|d sh]; [lia|]. intros H. rewrite decide_True by done. by eexists. Qed.

Lemma step_col_rows col : col_inv col -> col <> [] ->
  exists r col', step_col col = Some (r, col') /\ col_inv col' /\ rows_of col = r :: rows_of col'.
Proof.
  intros Hi Hn. destruct col as [|[t off] rest]; [done|]. apply Forall_cons in Hi as [Ht Hi]. cbn [fst snd] in Ht.
  destruct (sub_slice_some t off Ht) as [r Hr]. unfold step_col. rewrite Hr. cbn [mbind option_bind].
  eexists r, _. split; [done|]. unfold rows_of. rewrite fmap_cons. cbn [concat fst snd].
  replace (dim0 t - off)%nat with (S (dim0 t - S off)) by lia. cbn [seq omap list_omap]. rewrite Hr.
  destruct (Nat.eqb_spec (S off) (dim0 t)) as [E|E].
  - split; [done|]. rewrite E, Nat.sub_diag. cbn [seq omap list_omap]. done.
  - split; [constructor; [cbn; lia|done]|]. rewrite fmap_cons. done.
Qed.
Lemma rows_nil col : col_inv col -> rows_of col = [] <-> col = [].
Proof.
  intros Hi. split; [|by intros ->]. intros H. destruct col as [|p col]; [done|].
  destruct (step_col_rows (p :: col) Hi ltac:(done)) as (r & col' & _ & _ & E). by rewrite H in E.
Qed.

(** Sizes and offsets of the pieces of a column. *)
Definition sig (col : list (tensor * nat)) : list (nat * nat) := (fun p => (dim0 (fst p), snd p)) <$> col.
Definition sig_ok (q : list (nat * nat)) : Prop := Forall (fun p => (snd p < fst p)%nat) q.
Definition sig_step (q : list (nat * nat)) : list (nat * nat) :=
  match q with [] => [] | (d, o) :: q => if (S o =? d)%nat then q else (d, S o) :: q end.
Definition sig_rows (q : list (nat * nat)) : nat := list_sum ((fun p => fst p - snd p)%nat <$> q).

Lemma sig_inv col q : sig col = q -> sig_ok q -> col_inv col.
Proof.
  intros <-. unfold sig, sig_ok, col_inv. rewrite Forall_fmap. done.
Qed.
Lemma sig_step_col col r col' : step_col col = Some (r, col') -> sig col' = sig_step (sig col).
Proof.
  destruct col as [|[t off] rest]; [done|]. unfold step_col. destruct (sub_slice t off); cbn [mbind option_bind]; [|done].
  change (sig ((t, off) :: rest)) with ((dim0 t, off) :: sig rest). unfold sig_step. destruct (S off =? dim0 t)%nat; by intros [= <- <-].
Qed.
Lemma sig_step_rows d o q : sig_ok ((d, o) :: q) -> sig_rows ((d, o) :: q) = S (sig_rows (sig_step ((d, o) :: q))).
Proof.
  intros H. apply Forall_cons in H as [H _]. cbn [fst snd] in H. unfold sig_rows, list_sum. cbn [sig_step].
  destruct (Nat.eqb_spec (S o) d) as [E|E]; cbn [fmap list_fmap foldr fst snd]; lia.
Qed.
Lemma sig_step_ok q : sig_ok q -> sig_ok (sig_step q).
Proof.
  destruct q as [|[d o] q]; [done|]. intros H. apply Forall_cons in H as [H Hq]. cbn [fst snd] in H. cbn [sig_step].
  destruct (Nat.eqb_spec (S o) d); [done|]. constructor; [cbn; lia|done].
Qed.

Lemma col_length_sig col : col_length col = foldl Z.add 0 ((fun p => Z.of_nat (fst p)) <$> sig col).
Proof. unfold col_length, sig. rewrite <- list_fmap_compose. done. Qed.
Lemma foldl_nonneg l a : 0 <= a -> Forall (fun z => 0 <= z) l -> 0 <= foldl Z.add a l.
Proof. intros Ha H. revert a Ha. induction H as [|x l Hx H IH]; intros a Ha; cbn; [done|]. apply IH. lia. Qed.
Lemma composed_const z cols prev : (prev = -1 \/ prev = z) -> Forall (fun c => col_length c = z) cols -> composed_from prev cols = true.
Proof.
  intros Hp H. revert prev Hp. induction H as [|c cols Hc H IH]; intros prev Hp; cbn [composed_from]; [done|]. rewrite Hc.
  destruct (Z.eqb_spec prev (-1)); cbn [negb andb]; [apply IH; by right|]. destruct Hp as [->| ->]; [done|].
  rewrite Z.eqb_refl. cbn [negb]. apply IH. by right.
Qed.
Lemma composed_sig s q : Forall (fun c => sig c = q) (s_cols s) -> is_composed_of_timesteps s = true.
Proof.
  intros H. unfold is_composed_of_timesteps. apply (composed_const (foldl Z.add 0 ((fun p => Z.of_nat (fst p)) <$> q))); [by left|].
  apply (Forall_impl _ _ _ H). intros c <-. apply col_length_sig.
Qed.
Lemma end_sig s q : s_cols s <> [] -> Forall (fun c => sig c = q) (s_cols s) -> is_end_of_sample s = match q with [] => true | _ => false end.
Proof.
  intros Hn H. unfold is_end_of_sample. destruct q as [|p q].
  - apply forallb_forall. intros c Hc%elem_of_list_In. rewrite Forall_forall in H. specialize (H c Hc). by destruct c.
  - destruct (s_cols s) as [|c cs]; [done|]. apply Forall_cons in H as [H _]. cbn. by destruct c.
Qed.

Lemma step_cols_sig cols q : q <> [] -> sig_ok q -> Forall (fun c => sig c = q) cols ->
  exists rs cols', step_cols cols = Some (rs, cols') /\ Forall (fun c => sig c = sig_step q) cols' /\ length cols' = length cols /\ length rs = length cols /\
    forall c col, cols !! c = Some col -> exists r col', rs !! c = Some r /\ cols' !! c = Some col' /\ rows_of col = r :: rows_of col'.
Proof.
  intros Hq Hok H. induction H as [|col cols Hc H IH]; cbn [step_cols]; [by exists [], []|].
  destruct (step_col_rows col) as (r & col' & Hs & _ & Hr).
  { by apply (sig_inv col q). }
  { intros ->. by subst q. }
  rewrite Hs. cbn [mbind option_bind]. destruct IH as (rs & cols' & -> & H1 & H2 & H3 & H4). cbn [mbind option_bind fst snd].
  exists (r :: rs), (col' :: cols'). split; [done|]. split.
  { constructor; [|done]. rewrite <- Hc. by apply (sig_step_col col r). }
  split; [cbn; lia|]. split; [cbn; lia|]. intros [|c] col0; cbn; [|apply H4]. intros [= <-]. by exists r, col'.
Qed.

(** The timesteps of a sample whose columns are divided alike: one for every row
    left, in order. *)
Lemma timesteps_rows n s q : s_cols s <> [] -> sig_ok q -> Forall (fun c => sig c = q) (s_cols s) -> sig_rows q = S n ->
  exists outs, timesteps s outs /\ length outs = S n /\
    forall i d, outs !! i = Some d -> fst d = s_meta s /\ length (snd d) = length (s_cols s) /\
      forall c col, s_cols s !! c = Some col -> snd d !! c = rows_of col !! i.
Proof.
  revert s q. induction n as [|n IH]; intros s q Hne Hok Hs Hr; destruct q as [|[d0 o0] q]; try done;
    rewrite sig_step_rows in Hr by done; apply Nat.succ_inj in Hr;
    destruct (step_cols_sig (s_cols s) ((d0, o0) :: q)) as (rs & cols' & Hst & Hsig & Hl & Hlr & Hrows); try done;
    assert (Hq' := sig_step_ok _ Hok); set (q' := sig_step ((d0, o0) :: q)) in *; clearbody q';
    set (s' := mkSample (s_meta s) (s_num s) cols' (s_squeeze s) true);
    assert (Hne' : cols' <> []) by (intros ->; by destruct (s_cols s));
    assert (Hcall : sampler_next_timestep s = TSOk (s_meta s, rs) (is_end_of_sample s') s') by
      (unfold sampler_next_timestep, get_next_timestep; rewrite (composed_sig s ((d0, o0) :: q)) by done;
       rewrite (end_sig s ((d0, o0) :: q)) by done; rewrite Hst; done);
    rewrite (end_sig s' q') in Hcall by done.
  - assert (q' = []) as Eq.
    { destruct q' as [|[d1 o1] q1]; [done|]. rewrite sig_step_rows in Hr by done. lia. }
    rewrite Eq in Hcall. exists [(s_meta s, rs)]. split; [by apply (ts_last s _ s')|]. split; [done|].
    intros [|i] d; cbn; [|done]. intros [= <-]. split; [done|]. split; [done|]. intros c col Hc.
    destruct (Hrows c col Hc) as (r & col' & Hr' & _ & ->). done.
  - destruct q' as [|p1 q1] eqn:Eq; [cbn in Hr; lia|]. rewrite <- Eq in *.
    destruct (IH s' q') as (outs & Ho & Hlo & Hi); [done|done|done|done|].
    exists ((s_meta s, rs) :: outs). split; [apply (ts_more s _ s'); [|done]; by rewrite Hcall|]. split; [cbn; lia|].
    intros [|i] d; cbn.
    + intros [= <-]. split; [done|]. split; [done|]. intros c col Hc. destruct (Hrows c col Hc) as (r & col' & Hr' & _ & ->). done.
    + intros Hd. destruct (Hi i d Hd) as (Hm & Hld & Hcs). split; [done|]. split; [by rewrite Hld|]. intros c col Hc.
      destruct (Hrows c col Hc) as (r & col' & _ & Hc' & ->). cbn. by apply Hcs.
Qed.

(** The rows of a column are the rows of the concatenated tensor. *)
Lemma rows_app c1 c2 : rows_of (c1 ++ c2) = rows_of c1 ++ rows_of c2.
Proof. unfold rows_of. by rewrite fmap_app, concat_app. Qed.
Lemma rows_one t d sh : t_shape t = d :: sh -> length (rows_of [(t, 0%nat)]) = d /\
  forall i, (i < d)%nat -> rows_of [(t, 0%nat)] !! i = sub_slice t i.
Proof.
  intros Hsh. unfold rows_of. cbn [fmap list_fmap concat fst snd]. rewrite app_nil_r, Nat.sub_0_r. unfold dim0. rewrite Hsh.
  assert (HG : forall k n, (n + k <= d)%nat -> length (omap (fun i => sub_slice t i) (seq n k)) = k /\
            forall i, (i < k)%nat -> omap (fun i => sub_slice t i) (seq n k) !! i = sub_slice t (n + i)).
  { induction k as [|k IHk]; intros n Hn; [split; [done|lia]|]. cbn [seq omap list_omap].
    destruct (sub_slice_some t n) as [r Hr]; [unfold dim0; rewrite Hsh; lia|]. rewrite Hr.
    destruct (IHk (S n)) as [E1 E2]; [lia|]. split; [cbn; by rewrite E1|]. intros [|i] Hi; cbn.
    - by rewrite Nat.add_0_r, Hr.
    - replace (n + S i)%nat with (S n + i)%nat by lia. apply E2. lia. }
  destruct (HG d 0%nat) as [E1 E2]; [lia|]. split; [done|]. intros i Hi. by apply E2.
Qed.

Lemma rows_concat ts ty sh :
  Forall (fun t => tensor_ok t /\ t_ty t = ty /\ exists d, t_shape t = d :: sh /\ (1 <= d)%nat) ts ->
  forall i, (i < list_sum (dim0 <$> ts))%nat -> exists r, rows_of (fresh_col ts) !! i = Some r /\
    t_ty r = ty /\ t_shape r = sh /\ length (t_data r) = elements sh /\
    forall j, (j < elements sh)%nat -> t_data r !! j = concat (t_data <$> ts) !! (i * elements sh + j)%nat.
Proof.
  induction 1 as [|t ts ([Hl _] & Ht & d & Hd & Hd1) H IH]; intros i Hi; [cbn in Hi; lia|].
  unfold fresh_col. rewrite fmap_cons. change ((t, 0%nat) :: ((fun t => (t, 0%nat)) <$> ts)) with ([(t, 0%nat)] ++ fresh_col ts).
  rewrite rows_app. destruct (rows_one t d sh Hd) as [E1 E2]. rewrite Hd in Hl. change (elements (d :: sh)) with (d * elements sh)%nat in Hl.
  rewrite fmap_cons in Hi. change (list_sum (dim0 t :: (dim0 <$> ts))) with (dim0 t + list_sum (dim0 <$> ts))%nat in Hi.
  assert (Hdt : dim0 t = d) by (unfold dim0; by rewrite Hd). rewrite Hdt in Hi. rewrite fmap_cons. cbn [concat].
  destruct (decide (i < d)%nat) as [Hlt|Hge].
  - rewrite lookup_app_l by lia. rewrite E2 by done. unfold sub_slice. rewrite Hd, decide_True by done. eexists. split; [done|].
    cbn [t_ty t_shape t_data]. split; [done|]. split; [done|]. split.
    { rewrite take_length, drop_length, Hl. nia. }
    intros j Hj. rewrite lookup_take by done. rewrite lookup_drop. rewrite lookup_app_l by nia. done.
  - rewrite lookup_app_r by lia. rewrite E1. destruct (IH (i - d)%nat) as (r & Hr & R1 & R2 & R3 & R4); [lia|].
    exists r. split; [done|]. split; [done|]. split; [done|]. split; [done|]. intros j Hj. rewrite R4 by done.
    rewrite lookup_app_r by nia. f_equal. rewrite Hl. nia.
Qed.

Lemma unpack_fresh ts ty sh : ts <> [] ->
  Forall (fun t => tensor_ok t /\ t_ty t = ty /\ exists d, t_shape t = d :: sh /\ (1 <= d)%nat) ts ->
  unpack_column (fresh_col ts) = Some (mkTensor ty (list_sum (dim0 <$> ts) :: sh) (concat (t_data <$> ts))).
Proof.
  intros Hn H. assert (HC : tensor_concat ts = Some (mkTensor ty (list_sum (dim0 <$> ts) :: sh) (concat (t_data <$> ts)))).
  { destruct ts as [|t ts]; [done|]. unfold tensor_concat. assert (H0 := H). apply Forall_cons in H0 as [(_ & Ht & d & Hd & _) _].
    rewrite Hd, Ht. cbn [tail].
    assert (forallb (fun u => bool_decide (t_ty u = ty) && bool_decide (tail (t_shape u) = sh) && negb (Nat.eqb (length (t_shape u)) 0)) (t :: ts) = true) as ->; [|done].
    apply forallb_forall. intros u Hu%elem_of_list_In. rewrite Forall_forall in H. destruct (H u Hu) as (_ & -> & d' & -> & _).
    cbn. by rewrite !bool_decide_true. }
  unfold unpack_column. destruct ts as [|t [|t2 ts]]; [done| |].
  - cbn. apply Forall_cons in H as [(_ & Ht & d & Hd & _) _]. destruct t as [ty' sh' data]. cbn in *. subst. cbn. by rewrite app_nil_r, Nat.add_0_r.
  - rewrite <- HC. change (tensor_concat (fst <$> fresh_col (t :: t2 :: ts)) = tensor_concat (t :: t2 :: ts)). f_equal.
    unfold fresh_col. rewrite <- list_fmap_compose. by rewrite list_fmap_id.
Qed.

(** ** C44 *)

Definition same_split (ds : list nat) (cols : list (list tensor)) : Prop := Forall (fun ts => dim0 <$> ts = ds) cols.

(** If all columns are divided into pieces alike: the timesteps asked for one by
    one are as many as the rows, each carries the metadata of the sample, and the
    i-th one consists of row i of every column of the batched sample. *)
Theorem C44_timesteps_partial m cols sq ds : cols <> [] -> Forall column_ok cols -> same_split ds cols ->
  exists s bs outs, make_sample m cols sq = Some s /\
    as_batched_timesteps s = SROk (replicate (list_sum ds) m, bs) /\ length bs = length cols /\
    timesteps s outs /\ length outs = list_sum ds /\
    (forall c b, bs !! c = Some b -> dim0 b = list_sum ds) /\
    forall i d, outs !! i = Some d -> fst d = m /\ length (snd d) = length bs /\
      forall c b, bs !! c = Some b -> exists r, snd d !! c = Some r /\ is_row b i r.
Proof.
  intros Hn Hok Hsp.
  set (q := (fun d => (d, 0%nat)) <$> ds).
  assert (Hsig : Forall (fun c => sig c = q) (fresh_col <$> cols)).
  { rewrite Forall_fmap. apply (Forall_impl _ _ _ Hsp). intros ts <-. unfold q, sig, fresh_col. cbn. rewrite <- !list_fmap_compose. done. }
  set (s0 := mkSample m (-1) (fresh_col <$> cols) sq false).
  assert (Hc0 : is_composed_of_timesteps s0 = true) by (by apply (composed_sig s0 q)).
  assert (Hlen : forall c, c ∈ fresh_col <$> cols -> col_length c = Z.of_nat (list_sum ds)).
  { intros c Hc. rewrite Forall_forall in Hsig. rewrite col_length_sig, (Hsig c Hc). unfold q. rewrite <- list_fmap_compose.
    assert (G : forall l a, foldl Z.add a (((fun p : nat * nat => Z.of_nat (fst p)) ∘ (fun d : nat => (d, 0%nat))) <$> l) = a + Z.of_nat (list_sum l)).
    { induction l as [|x l IH]; intros a; [cbn; lia|]. rewrite fmap_cons. cbn [foldl]. rewrite IH. change (list_sum (x :: l)) with (x + list_sum l)%nat. cbn. lia. }
    by rewrite G. }
  set (s := mkSample m (Z.of_nat (list_sum ds)) (fresh_col <$> cols) sq false).
  assert (Hmk : make_sample m cols sq = Some s).
  { unfold make_sample. destruct cols as [|[|t ts] cols]; [done| |].
    - apply Forall_cons in Hok as [[? _] _]. done.
    - change (mkSample m (-1) (fresh_col <$> ((t :: ts) :: cols)) sq false) with s0. rewrite Hc0. unfold s. f_equal. f_equal.
      apply Hlen. apply elem_of_list_here. }
  assert (HU : exists bs, unpack_columns (fresh_col <$> cols) = Some bs /\ length bs = length cols /\
     forall c b, bs !! c = Some b -> exists ts ty sh, cols !! c = Some ts /\
        Forall (fun t => tensor_ok t /\ t_ty t = ty /\ exists d, t_shape t = d :: sh /\ (1 <= d)%nat) ts /\
        b = mkTensor ty (list_sum (dim0 <$> ts) :: sh) (concat (t_data <$> ts))).
  { clear -Hok. induction Hok as [|ts cols (Hts & ty & sh & Hf) H IH]; [by exists []|]. destruct IH as (bs & Hbs & Hl & Hb).
    rewrite fmap_cons. cbn [unpack_columns]. rewrite (unpack_fresh ts ty sh Hts Hf). cbn [mbind option_bind]. rewrite Hbs. cbn [mbind option_bind].
    eexists. split; [done|]. split; [cbn; lia|]. intros [|c] b; cbn; [|apply Hb]. intros [= <-]. by exists ts, ty, sh. }
  destruct HU as (bs & Hbs & Hlb & Hb).
  assert (Hpos : sig_ok q).
  { unfold q, sig_ok. rewrite Forall_fmap. destruct cols as [|ts cols]; [done|]. apply Forall_cons in Hok as [(_ & ty & sh & Hf) _].
    apply Forall_cons in Hsp as [<- _]. rewrite Forall_fmap. apply (Forall_impl _ _ _ Hf). intros t (_ & _ & d & Hd & Hd1). cbn. unfold dim0. rewrite Hd. lia. }
  assert (Hsr : sig_rows q = list_sum ds).
  { unfold sig_rows, q. rewrite <- list_fmap_compose. clear. induction ds as [|d ds IH]; [done|]. rewrite fmap_cons. cbn in *. unfold list_sum in *. cbn [foldr]. lia. }
  assert (exists n, list_sum ds = S n) as [n Hnn].
  { destruct cols as [|ts cols]; [done|]. apply Forall_cons in Hok as [(Hts & ty & sh & Hf) _]. apply Forall_cons in Hsp as [<- _].
    destruct ts as [|t ts]; [done|]. apply Forall_cons in Hf as [(_ & _ & d & Hd & Hd1) _]. rewrite fmap_cons. unfold list_sum. cbn [foldr].
    unfold dim0 at 1. rewrite Hd. destruct d; [lia|]. by eexists. }
  destruct (timesteps_rows n s q) as (outs & Ho & Hlo & Hrows); [by destruct cols|done|done|by rewrite Hsr|].
  exists s, bs, outs. split; [done|]. split.
  { unfold as_batched_timesteps. cbn [s_called s]. rewrite (composed_sig s q) by done. cbn [negb]. cbn [s_cols s]. rewrite Hbs. cbn [s_num s s_meta].
    by rewrite Nat2Z.id. }
  split; [done|]. split; [done|]. split; [by rewrite Hlo, Hnn|]. split.
  { intros c b Hcb. destruct (Hb c b Hcb) as (ts & ty & sh & Hts & _ & ->). cbn. unfold same_split in Hsp. rewrite Forall_lookup in Hsp. by rewrite (Hsp c ts Hts). }
  intros i d Hd. destruct (Hrows i d Hd) as (Hm & Hld & Hcs). split; [done|]. split.
  { rewrite Hld. cbn [s_cols s]. by rewrite fmap_length. }
  intros c b Hcb. destruct (Hb c b Hcb) as (ts & ty & sh & Hts & Hf & ->). rewrite (Hcs c (fresh_col ts)).
  2: { cbn [s_cols s]. by rewrite list_lookup_fmap, Hts. }
  unfold same_split in Hsp. rewrite Forall_lookup in Hsp. assert (Hds := Hsp c ts Hts).
  assert (Hi : (i < list_sum (dim0 <$> ts))%nat) by (rewrite Hds, Hnn, <- Hlo; by apply lookup_lt_Some in Hd).
  destruct (rows_concat ts ty sh Hf i Hi) as (r & -> & R1 & R2 & R3 & R4). exists r. split; [done|].
  exists (list_sum (dim0 <$> ts)), sh. cbn [t_ty t_shape t_data]. done.
Qed.

(** A caller gets one sequence of timesteps only. *)
Theorem C44_deterministic s o1 o2 : timesteps s o1 -> timesteps s o2 -> o1 = o2.
Proof.
  intros H. revert o2. induction H as [s d s' H|s d s' ds H Hr IH]; intros o2 H2; inversion H2 as [s2 d2 s2' E|s2 d2 s2' ds2 E Hr2]; subst; rewrite H in E; try done.
  - by injection E as <- _.
  - injection E as <- <-. f_equal. by apply IH.
Qed.

(** If the columns are divided differently a caller may be told half way that the
    sample does not consist of timesteps. *)
Definition ones (n : nat) (x : Z) : tensor := mkTensor (TInt 32 true) [n] (replicate n x).
Definition uneven : list (list tensor) := [[ones 2 7; ones 2 8]; [ones 4 9]].
Theorem C44_timesteps_refuted :
  ~ forall m cols sq n, cols <> [] -> Forall column_ok cols -> Forall (fun ts => list_sum (dim0 <$> ts) = n) cols ->
      exists s outs, make_sample m cols sq = Some s /\ timesteps s outs /\ length outs = n.
Proof.
  intros H. destruct (H (mkMeta 1 1 1 (Fin 1) false) uneven [] 4%nat) as (s & outs & Hs & Ho & _); [done| |by repeat constructor|].
  - repeat constructor; try done; [exists (TInt 32 true), []; repeat constructor; cbn; try lia; by eexists; split; [done|lia]|
      exists (TInt 32 true), []; repeat constructor; cbn; try lia; by eexists; split; [done|lia]].
  - vm_compute in Hs. injection Hs as <-. inversion Ho as [s d s' E|s d s' ds E Ho1]; subst; [by vm_compute in E|].
    vm_compute in E. injection E as <- <-. inversion Ho1 as [s d s' E|s d s' ds1 E Ho2]; subst; [by vm_compute in E|].
    vm_compute in E. injection E as <- <-. inversion Ho2 as [s d s' E|s d s' ds2 E Ho3]; subst; by vm_compute in E.
Qed.

(** ** Concrete case *)

Definition even : list (list tensor) := [[ones 2 7; ones 1 8]; [mkTensor (TOther 1) [2; 2]%nat [1; 2; 3; 4]; mkTensor (TOther 1) [1; 2]%nat [5; 6]]].
Example C44_example : even <> [] /\ Forall column_ok even /\ same_split [2; 1]%nat even.
Proof.
  split; [done|]. split; [|by repeat constructor]. repeat constructor; try done.
  - exists (TInt 32 true), []. repeat constructor; cbn; try lia; by eexists; split; [done|lia].
  - exists (TOther 1), [2%nat]. repeat constructor; cbn; try lia; by eexists; split; [done|lia].
Qed.

Print Assumptions C44_timesteps_partial.
Print Assumptions C44_deterministic.
Print Assumptions C44_timesteps_refuted.
