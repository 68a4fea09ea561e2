(** C39, C40, C41: the TrajectoryWriter. *)
From Verif Require Import Base Trajectory Tensor TrajUtil ChunkerOptions Sample Stream Reactor PropTraj PropSample PropStream PropInsertStream
  Chunker PropChunker TrajWriter TrajWriterProofs.

(** ** C39: what a sampled item contains *)

(** *** Specification *)

(** The column of a sampled item that was created from the references [col.1] with
    the flag squeeze [col.2]: the tensors appended when the references were made,
    stacked in this order, or the one tensor itself. *)
Definition column_value (m : cmap) (col : list ref * bool) (out : tensor) : Prop :=
  exists ts, mapM (tensor_at m) col.1 = Some ts /\
    if col.2 then ts = [out] else exists ty sh, Forall (same_kind ty sh) ts /\ out = stacked ty sh ts.

(** Two references that follow each other in a column and that share a chunk are
    for consecutive appends. *)
Definition contiguous (m : cmap) (refs : list ref) : Prop := forall i r r' c c',
  refs !! i = Some r -> refs !! S i = Some r' -> cell_at m r = Some c -> cell_at m r' = Some c' -> ce_key c = ce_key c' -> r' = (r.1, S r.2).

(** *** Slices of chunks *)

Lemma drop_concat_rows {A} (L : list (list A)) e o : Forall (fun l => length l = e) L -> drop (o * e) (concat L) = concat (drop o L).
Proof.
  intros H. revert o. induction H as [|l L Hl H IH]; intros o; [cbn [concat]; by rewrite !drop_nil|]. destruct o as [|o]; [done|].
  cbn [concat drop]. rewrite drop_app_ge by (cbn; lia). rewrite <- IH. f_equal. cbn. lia.
Qed.
Lemma take_concat_rows {A} (L : list (list A)) e n : Forall (fun l => length l = e) L -> take (n * e) (concat L) = concat (take n L).
Proof.
  intros H. revert n. induction H as [|l L Hl H IH]; intros n; [cbn [concat]; by rewrite !take_nil|]. destruct n as [|n]; [done|].
  cbn [concat take]. rewrite take_app_ge by (cbn; lia). rewrite <- IH. f_equal. f_equal. cbn. lia.
Qed.
Lemma slice_stacked ty sh T o n : Forall (same_kind ty sh) T -> Forall tensor_ok T -> (o + n <= length T)%nat ->
  tensor_slice (stacked ty sh T) (Z.of_nat o) (Z.of_nat o + Z.of_nat n) = UOk (stacked ty sh (segment T o n)).
Proof.
  intros Hk Hok Hl. unfold tensor_slice, stacked. cbn [t_shape t_ty t_data]. rewrite decide_True by lia.
  replace (Z.to_nat (Z.of_nat o + Z.of_nat n - Z.of_nat o)) with n by lia. rewrite Nat2Z.id.
  assert (HL : Forall (fun l => length l = elements sh) (t_data <$> T)).
  { apply Forall_fmap, Forall_lookup. intros i t Ht. eapply Forall_lookup_1 in Hk, Hok; [|done..]. destruct Hk as [_ <-], Hok. done. }
  rewrite drop_concat_rows by done. rewrite take_concat_rows by (by apply Forall_drop). unfold segment. rewrite <- fmap_drop, <- fmap_take. f_equal. f_equal.
  f_equal. rewrite take_length, drop_length. lia.
Qed.

Definition run (col i n : nat) : list ref := (fun j => (col, j)) <$> seq i n.
Lemma run_S col i n : run col i (S n) = run col i n ++ [(col, i + n)%nat].
Proof. unfold run. by rewrite seq_S, fmap_app. Qed.
Lemma mapM_run m col k h : m !! col = Some (k, h) -> forall n i, (i + n <= length h)%nat -> mapM (tensor_at m) (run col i n) = Some (h_tensor <$> segment h i n).
Proof.
  intros Hm. unfold run, segment. induction n as [|n IH]; intros i Hi; [done|]. cbn [seq fmap list_fmap mapM].
  destruct (lookup_lt_is_Some_2 h i) as [x Hx]; [lia|]. assert (tensor_at m (col, i) = Some (h_tensor x)) as ->.
  { unfold tensor_at. cbn [fst snd]. rewrite Hm. cbn [mbind option_bind]. by rewrite Hx. }
  cbn [mbind option_bind]. pose proof (IH (S i) ltac:(lia)) as E. cbn [mbind option_bind] in E. rewrite E. cbn [mbind option_bind].
  by rewrite (drop_S h x i Hx).
Qed.

(** A slice that stands for the references of a run: the rows of the chunk are the
    tensors of the run. *)
Lemma slice_run m col i n key off d ty sh : colsinv m -> (0 < n)%nat -> from_cell m (mkKchunk key d) ->
  Forall (fun r => spec_at m r = Some (mkTspec ty (Some (Some <$> sh))) /\ exists c, cell_at m r = Some c /\ ce_key c = key) (run col i n) ->
  (exists c, cell_at m (col, i) = Some c /\ ce_off c = off) ->
  exists ts, mapM (tensor_at m) (run col i n) = Some ts /\ Forall (same_kind ty sh) ts /\ Forall tensor_ok ts /\ ts <> [] /\
    unpack_chunk_column_and_slice d 0 off (Z.of_nat n) = UOk (stacked ty sh ts).
Proof.
  intros [I1 I2] Hn (r0 & c0 & ch & H0 & Hch & [= -> ->]) HR (ci & Hci & <-).
  assert (IN : forall j, (i <= j < i + n)%nat -> (col, j) ∈ run col i n).
  { intros j Hj. unfold run. apply elem_of_list_fmap. exists j. split; [done|]. apply elem_of_seq. lia. }
  rewrite Forall_forall in HR. unfold cell_at in H0. destruct (m !! r0.1) as [[k0 h0]|] eqn:Em0; [|done]. cbn [mbind option_bind] in H0.
  unfold cell_at in Hci. cbn [fst snd] in Hci. destruct (m !! col) as [[k h]|] eqn:Em; [|done]. cbn [mbind option_bind] in Hci.
  destruct (HR _ (IN i ltac:(lia))) as (Hsp & c' & Hc' & Hkey). unfold cell_at in Hc'. cbn [fst snd] in Hc'. rewrite Em in Hc'. cbn [mbind option_bind] in Hc'.
  rewrite Hci in Hc'. injection Hc' as <-.
  destruct (I1 _ _ _ Em0) as (K0 & _ & _). cbn [fst snd] in K0. destruct (ki_res _ _ K0 _ _ _ H0 Hch) as (_ & Hck & _).
  assert (r0.1 = col) as Ecol.
  { apply (I2 _ _ _ _ _ _ (ck_key ch) Em0 Em); apply elem_of_list_further, elem_of_list_fmap.
    - exists c0. split; [done|]. by eapply elem_of_list_lookup_2.
    - exists ci. split; [done|]. by eapply elem_of_list_lookup_2. }
  rewrite Ecol, Em in Em0. injection Em0 as <- <-. destruct (I1 _ _ _ Em) as (K & HO & (sh' & Hsh)). cbn [fst snd] in *.
  assert (Hsp' : k_spec k = mkTspec ty (Some (Some <$> sh))).
  { unfold spec_at in Hsp. cbn [fst] in Hsp. rewrite Em in Hsp. cbn [mbind option_bind] in Hsp. by injection Hsp. }
  (* every cell of the run has the chunk *)
  assert (RS : forall j, (i <= j < i + n)%nat -> exists c, k_cells k !! j = Some c /\ ce_off c - ce_off ci = Z.of_nat j - Z.of_nat i /\ ce_chunk c = Some ch).
  { intros j Hj. destruct (HR _ (IN j Hj)) as (_ & c & Hc & Hkj). unfold cell_at in Hc. cbn [fst snd] in Hc. rewrite Em in Hc. cbn [mbind option_bind] in Hc.
    exists c. split; [done|]. destruct (HO i j ci c Hci Hc) as [O1 _]; [congruence|]. split; [done|].
    destruct (HO r0.2 j c0 c H0 Hc) as [_ O2]; [congruence|]. by apply O2. }
  destruct (RS i ltac:(lia)) as (ci' & Hci' & _ & Hchi). rewrite Hci in Hci'. injection Hci' as <-.
  destruct (ki_res _ _ K _ _ _ Hci Hchi) as (_ & _ & lo & n1 & L1 & L2 & L3 & ((ty1 & sh1 & Hk1 & Hu1) & _)).
  destruct (RS (i + n - 1)%nat ltac:(lia)) as (cl & Hcl & Hol & Hchl).
  destruct (ki_res _ _ K _ _ _ Hcl Hchl) as (_ & _ & lo2 & n2 & M1 & M2 & M3 & ((ty2 & sh2 & Hk2 & Hu2) & _)).
  assert (lo2 = lo) as -> by lia. rewrite Hu1 in Hu2. injection Hu2 as _ Hlen _ _. rewrite !fmap_length in Hlen. unfold segment in Hlen. rewrite !take_length, !drop_length in Hlen.
  assert (n2 = n1) as -> by lia.
  assert (KD : forall j x, h !! j = Some x -> same_kind ty sh (h_tensor x) /\ tensor_ok (h_tensor x)).
  { intros j x Hx. destruct (lookup_lt_is_Some_2 (k_cells k) j) as [c Hc]; [rewrite <- (ki_len _ _ K); by eapply lookup_lt_Some|].
    destruct (ki_info _ _ K _ _ _ Hc Hx) as (_ & _ & T1 & T2). rewrite Hsp' in T1, T2. cbn in T1, T2. apply dims_defined in T2.
    split; [by split|]. exact (Forall_lookup_1 _ _ _ _ (ki_ok _ _ K) Hx). }
  assert (SG : forall lo n, Forall (fun t => same_kind ty sh t /\ tensor_ok t) (h_tensor <$> segment h lo n)).
  { intros a b. apply Forall_fmap, Forall_take, Forall_drop, Forall_lookup. intros j x Hx. by apply (KD j). }
  exists (h_tensor <$> segment h i n). split; [apply (mapM_run m col k h); [done|lia]|]. split; [eapply Forall_impl; [apply SG|]; by intros ? [? _]|].
  split; [eapply Forall_impl; [apply SG|]; by intros ? [_ ?]|].
  split. { intros E. apply (f_equal length) in E. rewrite fmap_length in E. unfold segment in E. rewrite take_length, drop_length in E. cbn in E. lia. }
  assert (E1 : stacked ty1 sh1 (h_tensor <$> segment h lo n1) = stacked ty sh (h_tensor <$> segment h lo n1)).
  { assert (Hx : exists x, (h_tensor <$> segment h lo n1) !! 0%nat = Some x).
    { apply lookup_lt_is_Some_2. rewrite fmap_length. unfold segment. rewrite take_length, drop_length. lia. }
    destruct Hx as [x Hx]. destruct (Forall_lookup_1 _ _ _ _ Hk1 Hx) as [<- <-]. destruct (Forall_lookup_1 _ _ _ _ (SG lo n1) Hx) as [[<- <-] _]. done. }
  unfold unpack_chunk_column_and_slice. rewrite Hu1, E1. unfold stacked at 1. cbn [t_shape]. rewrite L3.
  assert (HL : length (h_tensor <$> segment h lo n1) = n1) by (rewrite fmap_length; unfold segment; rewrite take_length, drop_length; lia).
  rewrite decide_False by (rewrite HL; lia). rewrite slice_stacked.
  - f_equal. f_equal. unfold segment. rewrite <- fmap_drop, <- fmap_take. f_equal. rewrite <- take_drop_commute || rewrite skipn_firstn_comm.
    rewrite take_take, drop_drop. f_equal; [lia|]. f_equal. lia.
  - eapply Forall_impl; [apply SG|]; by intros ? [? _].
  - eapply Forall_impl; [apply SG|]; by intros ? [_ ?].
  - rewrite HL. lia.
Qed.

(** A list of tensors, cut into non-empty groups. *)
Definition groups_ok (ty : dty) (sh : list nat) (gs : list (list tensor)) : Prop :=
  gs <> [] /\ Forall (fun g => Forall (same_kind ty sh) g /\ Forall tensor_ok g /\ g <> []) gs.

Lemma merge_groups m chunks ty sh : colsinv m -> (forall key d, chunks !! key = Some d -> from_cell m (mkKchunk key d)) ->
  forall rs cs, Forall2 (fun r c => cell_at m r = Some c) rs cs ->
  Forall (fun r => spec_at m r = Some (mkTspec ty (Some (Some <$> sh)))) rs ->
  forall col i n key off, (0 < n)%nat ->
  Forall (fun r => spec_at m r = Some (mkTspec ty (Some (Some <$> sh))) /\ exists c, cell_at m r = Some c /\ ce_key c = key) (run col i n) ->
  (exists c, cell_at m (col, i) = Some c /\ ce_off c = off) ->
  contiguous m ((col, i + n - 1)%nat :: rs) ->
  (forall s, s ∈ merge_from (mkSlice key off (Z.of_nat n) 0) cs -> is_Some (chunks !! sl_key s)) ->
  exists gs, local_slices (merge_from (mkSlice key off (Z.of_nat n) 0) cs) chunks = SlOk (stacked ty sh <$> gs) ∅ ∅ /\
    mapM (tensor_at m) (run col i n ++ rs) = Some (concat gs) /\ groups_ok ty sh gs.
Proof.
  intros I Hch. induction 1 as [|r c rs cs Hrc Hrs IH]; intros Hsp col i n key off Hn HR Ho Hct Hin.
  - cbn [merge_from local_slices] in *. destruct (Hin _ (elem_of_list_here _ _)) as [d Hd]. cbn [sl_key sl_idx sl_off sl_len] in *. rewrite Hd.
    destruct (slice_run m col i n key off d ty sh I Hn (Hch _ _ Hd) HR Ho) as (ts & T1 & T2 & T3 & T4 & ->).
    exists [ts]. split; [done|]. cbn [concat]. rewrite !app_nil_r. split; [done|]. split; [done|]. by constructor.
  - apply Forall_cons in Hsp as [Hr Hsp]. assert (Hlast : exists cl, cell_at m (col, i + n - 1)%nat = Some cl /\ ce_key cl = key).
    { rewrite Forall_forall in HR. apply (HR (col, i + n - 1)%nat). unfold run. apply elem_of_list_fmap. exists (i + n - 1)%nat. split; [done|]. apply elem_of_seq. lia. }
    destruct Hlast as (cl & Hcl & Hkl).
    assert (Hct' : contiguous m (r :: rs)) by (intros j; exact (Hct (S j))).
    cbn [merge_from] in *. cbn [sl_key sl_off sl_len sl_idx] in *. destruct (Z.eqb_spec (ce_key c) key) as [E|E].
    + assert (r = (col, i + n)%nat) as ->.
      { rewrite (Hct 0%nat _ r cl c eq_refl eq_refl Hcl Hrc) by congruence. cbn. f_equal. lia. }
      replace (Z.of_nat n + 1) with (Z.of_nat (S n)) in * by lia.
      destruct (IH Hsp col i (S n) key off) as (gs & G1 & G2 & G3); try done; [lia| | |].
      * rewrite run_S. apply Forall_app. split; [done|]. repeat constructor; [done|]. by exists c.
      * replace (i + S n - 1)%nat with (i + n)%nat by lia. done.
      * exists gs. split; [done|]. split; [|done]. by rewrite run_S, <- app_assoc in G2.
    + cbn [local_slices]. destruct (Hin _ (elem_of_list_here _ _)) as [d Hd]. cbn [sl_key sl_idx sl_off sl_len] in *. rewrite Hd.
      destruct (slice_run m col i n key off d ty sh I Hn (Hch _ _ Hd) HR Ho) as (ts & T1 & T2 & T3 & T4 & ->).
      destruct r as [col' i']. destruct (IH Hsp col' i' 1%nat (ce_key c) (ce_off c)) as (gs & G1 & G2 & G3); try done.
      * lia.
      * cbn. repeat constructor; [done|]. by exists c.
      * by exists c.
      * by replace (i' + 1 - 1)%nat with i' by lia.
      * intros s Hs. apply Hin. by apply elem_of_list_further.
      * exists (ts :: gs). unfold new_slice. change (Z.of_nat 1) with 1 in G1. rewrite G1. split; [done|]. split.
        -- change (run col' i' 1 ++ rs) with ((col', i') :: rs) in G2. apply mapM_Some. cbn [concat]. apply Forall2_app; by apply mapM_Some.
        -- destruct G3 as [G3 G4]. split; [done|]. by constructor.
Qed.

(** One column. *)
Lemma column_groups m chunks refs ty sh : colsinv m -> (forall key d, chunks !! key = Some d -> from_cell m (mkKchunk key d)) ->
  refs <> [] -> Forall (fun r => is_Some (cell_at m r)) refs -> Forall (fun r => spec_at m r = Some (mkTspec ty (Some (Some <$> sh)))) refs ->
  contiguous m refs -> (forall s, s ∈ merge_adjacent (omap (cell_at m) refs) -> is_Some (chunks !! sl_key s)) ->
  exists gs, local_slices (merge_adjacent (omap (cell_at m) refs)) chunks = SlOk (stacked ty sh <$> gs) ∅ ∅ /\
    mapM (tensor_at m) refs = Some (concat gs) /\ groups_ok ty sh gs.
Proof.
  intros I Hch Hne Hce Hsp Hct Hin.
  assert (F2 : Forall2 (fun r c => cell_at m r = Some c) refs (omap (cell_at m) refs)).
  { clear -Hce. induction Hce as [|r refs [c Hc] H IH]; [constructor|]. assert (Ho : omap (cell_at m) (r :: refs) = c :: omap (cell_at m) refs) by (cbn; by rewrite Hc).
    rewrite Ho. by constructor. }
  revert F2 Hin. generalize (omap (cell_at m) refs). intros cs F2 Hin. destruct refs as [|[col i] refs]; [done|].
  destruct cs as [|c cs']; [by inversion F2|]. apply Forall2_cons in F2 as [Hc F2']. clear Hce. cbn [merge_adjacent] in *. apply Forall_cons in Hsp as [Hs1 Hsp].
  destruct (merge_groups m chunks ty sh I Hch refs cs' F2' Hsp col i 1%nat (ce_key c) (ce_off c)) as (gs & G1 & G2 & G3); try done.
  - lia.
  - cbn. repeat constructor; [done|]. by exists c.
  - by exists c.
  - by replace (i + 1 - 1)%nat with i by lia.
  - by exists gs.
Qed.

Lemma stacked_sum ty sh gs : mkTensor ty (list_sum (dim0 <$> (stacked ty sh <$> gs)) :: sh) (concat (t_data <$> (stacked ty sh <$> gs))) = stacked ty sh (concat gs).
Proof.
  unfold stacked at 3. f_equal.
  - f_equal. induction gs as [|g gs IH]; [done|]. cbn [concat]. rewrite app_length, <- IH. done.
  - induction gs as [|g gs IH]; [done|]. cbn [concat]. rewrite fmap_app, concat_app, <- IH. done.
Qed.
Lemma unpack_groups ty sh gs : groups_ok ty sh gs -> unpack_column (fresh_col (stacked ty sh <$> gs)) = Some (stacked ty sh (concat gs)).
Proof.
  intros [Hne HG]. rewrite (unpack_fresh _ ty sh), stacked_sum; [done|by destruct gs|].
  apply Forall_fmap. eapply Forall_impl; [exact HG|]. intros g (G1 & G2 & G3). cbn. split; [by apply stacked_ok|]. split; [done|].
  exists (length g). split; [done|]. destruct g; [done|cbn; lia].
Qed.
Lemma squeeze_one ty sh t : same_kind ty sh t -> tensor_ok t -> Sample.sub_slice (stacked ty sh [t]) 0 = Some t.
Proof.
  intros [<- <-] [H _]. unfold Sample.sub_slice, stacked. cbn [t_shape t_ty t_data length]. rewrite decide_True by lia.
  cbn. rewrite app_nil_r, drop_0, <- H, firstn_all. by destruct t.
Qed.

(** All columns. *)
Lemma columns_groups m chunks : colsinv m -> (forall key d, chunks !! key = Some d -> from_cell m (mkKchunk key d)) ->
  forall cols : list (list ref * bool), Forall (col_fine m) cols -> Forall (fun col => contiguous m col.1) cols ->
  (forall s, s ∈ concat (merge_adjacent <$> (omap (cell_at m) <$> (fst <$> cols))) -> is_Some (chunks !! sl_key s)) ->
  exists tss outs outs', local_traj (merge_adjacent <$> (omap (cell_at m) <$> (fst <$> cols))) chunks = ClOk tss /\
    Forall (fun ts => ts <> []) tss /\ length tss = length cols /\ 
    unpack_columns (fresh_col <$> tss) = Some outs /\ squeeze_columns (snd <$> cols) outs = Some outs' /\ Forall2 (column_value m) cols outs'.
Proof.
  intros I Hch. induction cols as [|[refs sq] cols IH]; intros Hf Hct Hin.
  - exists [], [], []. by repeat constructor.
  - apply Forall_cons in Hf as [Hf1 Hf]. apply Forall_cons in Hct as [Hc1 Hct]. destruct Hf1 as (F1 & F2 & F3 & ty & sh & F4). cbn [fst snd] in *.
    rewrite !fmap_cons in *. cbn [fst snd] in *. cbn [concat] in Hin.
    destruct IH as (tss & outs & outs' & I1 & I2 & I3 & I4 & I5 & I6); [done|done|intros s Hs; apply Hin, elem_of_app; by right|].
    destruct (column_groups m chunks refs ty sh I Hch F1 F3 F4 Hc1) as (gs & G1 & G2 & G3); [intros s Hs; apply Hin, elem_of_app; by left|].
    pose proof (unpack_groups ty sh gs G3) as HU.
    assert (KK : Forall (fun t => same_kind ty sh t /\ tensor_ok t) (concat gs)).
    { destruct G3 as [_ G3]. apply Forall_concat. eapply Forall_impl; [exact G3|]. intros g (K1 & K2 & _). rewrite Forall_forall in K1, K2 |- *. auto. }
    assert (exists out, (if sq then if (dim0 (stacked ty sh (concat gs)) =? 1)%nat then Sample.sub_slice (stacked ty sh (concat gs)) 0 else None else Some (stacked ty sh (concat gs))) = Some out /\
      column_value m (refs, sq) out) as (out & HO1 & HO2).
    { destruct sq.
      - specialize (F2 eq_refl). assert (HL : length (concat gs) = 1%nat).
        { assert (length_mapM : forall l (k : list tensor), mapM (tensor_at m) l = Some k -> length k = length l).
          { intros l k Hk. apply mapM_Some in Hk. by apply Forall2_length in Hk. }
          by rewrite (length_mapM _ _ G2). }
        destruct (concat gs) as [|t [|]] eqn:Ec; try done. unfold stacked at 1. cbn [dim0 t_shape length Nat.eqb].
        apply Forall_cons in KK as [[K1 K2] _]. exists t. rewrite squeeze_one by done. split; [done|]. exists [t]. by split.
      - eexists. split; [done|]. exists (concat gs). split; [done|]. exists ty, sh. split; [|done]. eapply Forall_impl; [exact KK|]. by intros ? [? _]. }
    exists ((stacked ty sh <$> gs) :: tss), (stacked ty sh (concat gs) :: outs), (out :: outs'). cbn [local_traj]. rewrite G1, I1. split; [done|].
    split; [constructor; [by destruct gs, G3|done]|]. split; [cbn; by rewrite I3|]. rewrite fmap_cons. cbn [unpack_columns].
    rewrite HU. cbn [mbind option_bind]. rewrite I4. split; [done|]. cbn [squeeze_columns]. rewrite HO1. cbn [mbind option_bind]. rewrite I5. split; [done|]. by constructor.
Qed.

Lemma foldl_ins_from (P : kchunk -> Prop) l : Forall P l -> forall m : gmap Z chunk_data, (forall key d, m !! key = Some d -> P (mkKchunk key d)) ->
  forall key d, foldl (fun m c => <[kc_key c := kc_data c]> m) m l !! key = Some d -> P (mkKchunk key d).
Proof.
  induction 1 as [|[k0 d0] l Hc _ IH]; intros m Hm; [exact Hm|]. cbn [foldl]. apply IH. intros key d. cbn [kc_key kc_data].
  destruct (decide (k0 = key)) as [->|]; [rewrite lookup_insert; by intros [= ->]|]. rewrite lookup_insert_ne by done. apply Hm.
Qed.

(** An item of the writer that got its chunks. *)
Lemma item_samples m it cols mt data : colsinv m -> item_fine m (it, cols) -> Forall (fun col => contiguous m col.1) cols ->
  kc_key <$> data = get_chunk_keys (wi_traj it) -> Forall (from_cell m) data ->
  exists s out, as_sample_local (mkSampled (mkSinfo mt (wi_traj it) (wi_squeeze it)) data) = AOk s /\ as_trajectory s = SROk (mt, out) /\
    Forall2 (column_value m) cols out.
Proof.
  intros I (F0 & F1 & F2 & F3 & F4) Hct Hk Hd. cbn [fst snd] in *.
  set (chunks := foldl (fun m c => <[kc_key c := kc_data c]> m) ∅ data : gmap Z chunk_data).
  assert (Hch : forall key d, chunks !! key = Some d -> from_cell m (mkKchunk key d)).
  { apply (foldl_ins_from (from_cell m) data Hd). intros key d. by rewrite lookup_empty. }
  destruct (columns_groups m chunks I Hch cols F4 Hct) as (tss & outs & outs' & E1 & E2 & E3 & E4 & E5 & E6).
  { intros s Hs. rewrite <- F3 in Hs. apply (elem_of_dom (D := gset Z)). unfold chunks. rewrite overwrite_dom, Hk, dom_empty_L, union_empty_l_L. apply elem_of_list_to_set.
    unfold get_chunk_keys. apply chunk_keys_aux_elem. split; [|by intros ?%elem_of_nil]. apply elem_of_list_fmap. by exists s. }
  unfold as_sample_local. cbn [sp_info si_traj si_meta si_squeeze sp_chunks]. fold chunks. rewrite F3, E1. cbn [finish_sample si_meta si_squeeze].
  destruct tss as [|[|t ts] tss]; [destruct cols; done|apply Forall_cons in E2 as [? _]; done|]. unfold make_sample.
  set (s0 := mkSample mt (-1) (fresh_col <$> ((t :: ts) :: tss)) (wi_squeeze it) false).
  eexists _, outs'. split; [reflexivity|]. split; [|done]. unfold as_trajectory.
  destruct (is_composed_of_timesteps s0); cbn [s_called s_cols s_squeeze s_meta s0]; rewrite E4, F2, E5; done.
Qed.

(** ** C40: the protocol *)

Lemma async_message chunks r : message_ok (dom chunks) r ->
  match ir_item r with
  | None => exists c, async_insert_request (fun _ => true) chunks r = Some (IContinue c)
  | Some ii => exists c data, async_insert_request (fun _ => true) chunks r = Some (IInsert c ii data)
  end.
Proof.
  intros [Hne Hit]. destruct (async_insert_request (fun _ => true) chunks r) as [res|] eqn:E.
  - destruct r as [cs [ii|]]; unfold async_insert_request in E; cbn [ir_chunks ir_item] in *.
    + destruct (Hit ii eq_refl) as (_ & _ & Hk). unfold keys_in in Hk. rewrite <- (keep_first_dom cs chunks) in Hk.
      pose proof (proj2 (find_chunks_some _ _) Hk) as [data Hd].
      destruct cs as [|c0 cs]; rewrite Hd in E; cbn zeta in E; (destruct (_ =? _)%nat; [|done]); injection E as <-; by eexists _, _.
    + destruct cs; [done|]. injection E as <-. by eexists.
  - exfalso. apply C52_async_crash_iff in E as [[? ?]|(it & Hi & _ & Hn)]; [by destruct Hne|]. apply Hn. destruct (Hit it Hi) as (? & ? & _). done.
Qed.

Lemma async_prefix pre : forall chunks r suf, wire_ok (dom chunks) (pre ++ r :: suf) ->
  exists c, async_run (fun _ => true) chunks pre = Some c /\ message_ok (dom c) r.
Proof.
  induction pre as [|x pre IH]; intros chunks r suf; cbn [app wire_ok async_run]; intros [H1 H2]; [by exists chunks|].
  pose proof (async_message chunks x H1) as H. destruct (ir_item x) as [ii|].
  - destruct H as (c & data & E). rewrite E. apply (IH c r suf). rewrite (async_held (fun _ => true) chunks x c); [done|left; by eexists _, _].
  - destruct H as (c & E). rewrite E. apply (IH c r suf). rewrite (async_held (fun _ => true) chunks x c); [done|by right].
Qed.
Lemma wire_messages async rs : forall h, wire_ok h rs -> messages_ok async h rs.
Proof.
  induction rs as [|r rs IH]; intros h; [done|]. cbn [wire_ok messages_ok]. intros [[H1 H2] H3]. split; [|split; [|by apply IH]].
  - intros _. split; [done|]. intros it Hi. by apply (H2 it Hi).
  - unfold keep_ok. destruct (ir_item r) as [it|]; [|done]. intros _ k Hk. destruct (H2 it eq_refl) as (_ & H4 & _). by apply H4.
Qed.
Lemma sync_all rs : forall chunks, wire_ok (dom chunks) rs ->
  sync_insert (fun _ => true) (fun _ => true) (fun _ => true) chunks rs = Some (true, confirmable rs).
Proof.
  induction rs as [|r rs IH]; intros chunks; [done|]. cbn [wire_ok sync_insert]. intros [[_ H2] H3]. unfold held_after in H3. destruct r as [cs [it|]]; cbn [ir_chunks ir_item] in *.
  - destruct (H2 it eq_refl) as (_ & Hkeep & Hk). unfold keys_in in *. rewrite <- (overwrite_dom cs chunks) in *. set (m := foldl _ chunks cs) in *. clearbody m.
    pose proof (proj2 (find_chunks_some _ _) Hk) as [data ->]. cbn [negb]. rewrite andb_false_r. cbn zeta.
    assert (HK := proj2 (keep_size_set m (ii_keep it)) Hkeep). apply Nat.eqb_eq in HK as ->. rewrite IH by (by rewrite keep_dom). cbn [mbind option_bind].
    unfold confirmable. cbn [omap list_omap ir_item mbind option_bind]. by destruct (ii_confirm it).
  - rewrite IH by (by rewrite overwrite_dom). done.
Qed.

Section reach.
Context (o : copts) (sigs : option (gmap Z (option (list tspec)))) (ep : Z) (Ho : validate_options o = Ok).

(** Whatever the writer has sent over its current stream: when the asynchronous
    service handles a message, it has every chunk that the item of the message
    refers to and its check of the chunks to keep succeeds; that is, it hands the
    item with its chunks to the table. *)
Theorem C40_trajectory_async w pre r suf : tw_reach (tw_new o sigs ep) w -> w_wire w = pre ++ r :: suf ->
  exists chunks, async_run (fun _ => true) ∅ pre = Some chunks /\
    match ir_item r with
    | None => exists c, async_insert_request (fun _ => true) chunks r = Some (IContinue c)
    | Some ii => exists c data, async_insert_request (fun _ => true) chunks r = Some (IInsert c ii data)
    end.
Proof.
  intros Hr Hw. pose proof (v_wire w (tw_reach_inv _ _ _ _ Ho Hr)) as V. rewrite Hw in V.
  destruct (async_prefix pre ∅ r suf) as (c & E & H); [by rewrite dom_empty_L|]. exists c. split; [done|]. by apply async_message.
Qed.
(** The synchronous service inserts and confirms every item. *)
Theorem C40_trajectory_sync w : tw_reach (tw_new o sigs ep) w ->
  sync_insert (fun _ => true) (fun _ => true) (fun _ => true) ∅ (w_wire w) = Some (true, confirmable (w_wire w)).
Proof. intros Hr. apply sync_all. rewrite dom_empty_L. exact (v_wire w (tw_reach_inv _ _ _ _ Ho Hr)). Qed.
(** No check of the server fails, even if tables do not exist, inserts fail or
    confirmations cannot be sent. *)
Theorem C40_trajectory_no_crash w tables ins written : tw_reach (tw_new o sigs ep) w ->
  is_Some (async_run tables ∅ (w_wire w)) /\ is_Some (sync_insert tables ins written ∅ (w_wire w)).
Proof.
  intros Hr. pose proof (v_wire w (tw_reach_inv _ _ _ _ Ho Hr)) as V.
  split; [apply C52_async_partial|apply C52_sync_partial]; rewrite dom_empty_L; by apply wire_messages.
Qed.

(** ** C39 *)

Lemma async_from (P : kchunk -> Prop) tables rs : Forall (fun r => Forall P (ir_chunks r)) rs -> forall chunks c,
  (forall key d, chunks !! key = Some d -> P (mkKchunk key d)) -> async_run tables chunks rs = Some c ->
  forall key d, c !! key = Some d -> P (mkKchunk key d).
Proof.
  assert (KF : forall cs (chunks : gmap Z chunk_data), Forall (P) cs -> (forall key d, chunks !! key = Some d -> P (mkKchunk key d)) ->
    forall key d, foldl (fun m c => match m !! kc_key c with Some _ => m | None => <[kc_key c := kc_data c]> m end) chunks cs !! key = Some d -> P (mkKchunk key d)).
  { induction cs as [|[k0 d0] cs IH]; intros chunks Hcs Hch; [exact Hch|]. apply Forall_cons in Hcs as [Hc Hcs]. cbn [foldl kc_key kc_data]. apply (IH _ Hcs).
    destruct (chunks !! k0); [exact Hch|]. intros key d. destruct (decide (k0 = key)) as [->|]; [rewrite lookup_insert; by intros [= ->]|].
    rewrite lookup_insert_ne by done. apply Hch. }
  induction 1 as [|r rs Hr _ IH]; intros chunks c Hch; cbn [async_run]; [by intros [= <-]|].
  destruct (async_insert_request tables chunks r) as [[c'|c' it d'|]|] eqn:E; [| |by intros [= <-]|done]; intros E2; eapply IH; [|exact E2| |exact E2];
    destruct r as [cs [ii|]]; unfold async_insert_request in E; cbn [ir_chunks ir_item] in *.
  - destruct cs; (destruct (find_chunks _ _); [|done]; cbn zeta in E; destruct (_ =? _)%nat; [|done]; destruct (tables _); done).
  - destruct cs as [|c0 cs]; [done|]. injection E as <-. exact (KF (c0 :: cs) chunks Hr Hch).
  - assert (c' = keep_only (foldl (fun m c => match m !! kc_key c with Some _ => m | None => <[kc_key c := kc_data c]> m end) chunks cs) (ii_keep ii)) as ->.
    { destruct cs; (destruct (find_chunks _ _); [|done]; cbn zeta in E; destruct (_ =? _)%nat; [|done]; destruct (tables _); [|done]; by injection E as <- _ _). }
    intros key d Hd. apply map_filter_lookup_Some in Hd as [Hd _]. exact (KF cs chunks Hr Hch _ _ Hd).
  - by destruct cs.
Qed.
Lemma find_chunks_from (P : kchunk -> Prop) (c : gmap Z chunk_data) keys : (forall key d, c !! key = Some d -> P (mkKchunk key d)) ->
  forall data, find_chunks c keys = Some data -> kc_key <$> data = keys /\ Forall P data.
Proof.
  intros Hc. induction keys as [|k keys IH]; intros data; cbn [find_chunks]; [by intros [= <-]|]. destruct (c !! k) as [d|] eqn:E; [|done]. cbn [mbind option_bind].
  destruct (find_chunks c keys) as [l|]; [|done]. cbn [mbind option_bind]. intros [= <-]. destruct (IH l eq_refl) as [<- H]. split; [done|]. constructor; [by apply Hc|done].
Qed.
Lemma insert_data (P : kchunk -> Prop) tables chunks c ii data r : Forall P (ir_chunks r) ->
  (forall key d, chunks !! key = Some d -> P (mkKchunk key d)) ->
  async_insert_request tables chunks r = Some (IInsert c ii data) -> ir_item r = Some ii /\ kc_key <$> data = get_chunk_keys (ii_traj ii) /\ Forall (P) data.
Proof.
  intros Hr Hch E. destruct r as [cs [it|]]; unfold async_insert_request in E; cbn [ir_chunks ir_item] in *; [|by destruct cs].
  assert (exists c', find_chunks c' (get_chunk_keys (ii_traj it)) = Some data /\ it = ii /\ forall key d, c' !! key = Some d -> P (mkKchunk key d)) as (c' & E1 & -> & H).
  { exists (foldl (fun m c => match m !! kc_key c with Some _ => m | None => <[kc_key c := kc_data c]> m end) chunks cs).
    assert (KF : forall key d, foldl (fun m c => match m !! kc_key c with Some _ => m | None => <[kc_key c := kc_data c]> m end) chunks cs !! key = Some d -> P (mkKchunk key d)).
    { clear E. revert chunks Hch. induction cs as [|[k0 d0] cs IH]; intros chunks Hch; [exact Hch|]. apply Forall_cons in Hr as [Hc Hcs]. cbn [foldl kc_key kc_data]. apply (IH Hcs).
      destruct (chunks !! k0); [exact Hch|]. intros key d. destruct (decide (k0 = key)) as [->|]; [rewrite lookup_insert; by intros [= ->]|].
      rewrite lookup_insert_ne by done. apply Hch. }
    destruct cs; (destruct (find_chunks _ _) as [dt|]; [|done]; cbn zeta in E; destruct (_ =? _)%nat; [|done]; destruct (tables _); [|done]; injection E as _ <- <-; done). }
  split; [done|]. by apply (find_chunks_from _ c').
Qed.

(** An item that the server hands to the table, with the chunks [data], is sampled
    back (C42: the client gets what as_sample_local gives, see item_ok) as the
    tensors of the references of CreateItem, if no column has references to one
    chunk in a row that are not consecutive. *)
Theorem C39_trajectory_partial w pre r suf chunks c ii data it cols mt : tw_reach (tw_new o sigs ep) w -> w_wire w = pre ++ r :: suf ->
  async_run (fun _ => true) ∅ pre = Some chunks -> async_insert_request (fun _ => true) chunks r = Some (IInsert c ii data) ->
  (it, cols) ∈ w_created w -> ii_key ii = wi_key it -> Forall (fun col => contiguous (w_cols w) col.1) cols ->
  let sampled := mkSampled (mkSinfo mt (ii_traj ii) (snd <$> cols)) data in
  item_ok sampled /\ exists s out, as_sample_local sampled = AOk s /\ as_trajectory s = SROk (mt, out) /\ Forall2 (column_value (w_cols w)) cols out.
Proof.
  intros Hr Hw Hrun Hreq Hit Hkey Hct sampled. pose proof (tw_reach_inv _ _ _ _ Ho Hr) as I. pose proof (v_from w I) as V. rewrite Hw in V.
  apply Forall_app in V as [V1 V2]. apply Forall_cons in V2 as [[V2 V3] _].
  assert (HC : forall key d, chunks !! key = Some d -> from_cell (w_cols w) (mkKchunk key d)).
  { eapply (async_from (from_cell (w_cols w)) (fun _ => true) pre); [| |exact Hrun]; [eapply Forall_impl; [exact V1|]; by intros ? [? _]|]. intros key d. by rewrite lookup_empty. }
  destruct (insert_data (from_cell (w_cols w)) _ chunks c ii data r V2 HC Hreq) as (Hii & Hk & Hd).
  destruct (V3 ii Hii) as (it' & cols' & Hit' & K1 & K2 & K3).
  assert ((it', cols') = (it, cols)) as [= -> ->].
  { assert (exists i, w_created w !! i = Some (it, cols)) as [i Hi] by (by apply elem_of_list_lookup). assert (exists j, w_created w !! j = Some (it', cols')) as [j Hj] by (by apply elem_of_list_lookup).
    assert (i = j) as ->; [|congruence]. apply (NoDup_lookup (created_keys (w_created w)) i j (wi_key it)); [exact (v_keys w I)| |]; unfold created_keys; rewrite list_lookup_fmap; [by rewrite Hi|].
    rewrite Hj. cbn. congruence. }
  pose proof (v_items w I) as VI. rewrite Forall_forall in VI. specialize (VI _ Hit'). split.
  - split; [done|]. cbn. intros E. rewrite E in Hk. destruct VI as (F0 & _ & _ & F3 & F4). cbn [fst snd] in *. destruct cols as [|[refs sq] cols]; [done|].
    apply Forall_cons in F4 as [(F5 & _ & F6 & _) _]. cbn [fst] in *. destruct refs as [|r0 refs]; [done|]. apply Forall_cons in F6 as [[c0 Hc0] _].
    destruct (merge_head c0 (omap (cell_at (w_cols w)) refs)) as (s & l & E1 & _).
    assert (sl_key s ∈ get_chunk_keys (ii_traj ii)) as HX; [|rewrite <- Hk in HX; by apply elem_of_nil in HX].
    unfold get_chunk_keys. apply chunk_keys_aux_elem. split; [|by intros ?%elem_of_nil]. apply elem_of_list_fmap. exists s. split; [done|].
    rewrite K3, F3. rewrite !fmap_cons. cbn [fst concat]. apply elem_of_app. left.
    assert (Hom : omap (cell_at (w_cols w)) (r0 :: refs) = c0 :: omap (cell_at (w_cols w)) refs) by (cbn; by rewrite Hc0). rewrite Hom, E1. apply elem_of_list_here.
  - destruct (item_samples (w_cols w) it cols mt data (v_cols w I) VI Hct) as (s & out & A1 & A2 & A3); [by rewrite Hk, K3|done|].
    destruct VI as (_ & _ & F2 & _). cbn [fst snd] in F2. rewrite F2, <- K3 in A1. by exists s, out.
Qed.

(** ** C41: Flush *)

(** *** Specification *)

(** A run of the writer with what every action returned to the user. *)
Inductive tw_trace (w0 : tw) : list (tev * option status) -> tw -> Prop :=
| tt_nil : tw_trace w0 [] w0
| tt_snoc tr w e w' ret : tw_trace w0 tr w -> tw_enabled w e -> tw_step w e = TNext w' ret -> tw_trace w0 (tr ++ [(e, ret)]) w'.
(** The items for which CreateItem returned OK, and the ones that the server has
    confirmed. *)
Definition created_in (tr : list (tev * option status)) : list Z :=
  omap (fun x => match x with (ECreate _ _ _ key, Some Ok) => Some key | _ => None end) tr.
Definition confirmed_in (tr : list (tev * option status)) : list Z :=
  concat ((fun x => match x with (EConfirm keys, _) => keys | _ => [] end) <$> tr).
(** The actions that start or end a Flush or EndEpisode. *)
Definition flush_event (e : tev) : Prop := match e with EFlush _ _ | EEpisode _ _ | EDone _ _ _ => True | _ => False end.

(** *** What actions leave alone *)

Lemma col_step_frame w c e w' : col_step w c e = Some w' -> exists m, w' = set_cols w m.
Proof. unfold col_step. destruct (w_cols w !! c) as [[k h]|]; [|done]. cbn [mbind option_bind]. destruct (k_step k h e) as [[k' h']|]; [|done]. intros [= <-]. by eexists. Qed.
Lemma add_chunkers_frame data nk : forall w i w', add_chunkers w i data nk = Some w' -> exists m, w' = set_cols w m.
Proof.
  induction data as [|[t|] data IH]; intros w i w'; cbn [add_chunkers]; [intros [= <-]; exists (w_cols w); by rewrite set_cols_id| |apply IH].
  destruct (w_cols w !! i); [apply IH|]. destruct (k_new _ _ _) as [k|]; [|done]. cbn [mbind option_bind]. intros (m & ->)%IH. by exists m.
Qed.
Lemma force_flush_frame rs nk : forall w st w', force_flush w rs nk = Some (st, w') -> exists m, w' = set_cols w m.
Proof.
  induction rs as [|r rs IH]; intros w st w'; cbn [force_flush]; [intros [= _ <-]; exists (w_cols w); by rewrite set_cols_id|].
  destruct (is_ready w r); [apply IH|]. destruct (w_cols w !! r.1) as [[k h]|]; [|done]. cbn [mbind option_bind]. destruct (k_flush k (nk r.1)) as [[st' k']|]; [|done]. cbn [mbind option_bind].
  destruct (col_step w r.1 (KFlush (nk r.1))) as [w1|] eqn:E; [|done]. cbn [mbind option_bind]. apply col_step_frame in E as (m & ->). destruct (bool_decide _).
  - intros (m' & ->)%IH. by exists m'.
  - intros [= _ <-]. by exists m.
Qed.
Lemma end_chunkers_frame clear cs nk : forall w st w', end_chunkers w clear cs nk = Some (st, w') -> exists m u, w' = set_unrec (set_cols w m) u.
Proof.
  induction cs as [|c cs IH]; intros w st w'; cbn [end_chunkers]; [intros [= _ <-]; exists (w_cols w), (w_unrec w); by destruct w|]. destruct clear.
  - destruct (col_step w c (KReset (nk c))) as [w1|] eqn:E; [|done]. cbn [mbind option_bind]. apply col_step_frame in E as (m & ->). intros (m' & u & ->)%IH. by exists m', u.
  - destruct (w_cols w !! c) as [[k h]|]; [|done]. cbn [mbind option_bind]. destruct (k_flush k (nk c)) as [[st' k']|]; [|done]. cbn [mbind option_bind].
    destruct (col_step w c (KFlush (nk c))) as [w1|] eqn:E; [|done]. cbn [mbind option_bind]. apply col_step_frame in E as (m & ->). destruct (bool_decide _).
    + intros (m' & u & ->)%IH. by exists m', u.
    + intros [= _ <-]. by exists m, st'.
Qed.
Lemma signal_frame w : exists p, signal w = set_pos w p.
Proof. unfold signal. destruct (w_pos w) eqn:E; first [by eexists|exists (w_pos w); rewrite E; by destruct w; cbn in E; subst]. Qed.
Lemma return_frame w st : exists p u, worker_return w st = set_pos (set_unrec w u) p.
Proof. unfold worker_return. destruct (w_closed w); [by eexists _, _|]. destruct (bool_decide _); [exists WStart, (w_unrec w); by destruct w|by eexists _, _]. Qed.

(** The effect of every action on the ghost fields and on the call of the user. *)
Lemma step_ghost w e w' ret : tw_step w e = TNext w' ret ->
  created_keys (w_created w') = created_keys (w_created w) ++ created_in [(e, ret)] /\
  w_acked w' = list_to_set (confirmed_in [(e, ret)]) ∪ w_acked w /\
  (forall n fin, w_user w = UWait n fin -> ~ flush_event e -> w_user w' = UWait n fin).
Proof.
  assert (G : forall w w' u, w_created w' = w_created w -> w_acked w' = w_acked w -> w_user w' = u ->
    created_keys (w_created w') = created_keys (w_created w) ++ [] /\ w_acked w' = ∅ ∪ w_acked w /\
    (forall n fin, u = UWait n fin -> ~ flush_event e -> w_user w' = UWait n fin)).
  { intros a b u -> -> ->. split; [by rewrite app_nil_r|]. split; [by rewrite union_empty_l_L|done]. }
  assert (G2 : forall w w' u, w_created w' = w_created w -> w_acked w' = w_acked w -> (u = UIdle \/ (exists i rest inc e s, u = UAppend i rest inc e s) \/ flush_event e) ->
    created_keys (w_created w') = created_keys (w_created w) ++ [] /\ w_acked w' = ∅ ∪ w_acked w /\
    (forall n fin, u = UWait n fin -> ~ flush_event e -> w_user w' = UWait n fin)).
  { intros a b u -> -> Hu. split; [by rewrite app_nil_r|]. split; [by rewrite union_empty_l_L|]. intros n fin Hw Hne. destruct Hu as [Hu|[(?&?&?&?&?&Hu)|?]]; [congruence..|done]. }
  destruct e as [| |big o'| | |o'| |st|keys|c a|data inc nk|nk|table prio cols key|n nk|clear nk|timeout nk newep|c o'|]; cbn [tw_step].
  - destruct (w_pos w); try done. destruct (negb _); [|destruct (w_closed w)]; intros [= <- <-].
    + destruct (return_frame w (w_unrec w)) as (p & u & ->). by apply G.
    + destruct (return_frame w Cancelled) as (p & u & ->). by apply G.
    + by apply G.
  - destruct (w_pos w); try done. destruct (w_closed w); [|destruct (w_queue w); [done|]]; intros [= <- <-]; by apply G.
  - destruct (w_pos w) as [| |it rest s req| | | | | |]; try done. destruct rest as [|r rest]; [intros [= <- <-]; by apply G|]. destruct (w_cell w r) as [c|]; [|done].
    destruct (ce_chunk c); [|intros [= <- <-]; by apply G]. destruct (bool_decide _); [intros [= <- <-]; by apply G|]. destruct big; intros [= <- <-]; [|by apply G].
    unfold send. destruct (delivered o'); by apply G.
  - destruct (w_pos w) as [| | |it s req| | | | |]; try done. destruct (forallb _ _); [|destruct (forallb _ _)]; intros [= <- <-]; by apply G.
  - destruct (w_pos w); try done. intros [= <- <-]. by apply G.
  - destruct (w_pos w); try done. unfold send. destruct (write_ok o'), (delivered o'); intros [= <- <-]; by apply G.
  - destruct (w_pos w); try done. intros [= <- <-]. by apply G.
  - destruct (w_pos w); try done. intros [= <- <-]. destruct (return_frame w st) as (p & u & ->). by apply G.
  - assert (HH : forall w w', w_created w' = w_created w -> w_acked w' = list_to_set keys ∪ w_acked w -> w_user w' = w_user w ->
      created_keys (w_created w') = created_keys (w_created w) ++ [] /\ w_acked w' = list_to_set (confirmed_in [(EConfirm keys, @None status)]) ∪ w_acked w /\
      (forall n fin, w_user w = UWait n fin -> ~ flush_event (EConfirm keys) -> w_user w' = UWait n fin)).
    { intros a b -> -> ->. split; [by rewrite app_nil_r|]. split; [|done]. unfold confirmed_in. cbn [fmap list_fmap concat]. by rewrite app_nil_r. }
    destruct (w_pos w); try done; (destruct (forallb _ keys); [|done]; intros [= <- <-]; by apply HH).
  - destruct (w_pos w); try done. destruct (col_step w c (KTune a)) as [w1|] eqn:E; [|done]. apply col_step_frame in E as (m & ->). intros [= <- <-]. by apply G.
  - unfold append_begin. destruct (w_user w) eqn:Hu; try done. destruct (bool_decide _).
    + destruct (add_chunkers w 0 data nk) as [w1|] eqn:E; [|done]. apply add_chunkers_frame in E as (m & ->). intros [= <- <-]. apply G2; try done. by left.
    + intros [= <- <-]. by apply G.
  - unfold append_col. destruct (w_user w) as [|i rest inc ep' step|] eqn:Hu; try done. destruct rest as [|[t|] rest].
    + destruct (_ && _); [|done]. intros [= <- <-]. destruct (signal_frame (set_stp w (if inc then w_stp w + 1 else w_stp w))) as (p & ->). apply G2; try done. right; left. by eexists _, _, _, _, _.
    + destruct (mbind _ _) as [[st w1]|] eqn:E; [|done].
      assert (exists m, w1 = set_cols w m) as (m & ->).
      { destruct (w_cols w !! i) as [[k h]|]; [|done]. cbn [mbind option_bind] in E. destruct (k_append k t ep' step nk) as [[[st' x] k']|]; [|done]. cbn [mbind option_bind] in E.
        destruct (col_step w i (KAppend t ep' step nk)) as [w2|] eqn:E2; [|done]. cbn [mbind option_bind] in E. injection E as _ <-. by apply col_step_frame in E2. }
      destruct (bool_decide (st = Ok)) eqn:Hst; intros [= <- <-]; apply G2; try done; right; left; by eexists _, _, _, _, _.
    + intros [= <- <-]. apply G2; try done. right; left; by eexists _, _, _, _, _.
  - unfold create_item. destruct (w_user w) eqn:Hu; try done.
    assert (KE : forall st, st <> Ok -> created_in [(ECreate table prio cols key, Some st)] = []) by (intros st Hst; cbn; by destruct st).
    assert (GE : forall st, st <> Ok -> created_keys (w_created w) = created_keys (w_created w) ++ created_in [(ECreate table prio cols key, Some st)] /\
      w_acked w = list_to_set (confirmed_in [(ECreate table prio cols key, Some st)]) ∪ w_acked w /\
      (forall n fin, UIdle = UWait n fin -> ~ flush_event (ECreate table prio cols key) -> w_user w = UWait n fin)).
    { intros st Hst. rewrite KE by done. split; [by rewrite app_nil_r|]. split; [|done]. cbn. by rewrite union_empty_l_L. }
    destruct (forallb _ cols); [intros [= <- <-]; by apply GE|].
    destruct (bool_decide_reflect (w_unrec w = Ok)); cbn [negb]; [|intros [= <- <-]; by apply GE].
    destruct (columns_validate w cols) as [st|]; [|done]. destruct (bool_decide_reflect (st = Ok)) as [->|]; cbn [negb]; [|intros [= <- <-]; by apply GE].
    cbn zeta. destruct (item_validate _ _) as [st|]; [|done]. destruct (bool_decide_reflect (st = Ok)) as [->|]; cbn [negb]; [|intros [= <- <-]; by apply GE].
    intros [= <- <-]. cbn [w_created w_acked w_user set_created set_queue]. split; [unfold created_keys; by rewrite fmap_app|]. split; [|done]. cbn. by rewrite union_empty_l_L.
  - destruct (w_user w) eqn:Hu; try done. unfold flush_begin. destruct (force_flush _ _ _) as [[st w1]|] eqn:E; [|done]. apply force_flush_frame in E as (m & ->).
    destruct (bool_decide _); intros [= <- <-]; [destruct (signal_frame (set_cols w m)) as (p & ->)|]; apply G2; try done; by left.
  - destruct (w_user w) eqn:Hu; try done. destruct (bool_decide _); [|intros [= <- <-]; by apply G].
    unfold flush_begin. destruct (force_flush _ _ _) as [[st w1]|] eqn:E; [|done]. apply force_flush_frame in E as (m & ->).
    destruct (bool_decide _); intros [= <- <-]; [destruct (signal_frame (set_cols w m)) as (p & ->)|]; apply G2; try done; by left.
  - unfold flush_done. destruct (w_user w) as [| |n fin] eqn:Hu; try done.
    assert (G3 : forall w', w_created w' = w_created w -> w_acked w' = w_acked w -> 
      created_keys (w_created w') = created_keys (w_created w) ++ [] /\ w_acked w' = ∅ ∪ w_acked w /\
      (forall n0 fin0, UWait n fin = UWait n0 fin0 -> ~ flush_event (EDone timeout nk newep) -> w_user w' = UWait n0 fin0)).
    { intros b E1 E2. rewrite E1, E2. split; [by rewrite app_nil_r|]. split; [by rewrite union_empty_l_L|]. intros n0 fin0 _ []. done. }
    destruct (flush_cond w n); [|destruct timeout; [|done]; intros [= <- <-]; by apply G3].
    cbn zeta. destruct (negb _); [intros [= <- <-]; by apply G3|]. destruct fin as [|clear]; [intros [= <- <-]; by apply G3|].
    destruct (end_chunkers _ _ _ _) as [[st w1]|] eqn:E; [|done]. apply end_chunkers_frame in E as (m & u & ->).
    destruct (bool_decide _); intros [= <- <-]; by apply G3.
  - unfold configure. destruct (w_user w) eqn:Hu; try done. destruct (negb _); [intros [= <- <-]; by apply G|]. destruct (w_cols w !! c) as [[k h]|]; [|intros [= <- <-]; by apply G].
    destruct (col_step w c _) as [w1|] eqn:E; [|done]. apply col_step_frame in E as (m & ->). intros [= <- <-]. by apply G.
  - intros [= <- <-]. unfold close. destruct (w_closed w); [by apply G|]. destruct (signal_frame (set_closed w true)) as (p & ->). by apply G.
Qed.

Lemma created_in_app a b : created_in (a ++ b) = created_in a ++ created_in b.
Proof. unfold created_in. by rewrite omap_app. Qed.
Lemma confirmed_in_app a b : confirmed_in (a ++ b) = confirmed_in a ++ confirmed_in b.
Proof. unfold confirmed_in. by rewrite fmap_app, concat_app. Qed.
Lemma trace_ghost tr w : tw_trace (tw_new o sigs ep) tr w ->
  tw_reach (tw_new o sigs ep) w /\ created_keys (w_created w) = created_in tr /\ w_acked w = list_to_set (confirmed_in tr).
Proof.
  induction 1 as [|tr w e w' ret H (IH1 & IH2 & IH3) He E]; [split; [constructor|done]|]. split; [by eapply tr_step|].
  destruct (step_ghost w e w' ret E) as (E1 & E2 & _). rewrite created_in_app, confirmed_in_app, E1, E2, IH2, IH3. split; [done|]. by rewrite list_to_set_app_L, union_comm_L.
Qed.
Lemma trace_wait w0 tr w n fin : tw_trace w0 tr w -> w_user w0 = UWait n fin -> Forall (fun x => ~ flush_event x.1) tr -> w_user w = UWait n fin.
Proof.
  induction 1 as [|tr w e w' ret H IH He E]; intros Hu HF; [done|]. apply Forall_app in HF as [HF1 HF2]. apply Forall_cons in HF2 as [HF2 _].
  destruct (step_ghost w e w' ret E) as (_ & _ & H3). apply H3; [by apply IH|done].
Qed.
Lemma trace_split w0 tr1 tr2 w : tw_trace w0 (tr1 ++ tr2) w -> exists w1, tw_trace w0 tr1 w1 /\ tw_trace w1 tr2 w.
Proof.
  revert w. induction tr2 as [|x tr2 IH] using rev_ind; intros w H; [rewrite app_nil_r in H; exists w; split; [done|constructor]|].
  rewrite app_assoc in H. inversion H as [E|tr w1 e w' ret H1 He E Et]; [by destruct (tr1 ++ tr2)|].
  apply app_inj_tail in Et as [-> <-]. subst w'. destruct (IH _ H1) as (w2 & A & B). exists w2. split; [done|]. by eapply tt_snoc.
Qed.

Lemma pending_bound w : winv w -> Z.of_nat (length (filter (fun k => k ∉ w_acked w) (created_keys (w_created w)))) <= num_pending w.
Proof.
  intros I. destruct (v_queue w I) as (popped & A1 & A2 & A3). set (l := filter (fun k => k ∉ w_acked w) (created_keys (w_created w))).
  assert (Hnd : NoDup l) by (apply NoDup_filter, (v_keys w I)).
  assert (Hsub : forall k, k ∈ l -> k ∈ w_flight w ∪ list_to_set (wi_key <$> w_queue w)).
  { intros k Hk. apply elem_of_list_filter in Hk as [Hk1 Hk2]. unfold created_keys in Hk2. rewrite A1, fmap_app in Hk2. apply elem_of_app in Hk2 as [Hk2|Hk2].
    - apply elem_of_list_fmap in Hk2 as (p & -> & Hp). rewrite Forall_forall in A3. specialize (A3 _ Hp). set_solver.
    - apply elem_of_union. right. apply elem_of_list_to_set. rewrite <- A2, <- list_fmap_compose. done. }
  assert (Hsz : (length l <= size (w_flight w ∪ list_to_set (wi_key <$> w_queue w)))%nat).
  { rewrite <- (proj2 (size_lts_nodup l) Hnd). apply subseteq_size. intros k Hk. apply elem_of_list_to_set in Hk. by apply Hsub. }
  assert (HU : forall X Y : gset Z, (size (X ∪ Y) <= size X + size Y)%nat).
  { intros X Y. rewrite size_union_alt. assert (size (Y ∖ X) <= size Y)%nat by (apply subseteq_size; set_solver). lia. }
  unfold num_pending. destruct (w_queue w) as [|it q].
  - cbn [fmap list_fmap list_to_set length] in *. rewrite union_empty_r_L in Hsz. lia.
  - rewrite fmap_cons, list_to_set_cons in Hsz. cbn [length]. pose proof (size_lts_le (wi_key <$> q)) as HL. rewrite fmap_length in HL.
    destruct (bool_decide_reflect (wi_key it ∈ w_flight w)).
    + replace (w_flight w ∪ ({[wi_key it]} ∪ list_to_set (wi_key <$> q))) with (w_flight w ∪ list_to_set (wi_key <$> q)) in Hsz by set_solver.
      specialize (HU (w_flight w) (list_to_set (wi_key <$> q))). lia.
    + pose proof (HU (w_flight w) ({[wi_key it]} ∪ list_to_set (wi_key <$> q))). pose proof (HU {[wi_key it]} (list_to_set (wi_key <$> q))) as H1. rewrite size_singleton in H1. lia.
Qed.

Lemma done_confirmed w n fin timeout nk newep w' : winv w -> w_user w = UWait n fin -> tw_step w (EDone timeout nk newep) = TNext w' (Some Ok) ->
  num_pending w <= n.
Proof.
  intros I Hu E. cbn [tw_step] in E. unfold flush_done in E. rewrite Hu in E. destruct (flush_cond w n) eqn:Hc; [|by destruct timeout].
  unfold flush_cond in Hc. cbn zeta in E. change (w_unrec (set_user w UIdle)) with (w_unrec w) in E.
  destruct (bool_decide_reflect (w_unrec w = Ok)) as [Hk|Hk]; cbn [negb] in *; [|by injection E as _ E]. cbn [orb] in Hc. by apply Z.leb_le.
Qed.

(** When Flush(n) or EndEpisode (with n = 0) returns OK, at most [n] of the items
    created until then have not been confirmed by the server. *)
Theorem C41_trajectory tr1 e tr2 timeout nk newep w n : tw_trace (tw_new o sigs ep) (tr1 ++ (e, None) :: tr2 ++ [(EDone timeout nk newep, Some Ok)]) w ->
  (exists nk', e = EFlush n nk') \/ (n = 0 /\ exists clear nk', e = EEpisode clear nk') -> Forall (fun x => ~ flush_event x.1) tr2 ->
  let tr := tr1 ++ (e, None) :: tr2 in
  Z.of_nat (length (filter (fun k => k ∉ confirmed_in tr) (created_in tr))) <= n.
Proof.
  intros H He HF tr. replace (tr1 ++ (e, None) :: tr2 ++ [(EDone timeout nk newep, Some Ok)]) with (tr ++ [(EDone timeout nk newep, Some Ok)]) in H by (unfold tr; by rewrite <- app_assoc).
  inversion H as [Eq|tr' w2 e' w' ret H1 He' E Et]; [by destruct tr|]. apply app_inj_tail in Et as [-> [= -> ->]]. subst w'.
  destruct (trace_ghost tr w2 H1) as (R & G1 & G2). pose proof (tw_reach_inv _ _ _ _ Ho R) as I.
  assert (exists fin, w_user w2 = UWait n fin) as [fin Hu].
  { unfold tr in H1. replace (tr1 ++ (e, None) :: tr2) with ((tr1 ++ [(e, None)]) ++ tr2) in H1 by (by rewrite <- app_assoc).
    apply trace_split in H1 as (w3 & H3 & H4). assert (exists fin, w_user w3 = UWait n fin) as [fin Hfin]; [|exists fin; by apply (trace_wait w3 tr2 w2)].
    inversion H3 as [Eq|tr' w4 e' w' ret H5 He5 E5 Et]; [by destruct tr1|]. apply app_inj_tail in Et as [-> [= -> ->]]. subst w'. clear -E5 He.
    destruct He as [[nk' ->]|[-> (clear & nk' & ->)]]; cbn [tw_step] in E5; (destruct (w_user w4); try done); [|destruct (bool_decide _); [|done]];
      unfold flush_begin in E5; (destruct (force_flush _ _ _) as [[st w5]|]; [|done]); (destruct (bool_decide _); [|done]); injection E5 as <-; by eexists. }
  pose proof (done_confirmed w2 n fin timeout nk newep w I Hu E) as HP. pose proof (pending_bound w2 I) as HB. rewrite G1, G2 in HB.
  assert (Hfl : filter (fun k => k ∉ (list_to_set (confirmed_in tr) : gset Z)) (created_in tr) = filter (fun k => k ∉ confirmed_in tr) (created_in tr)).
  { apply list_filter_iff. intros k. by rewrite elem_of_list_to_set. }
  rewrite Hfl in HB. lia.
Qed.
(** In particular Flush(0) and EndEpisode returning OK mean that all items are
    confirmed. *)
Theorem C41_trajectory_all tr1 e tr2 timeout nk newep w : tw_trace (tw_new o sigs ep) (tr1 ++ (e, None) :: tr2 ++ [(EDone timeout nk newep, Some Ok)]) w ->
  (exists nk', e = EFlush 0 nk') \/ (exists clear nk', e = EEpisode clear nk') -> Forall (fun x => ~ flush_event x.1) tr2 ->
  forall key, key ∈ created_in (tr1 ++ (e, None) :: tr2) -> key ∈ confirmed_in (tr1 ++ (e, None) :: tr2).
Proof.
  intros H He HF key Hk. pose proof (C41_trajectory tr1 e tr2 timeout nk newep w 0 H) as HB. cbn zeta in HB.
  destruct (decide (key ∈ confirmed_in (tr1 ++ (e, None) :: tr2))) as [|Hn]; [done|]. exfalso.
  assert (key ∈ filter (fun k => k ∉ confirmed_in (tr1 ++ (e, None) :: tr2)) (created_in (tr1 ++ (e, None) :: tr2))) as Hin by (apply elem_of_list_filter; done).
  destruct (filter _ _) as [|x l]; [by apply elem_of_nil in Hin|]. cbn in HB. assert (Z.pos (Pos.of_succ_nat (length l)) <= 0); [|lia]. apply HB; [|done].
  destruct He as [?|?]; [by left|by right].
Qed.

(** ** C56: no crash *)

(** Only CreateItem with an empty column crashes the process. *)
Theorem C56_no_crash_partial w e : tw_reach (tw_new o sigs ep) w -> tw_enabled w e -> tw_step w e = TCrash ->
  exists table prio cols key, e = ECreate table prio cols key /\ Exists (fun c => c.1 = []) cols.
Proof. intros Hr He E. pose proof (tw_step_inv w e (tw_reach_inv _ _ _ _ Ho Hr) He) as H. by rewrite E in H. Qed.

(** ** C57: what Flush waits for *)

(** The worker waits for the data of an item although all of it is there, and
    nobody has signalled. *)
Definition stale (w : tw) : Prop := exists it s req, w_pos w = WWait it s req false /\ Forall (ready (w_cols w)) (wi_refs it).
Definition appending (w : tw) : Prop := exists i rest inc e s, w_user w = UAppend i rest inc e s.
Definition wake (w : tw) : Prop := w_failed w = false -> stale w -> appending w.

Lemma signal_stale w : ~ stale (signal w).
Proof. intros (it & s & req & H & _). unfold signal in H. destruct (w_pos w) eqn:E; cbn in H; congruence. Qed.
Lemma ready_insert m c k h k' h' r : m !! c = Some (k, h) -> k_cells k' = k_cells k -> ready (<[c := (k', h')]> m) r -> ready m r.
Proof.
  intros Hc Hk (x & ch & Hx & Hch). exists x, ch. split; [|done]. unfold cell_at in *. destruct (decide (c = r.1)) as [E|E].
  - rewrite <- E in *. rewrite lookup_insert in Hx. rewrite Hc. cbn [mbind option_bind] in *. by rewrite <- Hk.
  - by rewrite lookup_insert_ne in Hx.
Qed.
Lemma wake_same w w' : wake w -> w_pos w' = w_pos w -> w_cols w' = w_cols w -> w_user w' = w_user w -> w_failed w' = w_failed w -> wake w'.
Proof. intros H E1 E2 E3 E4. unfold wake, stale, appending in *. by rewrite E1, E2, E3, E4. Qed.
Lemma wake_pos w : (forall it s req, w_pos w <> WWait it s req false) -> wake w.
Proof. intros H _ (it & s & req & E & _). by apply H in E. Qed.

Lemma wake_step w e w' ret : winv w -> tw_enabled w e -> wake w -> tw_step w e = TNext w' ret -> wake w'.
Proof.
  intros I He HW. destruct e as [| |big o'| | |o'| |st|keys|c a|data inc nk|nk|table prio cols key|n nk|clear nk|timeout nk newep|c o'|]; cbn [tw_step].
  - destruct (w_pos w) eqn:Hp; try done. assert (R : forall st, wake (worker_return w st)).
    { intros st. apply wake_pos. intros it s req. unfold worker_return. destruct (w_closed w); [done|]. by destruct (bool_decide _). }
    destruct (negb _); [|destruct (w_closed w)]; intros [= <- <-]; [apply R..|]. by apply wake_pos.
  - destruct (w_pos w); try done. destruct (w_closed w); [|destruct (w_queue w); [done|]]; intros [= <- <-]; by apply wake_pos.
  - destruct (w_pos w) as [| |it rest s req| | | | | |]; try done. destruct rest as [|r rest]; [intros [= <- <-]; by apply wake_pos|]. destruct (w_cell w r) as [c|]; [|done].
    destruct (ce_chunk c); [|intros [= <- <-]; by apply wake_pos]. destruct (bool_decide _); [intros [= <- <-]; by apply wake_pos|]. destruct big; intros [= <- <-]; [|by apply wake_pos].
    apply wake_pos. cbn. by destruct (write_ok o').
  - destruct (w_pos w) as [| | |it s req| | | | |]; try done. destruct (forallb _ (wi_refs it)); [intros [= <- <-]; by apply wake_pos|].
    destruct (forallb (is_ready w) (wi_refs it)) eqn:Hr; intros [= <- <-]; [by apply wake_pos|]. intros _ (it' & s' & req' & [= <- <- <-] & HR). exfalso.
    apply (not_true_iff_false _) in Hr. apply Hr. apply Is_true_true, forallb_True. eapply Forall_impl; [exact HR|]. intros r Hrd. apply Is_true_true. by apply is_ready_spec.
  - destruct (w_pos w); try done. intros [= <- <-]. by apply wake_pos.
  - destruct (w_pos w); try done. destruct (write_ok o'); intros [= <- <-]; by apply wake_pos.
  - destruct (w_pos w); try done. intros [= <- <-]. by apply wake_pos.
  - destruct (w_pos w); try done. intros [= <- <-]. apply wake_pos. intros it s req. unfold worker_return. destruct (w_closed w); [done|]. by destruct (bool_decide _).
  - assert (W : wake (set_acked (set_flight w (w_flight w ∖ list_to_set keys)) (list_to_set keys ∪ w_acked w))) by (by eapply wake_same).
    destruct (w_pos w); try done; (destruct (forallb _ keys); [|done]; by intros [= <- <-]).
  - destruct (w_pos w) eqn:Hp; try done. destruct (col_step w c (KTune a)) as [w1|] eqn:E; [|done]. apply col_step_frame in E as (m & ->). intros [= <- <-].
    apply wake_pos. cbn. by rewrite Hp.
  - unfold append_begin. destruct (w_user w) eqn:Hu; try done. destruct (bool_decide _); [|intros [= <- <-]; done].
    destruct (add_chunkers w 0 data nk) as [w1|]; [|done]. intros [= <- <-] _ _. by eexists _, _, _, _, _.
  - unfold append_col. destruct (w_user w) as [|i rest inc ep' step|] eqn:Hu; try done. destruct rest as [|[t|] rest].
    + destruct (_ && _); [|done]. intros [= <- <-]. intros _ HS. exfalso. by apply (signal_stale (set_stp w (if inc then w_stp w + 1 else w_stp w))).
    + destruct (mbind _ _) as [[st w1]|]; [|done]. destruct (bool_decide (st = Ok)); intros [= <- <-].
      * intros _ _. by eexists _, _, _, _, _.
      * intros [=].
    + intros [= <- <-] _ _. by eexists _, _, _, _, _.
  - unfold create_item. destruct (w_user w) eqn:Hu; try done. destruct (forallb _ cols); [by intros [= <- <-]|]. destruct (negb _); [by intros [= <- <-]|].
    destruct (columns_validate w cols) as [st|]; [|done]. destruct (negb _); [by intros [= <- <-]|]. cbn zeta.
    destruct (item_validate _ _) as [st'|]; [|done]. destruct (negb _); [by intros [= <- <-]|]. intros [= <- <-]. by eapply wake_same.
  - destruct (w_user w) eqn:Hu; try done. destruct (flush_begin_inv w n FinFlush nk I Hu He Logic.I) as (m' & -> & _). intros [= <- <-]. intros _ HS. exfalso. by apply (signal_stale (set_cols w m')).
  - destruct (w_user w) eqn:Hu; try done. destruct (bool_decide _); [|by intros [= <- <-]].
    destruct (flush_begin_inv w 0 (FinEpisode clear) nk I Hu He eq_refl) as (m' & -> & _). intros [= <- <-]. intros _ HS. exfalso. by apply (signal_stale (set_cols w m')).
  - unfold flush_done. destruct (w_user w) as [| |n fin] eqn:Hu; try done.
    assert (NS : w_failed w = false -> ~ stale w) by (intros Hf HS; destruct (HW Hf HS) as (?&?&?&?&?&?); congruence).
    assert (W : wake (set_user w UIdle)) by (intros Hf HS; exfalso; by apply NS).
    destruct (flush_cond w n) eqn:Hc; [|destruct timeout; [|done]; by intros [= <- <-]]. cbn zeta. change (w_unrec (set_user w UIdle)) with (w_unrec w).
    destruct (bool_decide_reflect (w_unrec w = Ok)) as [Hk|]; cbn [negb]; [|by intros [= <- <-]]. destruct fin as [|clear]; [by intros [= <- <-]|].
    pose proof (v_user w I) as U. rewrite Hu in U. destruct U as [_ ->]. destruct (flush_cond_empty w Hc Hk) as [Hq _].
    destruct (end_chunkers _ _ _ _) as [[st w1]|] eqn:E; [|done]. apply end_chunkers_frame in E as (m & u & ->).
    assert (PW : forall it s req, w_pos w <> WWait it s req false).
    { intros it s req Hp. pose proof (v_pos w I) as P. rewrite Hp in P. destruct P as [P _]. by rewrite Hq in P. }
    destruct (bool_decide _); intros [= <- <-]; by apply wake_pos.
  - unfold configure. destruct (w_user w) eqn:Hu; try done. destruct (negb _); [by intros [= <- <-]|]. destruct (w_cols w !! c) as [[k h]|] eqn:Hk; [|intros [= <- <-]; by eapply wake_same].
    unfold col_step. rewrite Hk. cbn [mbind option_bind k_step]. intros [= <- <-]. intros Hf (it & s & req & Hp & HR). destruct HW as (a & b & c' & d & e' & HX); [done| |congruence].
    exists it, s, req. split; [done|]. eapply Forall_impl; [exact HR|]. intros r. cbn [w_cols set_cols]. apply (ready_insert _ _ _ _ _ _ _ Hk).
    unfold k_apply_config. destruct (k_buffer k); [|done]. by destruct (bool_decide _).
  - intros [= <- <-]. unfold close. destruct (w_closed w); [done|]. intros _ HS. exfalso. by apply (signal_stale (set_closed w true)).
Qed.

(** Unless an Append has failed in the middle, the worker does not wait for data
    that is there, except while an Append is running, which signals at its end. *)
Theorem C57_wakeup_partial w it s req : tw_reach (tw_new o sigs ep) w -> w_failed w = false ->
  w_pos w = WWait it s req false -> Forall (ready (w_cols w)) (wi_refs it) -> exists i rest inc e step, w_user w = UAppend i rest inc e step.
Proof.
  intros Hr Hf Hp HR. assert (W : wake w); [|apply W; [done|]; by exists it, s, req].
  clear Hf Hp HR it s req. induction Hr as [|w e w' ret H IH He E]; [by apply wake_pos|]. eapply wake_step; [|exact He|exact IH|exact E]. exact (tw_reach_inv _ _ _ _ Ho H).
Qed.

(** The actions of the stream worker. *)
Definition worker_event (e : tev) : Prop :=
  match e with EStart | ENext | EChunk _ _ | ECheck | EWake | ESend _ | EPop | EFinish _ => True | _ => False end.
(** The worker can do something; when it waits it has been signalled. *)
Definition worker_runs (w : tw) : Prop :=
  (forall it s req sg, w_pos w = WWait it s req sg -> sg = true) /\ exists e w' ret, worker_event e /\ tw_step w e = TNext w' ret.

(** Flush(n) with n >= 0 waits in vain for nothing but the server: while it waits it
    can return, or the worker can do something, or the server has not confirmed an
    item. *)
Theorem C57_flush_waits_partial w n fin nk newep : tw_reach (tw_new o sigs ep) w -> w_failed w = false -> w_user w = UWait n fin -> 0 <= n ->
  tw_enabled w (EDone false nk newep) ->
  (exists w' ret, tw_step w (EDone false nk newep) = TNext w' ret) \/ worker_runs w \/ (exists key, key ∈ w_flight w).
Proof.
  intros Hr Hf Hu Hn He. pose proof (tw_reach_inv _ _ _ _ Ho Hr) as I. destruct (flush_cond w n) eqn:Hc.
  { left. cbn [tw_step tw_enabled] in *. pose proof (flush_done_inv w false nk newep I He) as H. unfold flush_done in *. rewrite Hu, Hc in *. cbn zeta in *.
    destruct (negb _); [by eexists _, _|]. destruct fin; [by eexists _, _|]. destruct (end_chunkers _ _ _ _) as [[st w1]|]; [|done]. destruct (bool_decide _); by eexists _, _. }
  right. unfold flush_cond in Hc. apply orb_false_iff in Hc as [Hk Hp]. apply negb_false_iff, bool_decide_eq_true in Hk. apply Z.leb_gt in Hp.
  assert (FL : Z.of_nat (length (w_queue w)) <= n -> exists key, key ∈ w_flight w).
  { intros Hl. unfold num_pending in Hp. assert (size (w_flight w) <> 0%nat) by (destruct (w_queue w); [|destruct (bool_decide _)]; lia).
    destruct (set_choose_or_empty (w_flight w)) as [?|E]; [done|]. exfalso. apply H. by apply size_empty_iff. }
  destruct (w_pos w) as [|s req|it rest s req|it s req|it s req [|]|it s req|it s| |] eqn:Ep.
  - left. split; [by rewrite Ep|]. exists EStart. cbn [tw_step]. rewrite Ep. destruct (negb _); [|destruct (w_closed w)]; by eexists _, _.
  - destruct (w_closed w) eqn:Ecl; [|destruct (w_queue w) as [|it q] eqn:Eq].
    + left. split; [by rewrite Ep|]. exists ENext. cbn [tw_step]. rewrite Ep, Ecl. by eexists _, _.
    + right. apply FL. cbn. lia.
    + left. split; [by rewrite Ep|]. exists ENext. cbn [tw_step]. rewrite Ep, Ecl, Eq. by eexists _, _.
  - left. split; [by rewrite Ep|]. exists (EChunk false OutOk). pose proof (echunk_inv w false OutOk I) as H. cbn [tw_step] in *. rewrite Ep in *.
    destruct rest as [|r rest]; [by eexists _, _|]. destruct (w_cell w r) as [c|]; [|done]. destruct (ce_chunk c); [|by eexists _, _]. destruct (bool_decide _); by eexists _, _.
  - left. split; [by rewrite Ep|]. exists ECheck. cbn [tw_step]. rewrite Ep. destruct (forallb _ _); [|destruct (forallb _ _)]; by eexists _, _.
  - left. split; [rewrite Ep; by intros ? ? ? ? [= _ _ _ <-]|]. exists EWake. cbn [tw_step]. rewrite Ep. by eexists _, _.
  - right. apply FL. destruct (decide (Z.of_nat (length (w_queue w)) <= n)) as [|Hgt]; [done|]. exfalso.
    pose proof (v_pos w I) as P. rewrite Ep in P. destruct P as [P _]. pose proof (v_user w I) as U. rewrite Hu in U. destruct U as [U _].
    destruct (w_queue w) as [|it' q] eqn:Eq; [done|]. injection P as ->. destruct (Z.to_nat (Z.of_nat (length (it :: q)) - n)) as [|k] eqn:Ek; [cbn [length] in *; lia|].
    cbn [take fmap list_fmap concat] in U. apply Forall_app in U as [U _]. destruct (C57_wakeup_partial w it s req Hr Hf Ep U) as (?&?&?&?&?&?). congruence.
  - left. split; [by rewrite Ep|]. exists (ESend OutOk). cbn [tw_step]. rewrite Ep. by eexists _, _.
  - left. split; [by rewrite Ep|]. exists EPop. cbn [tw_step]. rewrite Ep. by eexists _, _.
  - left. split; [by rewrite Ep|]. exists (EFinish Ok). cbn [tw_step]. rewrite Ep. by eexists _, _.
  - exfalso. by apply (v_done w I).
Qed.

(** ** C58: signatures *)

(** The tensor has the type of the specification and the dimensions that it gives. *)
Definition conforms (sp : tspec) (t : tensor) : Prop :=
  t_ty t = sp_ty sp /\ match sp_shape sp with None => True | Some dims => Forall2 (fun d n => d = None \/ d = Some n) dims (t_shape t) end.

Lemma pdims_conform p sh : pdims_compatible p (Some <$> sh) = true -> Forall2 (fun d n => d = None \/ d = Some n) p sh.
Proof.
  revert sh. induction p as [|d p IH]; intros [|n sh]; cbn [fmap list_fmap pdims_compatible]; try done. intros [H1 H2]%andb_true_iff. constructor; [|by apply IH].
  destruct d as [d|]; [|by left]. right. apply Nat.eqb_eq in H1. by subst.
Qed.
Lemma tensors_kind m refs ts ty sh : colsinv m -> Forall (fun r => spec_at m r = Some (mkTspec ty (Some (Some <$> sh)))) refs ->
  mapM (tensor_at m) refs = Some ts -> Forall (same_kind ty sh) ts.
Proof.
  intros [I _] Hs HM. apply mapM_Some in HM. induction HM as [|r t refs ts Hr HM IH]; [constructor|]. apply Forall_cons in Hs as [Hs1 Hs]. constructor; [|by apply IH].
  unfold tensor_at in Hr. unfold spec_at in Hs1. destruct (m !! r.1) as [[k h]|] eqn:Ek; [|done]. cbn [mbind option_bind] in *. injection Hs1 as Hs1.
  destruct (h !! r.2) as [x|] eqn:Ex; [|done]. cbn in Hr. injection Hr as <-. destruct (I _ _ _ Ek) as (K & _). cbn [fst snd] in K.
  destruct (lookup_lt_is_Some_2 (k_cells k) r.2) as [c Hc]; [rewrite <- (ki_len _ _ K); by eapply lookup_lt_Some|].
  destruct (ki_info _ _ K _ _ _ Hc Ex) as (_ & _ & H1 & H2). rewrite Hs1 in H1, H2. split; [done|]. cbn [sp_shape shape_compatible] in H2.
  clear -H2. revert H2. generalize (t_shape (h_tensor x)). induction sh as [|a sh IH]; intros [|b l]; cbn; try done. intros [H1 H2]%andb_true_iff. apply Nat.eqb_eq in H1. subst. f_equal. by apply IH.
Qed.

Lemma step_sigs w e w' ret : tw_step w e = TNext w' ret -> w_sigs w' = w_sigs w.
Proof.
  destruct e as [| |big o'| | |o'| |st|keys|c a|data inc nk|nk|table prio cols key|n nk|clear nk|timeout nk newep|c o'|]; cbn [tw_step].
  - destruct (w_pos w); try done. destruct (negb _); [|destruct (w_closed w)]; intros [= <- <-]; [| |done].
    + by destruct (return_frame w (w_unrec w)) as (p & u & ->).
    + by destruct (return_frame w Cancelled) as (p & u & ->).
  - destruct (w_pos w); try done. destruct (w_closed w); [|destruct (w_queue w); [done|]]; by intros [= <- <-].
  - destruct (w_pos w) as [| |it rest s req| | | | | |]; try done. destruct rest as [|r rest]; [by intros [= <- <-]|]. destruct (w_cell w r) as [c|]; [|done].
    destruct (ce_chunk c); [|by intros [= <- <-]]. destruct (bool_decide _); [by intros [= <- <-]|]. destruct big; intros [= <- <-]; [|done].
    unfold send. by destruct (delivered o').
  - destruct (w_pos w) as [| | |it s req| | | | |]; try done. destruct (forallb _ _); [|destruct (forallb _ _)]; by intros [= <- <-].
  - destruct (w_pos w); try done. by intros [= <- <-].
  - destruct (w_pos w); try done. unfold send. destruct (write_ok o'), (delivered o'); by intros [= <- <-].
  - destruct (w_pos w); try done. by intros [= <- <-].
  - destruct (w_pos w); try done. intros [= <- <-]. by destruct (return_frame w st) as (p & u & ->).
  - destruct (w_pos w); try done; (destruct (forallb _ keys); [|done]; by intros [= <- <-]).
  - destruct (w_pos w); try done. destruct (col_step w c (KTune a)) as [w1|] eqn:E; [|done]. apply col_step_frame in E as (m & ->). by intros [= <- <-].
  - unfold append_begin. destruct (w_user w); try done. destruct (bool_decide _); [|by intros [= <- <-]].
    destruct (add_chunkers w 0 data nk) as [w1|] eqn:E; [|done]. apply add_chunkers_frame in E as (m & ->). by intros [= <- <-].
  - unfold append_col. destruct (w_user w) as [|i rest inc ep' step|]; try done. destruct rest as [|[t|] rest]; [| |by intros [= <- <-]].
    + destruct (_ && _); [|done]. intros [= <- <-]. by destruct (signal_frame (set_stp w (if inc then w_stp w + 1 else w_stp w))) as (p & ->).
    + destruct (mbind _ _) as [[st w1]|] eqn:E; [|done].
      assert (exists m, w1 = set_cols w m) as (m & ->).
      { destruct (w_cols w !! i) as [[k h]|]; [|done]. cbn [mbind option_bind] in E. destruct (k_append k t ep' step nk) as [[[st' x] k']|]; [|done]. cbn [mbind option_bind] in E.
        destruct (col_step w i (KAppend t ep' step nk)) as [w2|] eqn:E2; [|done]. cbn [mbind option_bind] in E. injection E as _ <-. by apply col_step_frame in E2. }
      destruct (bool_decide (st = Ok)); by intros [= <- <-].
  - unfold create_item. destruct (w_user w); try done. destruct (forallb _ cols); [by intros [= <- <-]|]. destruct (negb _); [by intros [= <- <-]|].
    destruct (columns_validate w cols) as [st|]; [|done]. destruct (negb _); [by intros [= <- <-]|]. cbn zeta.
    destruct (item_validate _ _) as [st'|]; [|done]. destruct (negb _); by intros [= <- <-].
  - destruct (w_user w); try done. unfold flush_begin. destruct (force_flush _ _ _) as [[st w1]|] eqn:E; [|done]. apply force_flush_frame in E as (m & ->).
    destruct (bool_decide _); intros [= <- <-]; [by destruct (signal_frame (set_cols w m)) as (p & ->)|done].
  - destruct (w_user w); try done. destruct (bool_decide _); [|by intros [= <- <-]].
    unfold flush_begin. destruct (force_flush _ _ _) as [[st w1]|] eqn:E; [|done]. apply force_flush_frame in E as (m & ->).
    destruct (bool_decide _); intros [= <- <-]; [by destruct (signal_frame (set_cols w m)) as (p & ->)|done].
  - unfold flush_done. destruct (w_user w) as [| |n fin]; try done. destruct (flush_cond w n); [|destruct timeout; [|done]; by intros [= <- <-]].
    cbn zeta. destruct (negb _); [by intros [= <- <-]|]. destruct fin as [|clear]; [by intros [= <- <-]|].
    destruct (end_chunkers _ _ _ _) as [[st w1]|] eqn:E; [|done]. apply end_chunkers_frame in E as (m & u & ->). destruct (bool_decide _); by intros [= <- <-].
  - unfold configure. destruct (w_user w); try done. destruct (negb _); [by intros [= <- <-]|]. destruct (w_cols w !! c) as [[k h]|]; [|by intros [= <- <-]].
    destruct (col_step w c _) as [w1|] eqn:E; [|done]. apply col_step_frame in E as (m & ->). by intros [= <- <-].
  - intros [= <- <-]. unfold close. destruct (w_closed w); [done|]. by destruct (signal_frame (set_closed w true)) as (p & ->).
Qed.

(** The data of an accepted item conforms to the signature of its table. *)
Theorem C58_signature w mm it cols outs : tw_reach (tw_new o sigs ep) w -> sigs = Some mm -> (it, cols) ∈ w_created w ->
  Forall2 (column_value (w_cols w)) cols outs ->
  exists os, mm !! wi_table it = Some os /\ forall sig, os = Some sig -> Forall2 conforms sig outs.
Proof.
  intros Hr Hm Hi HV. pose proof (tw_reach_inv _ _ _ _ Ho Hr) as I. pose proof (v_sigs w I) as S. rewrite Forall_forall in S.
  pose proof (v_items w I) as F. rewrite Forall_forall in F. destruct (F _ Hi) as (_ & _ & _ & _ & FF). cbn [fst snd] in FF. clear F.
  assert (w_sigs w = Some mm) as Hs.
  { rewrite <- Hm. clear -Hr. induction Hr as [|w e w' ret H IH He E]; [done|]. rewrite <- IH. by eapply step_sigs. }
  destruct (S _ Hi mm Hs) as (os & H1 & H2). exists os. split; [done|]. intros sig Hsig. specialize (H2 sig Hsig). cbn [fst snd] in *. clear -H2 HV I FF.
  revert outs HV. induction H2 as [|sp [refs sq] sig cols (ty & sh & S1 & S2 & S3) H2 IH]; intros outs HV.
  - by inversion HV.
  - apply Forall2_cons_inv_l in HV as (out & outs' & (ts & T1 & T2) & HV & ->). apply Forall_cons in FF as [(F1 & _) FF]. constructor; [|by apply IH]. cbn [fst snd] in *.
    pose proof (tensors_kind _ _ _ _ _ (v_cols w I) S1 T1) as K. assert (Hl : length ts = length refs) by (apply mapM_Some in T1; symmetry; by eapply Forall2_length).
    destruct sq.
    + subst ts. apply Forall_inv in K as [K1 K2]. split; [congruence|]. destruct (sp_shape sp) as [dims|]; [|done]. rewrite K2. by apply pdims_conform.
    + destruct T2 as (ty' & sh' & K' & ->). destruct ts as [|t ts]; [by destruct refs|]. destruct (Forall_inv K) as [K1 K2]. destruct (Forall_inv K') as [K1' K2'].
      split; [cbn; congruence|]. destruct (sp_shape sp) as [dims|]; [|done]. cbn [stacked t_shape]. rewrite Hl.
      cbn [pshape_compatible] in S3. replace sh' with sh by congruence. by apply (pdims_conform dims (length refs :: sh)).
Qed.

(** What is sampled from the item, see C39, conforms to the signature of its table. *)
Theorem C58_sampled_partial w mm sig pre r suf chunks c ii data it cols mt : tw_reach (tw_new o sigs ep) w -> w_wire w = pre ++ r :: suf ->
  async_run (fun _ => true) ∅ pre = Some chunks -> async_insert_request (fun _ => true) chunks r = Some (IInsert c ii data) ->
  (it, cols) ∈ w_created w -> ii_key ii = wi_key it -> Forall (fun col => contiguous (w_cols w) col.1) cols ->
  sigs = Some mm -> mm !! wi_table it = Some (Some sig) ->
  let sampled := mkSampled (mkSinfo mt (ii_traj ii) (snd <$> cols)) data in
  exists s out, as_sample_local sampled = AOk s /\ as_trajectory s = SROk (mt, out) /\ Forall2 conforms sig out.
Proof.
  intros Hr Hw H1 H2 H3 H4 H5 Hm Ht sampled. destruct (C39_trajectory_partial w pre r suf chunks c ii data it cols mt Hr Hw H1 H2 H3 H4 H5) as (_ & s & out & A1 & A2 & A3).
  exists s, out. split; [done|]. split; [done|]. destruct (C58_signature w mm it cols out Hr Hm H3 A3) as (os & B1 & B2). apply B2. congruence.
Qed.

End reach.

(** ** Runs given by lists of actions *)

(** Generated keys are numbered from [b]. *)
Definition nkf (b : Z) : nat -> Z := fun c => b + Z.of_nat c.
Inductive sev :=
| SEv (e : tev)
| SAppend (data : list (option tensor)) (inc : bool) (b : Z)
| SFlush (n b : Z)
| SEpisode (clear : bool) (b : Z)
| SDone (timeout : bool) (b newep : Z).
Definition sev_event (s : sev) : tev :=
  match s with
  | SEv e => e | SAppend data inc b => EAppend data inc (nkf b) | SFlush n b => EFlush n (nkf b)
  | SEpisode clear b => EEpisode clear (nkf b) | SDone t b newep => EDone t (nkf b) newep
  end.
Definition fresh_from_b (w : tw) (b : Z) : bool := forallb (fun p => forallb (fun x => x <? b) (chunk_keys_of p.2.1)) (map_to_list (w_cols w)).
Definition tensor_ok_b (t : tensor) : bool := (length (t_data t) =? elements (t_shape t))%nat && bool_decide (t_ty t = TOther 1).
Definition tw_enabled_b (w : tw) (s : sev) : bool :=
  match s with
  | SAppend data _ b => fresh_from_b w b && forallb (fun o => match o with Some t => tensor_ok_b t | None => true end) data
  | SFlush _ b | SEpisode _ b | SDone _ b _ => fresh_from_b w b
  | SEv e =>
    match e with
    | EColumn nk => fresh_from_b w nk
    | ECreate _ _ _ key => bool_decide (key ∉ ((fun p => wi_key p.1) <$> w_created w))
    | EAppend _ _ _ | EFlush _ _ | EEpisode _ _ | EDone _ _ _ | ETune _ _ => false
    | _ => true
    end
  end.
Fixpoint tw_log (w : tw) (es : list sev) : option (list (tev * option status)) :=
  match es with
  | [] => Some []
  | s :: es => match tw_step w (sev_event s) with TNext w ret => l ← tw_log w es; Some ((sev_event s, ret) :: l) | _ => None end
  end.
Fixpoint tw_script (w : tw) (es : list sev) : option tw :=
  match es with
  | [] => Some w
  | s :: es => if tw_enabled_b w s then match tw_step w (sev_event s) with TNext w _ => tw_script w es | _ => None end else None
  end.

Lemma fresh_from_sound w b x : fresh_from_b w b = true -> b <= x -> fresh w x.
Proof.
  intros H Hx c k h Hk Hin. unfold fresh_from_b in H. rewrite forallb_forall in H. apply elem_of_map_to_list, elem_of_list_In in Hk. specialize (H _ Hk). cbn [fst snd] in H.
  rewrite forallb_forall in H. apply elem_of_list_In in Hin. specialize (H _ Hin). apply Z.ltb_lt in H. lia.
Qed.
Lemma tensor_ok_b_sound t : tensor_ok_b t = true -> tensor_ok t.
Proof. intros [H1%Nat.eqb_eq H2%bool_decide_eq_true]%andb_true_iff. split; [done|]. rewrite H2. by apply Forall_true. Qed.
Lemma tw_enabled_sound w s : tw_enabled_b w s = true -> tw_enabled w (sev_event s).
Proof.
  assert (K : forall b, fresh_from_b w b = true -> fresh_keys w (nkf b)).
  { intros b Hb. split; [intros c; apply (fresh_from_sound w b _ Hb); unfold nkf; lia|]. intros c d. unfold nkf. lia. }
  destruct s as [e|data inc b|n b|cl b|t b nb]; cbn [tw_enabled_b sev_event tw_enabled]; [|..|by apply K|by apply K|by apply K].
  - destruct e; cbn [tw_enabled]; try done; [|by intros ?%bool_decide_eq_true]. intros H. by apply (fresh_from_sound w nk).
  - intros [H1 H2]%andb_true_iff. split; [by apply K|]. apply Is_true_true, forallb_True in H2. eapply Forall_impl; [exact H2|]. intros [t|]; [|done]. intros H%Is_true_true. by apply tensor_ok_b_sound.
Qed.
Lemma script_reach w0 w es w' : tw_reach w0 w -> tw_script w es = Some w' -> tw_reach w0 w'.
Proof.
  revert w. induction es as [|s es IH]; intros w H; cbn [tw_script]; [by intros [= <-]|]. destruct (tw_enabled_b w s) eqn:Hb; [|done].
  destruct (tw_step w (sev_event s)) as [| |w1 ret] eqn:E; try done. apply IH. eapply tr_step; [exact H|by apply tw_enabled_sound|exact E].
Qed.

Lemma script_trace w0 tr w es w' l : tw_trace w0 tr w -> tw_script w es = Some w' -> tw_log w es = Some l -> tw_trace w0 (tr ++ l) w'.
Proof.
  revert tr w l. induction es as [|s es IH]; intros tr w l H; cbn [tw_script tw_log].
  { intros [= <-] [= <-]. by rewrite app_nil_r. }
  destruct (tw_enabled_b w s) eqn:Hb; [|done]. destruct (tw_step w (sev_event s)) as [| |w1 ret] eqn:E; try done. intros HS.
  destruct (tw_log w1 es) as [l'|] eqn:El; [|done]. intros [= <-]. replace (tr ++ (sev_event s, ret) :: l') with ((tr ++ [(sev_event s, ret)]) ++ l') by (by rewrite <- app_assoc).
  eapply IH; [|exact HS|exact El]. econstructor; [exact H|by apply tw_enabled_sound|exact E].
Qed.

(** *** An ordinary run *)

(** Chunks of at most three rows; the signature of table 5 wants scalars in
    the first column and one in the second, table 6 has no signature. *)
Definition ex_opts : copts := Constant 3 4 false.
Definition ex_sigs : option (gmap Z (option (list tspec))) := Some (<[6 := None]> {[ 5 := Some [mkTspec (TOther 1) (Some [None]); mkTspec (TOther 1) (Some [])] ]}).
Definition append1 (x b : Z) : list sev := [SAppend [Some (scalar x)] true b; SEv (EColumn (b + 1)); SEv (EColumn (b + 2))].
Definition ex_run : list sev :=
  append1 1 100 ++ append1 2 110 ++ append1 3 120 ++ append1 4 130 ++
  [SEv (ECreate 5 (Fin 1) [([(0, 1); (0, 2); (0, 3)]%nat, false); ([(0, 3)]%nat, true)] 41);
   SEv EStart; SEv ENext; SEv (EChunk true OutOk); SEv (EChunk false OutOk); SEv (EChunk false OutOk); SEv (EChunk false OutOk); SEv (EChunk false OutOk); SEv ECheck;
   SFlush 0 200; SEv EWake; SEv ENext] ++ replicate 5 (SEv (EChunk false OutOk)) ++ [SEv ECheck; SEv (ESend OutOk); SEv EPop; SEv (EConfirm [41]); SDone false 300 0].


Definition after (o : copts) (es : list sev) : tw := match tw_script (tw_new o ex_sigs 7) es with Some w => w | None => tw_new o ex_sigs 7 end.
Lemma after_reach o es : tw_reach (tw_new o ex_sigs 7) (after o es).
Proof. unfold after. destruct (tw_script _ es) as [w|] eqn:E; [|constructor]. eapply script_reach; [constructor|exact E]. Qed.
Lemma run_contiguous m c i n : contiguous m (run c i n).
Proof.
  intros j r r' d d' Hr Hr' _ _ _. unfold run in *. rewrite list_lookup_fmap in Hr, Hr'. apply fmap_Some in Hr as (x & Hx & ->). apply fmap_Some in Hr' as (y & Hy & ->).
  apply lookup_seq in Hx as [-> _]. apply lookup_seq in Hy as [-> _]. cbn. f_equal. lia.
Qed.
Definition store_of (r : option ireq_result) : gmap Z chunk_data * option iitem * list kchunk :=
  match r with Some (IInsert c ii data) => (c, Some ii, data) | Some (IContinue c) => (c, None, []) | _ => (∅, None, []) end.
Definition ex_item (w : tw) : witem * list (list ref * bool) := default (mkWitem 0 0 NaN [] [] [], []) (head (w_created w)).
Definition ex_meta (k : Z) : meta := mkMeta k 1 1 (Fin 1) false.
(** What a client samples of the item in the last message. *)
Definition ex_sampled (w : tw) : option (list tensor) :=
  pre ← Some (removelast (w_wire w)); r ← last (w_wire w); chunks ← async_run (fun _ => true) ∅ pre;
  match async_insert_request (fun _ => true) chunks r with
  | Some (IInsert _ ii data) =>
    match as_sample_local (mkSampled (mkSinfo (ex_meta 9) (ii_traj ii) (wi_squeeze (ex_item w).1)) data) with
    | AOk s => match as_trajectory s with SROk (_, out) => Some out | _ => None end
    | _ => None
    end
  | _ => None
  end.

(** The item of the run is sent in two messages, stored and sampled: C39, C40, C58. *)
Example C39_example : let w := after ex_opts ex_run in exists pre r chunks c ii data it cols, validate_options ex_opts = Ok /\ tw_reach (tw_new ex_opts ex_sigs 7) w /\
  w_wire w = pre ++ r :: [] /\ pre <> [] /\ async_run (fun _ => true) ∅ pre = Some chunks /\ async_insert_request (fun _ => true) chunks r = Some (IInsert c ii data) /\
  (it, cols) ∈ w_created w /\ ii_key ii = wi_key it /\ Forall (fun col => contiguous (w_cols w) col.1) cols /\
  (exists mm sig, ex_sigs = Some mm /\ mm !! wi_table it = Some (Some sig) /\ length sig = 2%nat) /\ ex_sampled w = Some [vec [2; 3; 4]; scalar 4].
Proof.
  intros w. exists (removelast (w_wire w)), (default (mkIreq [] None) (last (w_wire w))), (default ∅ (async_run (fun _ => true) ∅ (removelast (w_wire w)))).
  set (st := store_of (async_insert_request (fun _ => true) (default ∅ (async_run (fun _ => true) ∅ (removelast (w_wire w)))) (default (mkIreq [] None) (last (w_wire w))))).
  exists st.1.1, (default (mkIitem 0 0 [] [] false) st.1.2), st.2, (ex_item w).1, (ex_item w).2.
  split; [done|]. split; [apply after_reach|]. split; [vm_compute; reflexivity|]. split; [vm_compute; discriminate|]. split; [vm_compute; reflexivity|]. split; [vm_compute; reflexivity|].
  assert (Hc : w_created w = [ex_item w]) by (vm_compute; reflexivity). split; [rewrite Hc; apply elem_of_list_singleton; by destruct (ex_item w)|].
  split; [vm_compute; reflexivity|]. split.
  - assert ((ex_item w).2 = [(run 0 1 3, false); (run 0 3 1, true)]) as -> by (vm_compute; reflexivity). repeat constructor; apply run_contiguous.
  - split; [|vm_compute; reflexivity]. eexists _, _. split; [reflexivity|]. split; vm_compute; reflexivity.
Qed.

(** Its Flush returns OK after the confirmation: C41. *)
Example C41_example : exists tr1 e tr2 nk newep w, tw_trace (tw_new ex_opts ex_sigs 7) (tr1 ++ (e, None) :: tr2 ++ [(EDone false nk newep, Some Ok)]) w /\
  (exists nk', e = EFlush 0 nk') /\ Forall (fun x => ~ flush_event x.1) tr2 /\ created_in (tr1 ++ (e, None) :: tr2) = [41].
Proof.
  destruct (tw_script (tw_new ex_opts ex_sigs 7) ex_run) as [w|] eqn:E; [|vm_compute in E; done].
  assert (L : exists tr1 tr2, tw_log (tw_new ex_opts ex_sigs 7) ex_run = Some (tr1 ++ (EFlush 0 (nkf 200), None) :: tr2 ++ [(EDone false (nkf 300) 0, Some Ok)]) /\
    Forall (fun x => ~ flush_event x.1) tr2 /\ created_in (tr1 ++ (EFlush 0 (nkf 200), None) :: tr2) = [41]).
  { set (l := default [] (tw_log (tw_new ex_opts ex_sigs 7) ex_run)). exists (take 21 l), (take 11 (drop 22 l)). split; [vm_compute; reflexivity|]. split; [|vm_compute; reflexivity].
    vm_compute. repeat constructor; by intros []. }
  destruct L as (tr1 & tr2 & L & H1 & H2). exists tr1, (EFlush 0 (nkf 200)), tr2, (nkf 300), 0, w. split; [|split; [eexists; reflexivity|split; [exact H1|exact H2]]].
  change (tw_trace (tw_new ex_opts ex_sigs 7) ([] ++ (tr1 ++ (EFlush 0 (nkf 200), None) :: tr2 ++ [(EDone false (nkf 300) 0, Some Ok)])) w).
  eapply script_trace; [constructor|exact E|exact L].
Qed.

(** *** What is not so *)

(** C39: an item with the first and the third row of a chunk.  Two slices of the same
    chunk are merged into one (trajectory_writer.cc:46-72), so the sample holds the
    second row in place of the third. *)
Definition gap_run : list sev :=
  append1 1 100 ++ append1 2 110 ++ append1 3 120 ++
  [SEv (ECreate 6 (Fin 1) [([(0, 0); (0, 2)]%nat, false)] 41); SEv EStart; SEv ENext; SEv (EChunk false OutOk); SEv (EChunk false OutOk); SEv (EChunk false OutOk);
   SEv ECheck; SEv (ESend OutOk)].
Theorem C39_gap_refuted : exists o sigs ep w r c ii data it cols mt s out, validate_options o = Ok /\ tw_reach (tw_new o sigs ep) w /\ w_wire w = [r] /\
  async_insert_request (fun _ => true) ∅ r = Some (IInsert c ii data) /\ (it, cols) ∈ w_created w /\ ii_key ii = wi_key it /\
  as_sample_local (mkSampled (mkSinfo mt (ii_traj ii) (snd <$> cols)) data) = AOk s /\ as_trajectory s = SROk (mt, out) /\
  ~ Forall2 (column_value (w_cols w)) cols out.
Proof.
  exists ex_opts, ex_sigs, 7. set (w := after ex_opts gap_run). exists w, (default (mkIreq [] None) (last (w_wire w))).
  set (st := store_of (async_insert_request (fun _ => true) ∅ (default (mkIreq [] None) (last (w_wire w))))).
  exists st.1.1, (default (mkIitem 0 0 [] [] false) st.1.2), st.2, (ex_item w).1, (ex_item w).2, (ex_meta 9).
  destruct (as_sample_local (mkSampled (mkSinfo (ex_meta 9) (ii_traj (default (mkIitem 0 0 [] [] false) st.1.2)) (snd <$> (ex_item w).2)) st.2)) as [s| |] eqn:Es;
    [|vm_compute in Es; discriminate..].
  exists s, [vec [1; 2]]. split; [done|]. split; [apply after_reach|]. split; [vm_compute; reflexivity|]. split; [vm_compute; reflexivity|].
  assert (Hc : w_created w = [ex_item w]) by (vm_compute; reflexivity). split; [rewrite Hc; apply elem_of_list_singleton; by destruct (ex_item w)|].
  split; [vm_compute; reflexivity|]. split; [reflexivity|]. split; [vm_compute in Es; injection Es as <-; vm_compute; reflexivity|].
  assert ((ex_item w).2 = [([(0, 0); (0, 2)]%nat, false)]) as -> by (vm_compute; reflexivity). intros H. apply Forall2_cons in H as [(ts & H1 & ty & sh & _ & H2) _]. cbn [fst] in H1.
  assert (mapM (tensor_at (w_cols w)) [(0, 0); (0, 2)]%nat = Some [scalar 1; scalar 3]) as HM by (vm_compute; reflexivity). rewrite HM in H1. injection H1 as <-. clear -H2. apply (f_equal t_data) in H2. discriminate H2.
Qed.

(** C56: CreateItem with one empty column beside another. *)
Theorem C56_no_crash_refuted : exists o sigs ep w e, validate_options o = Ok /\ tw_reach (tw_new o sigs ep) w /\ tw_enabled w e /\ tw_step w e = TCrash.
Proof.
  exists ex_opts, ex_sigs, 7, (after ex_opts (append1 1 100)), (ECreate 6 (Fin 1) [([(0, 0)]%nat, false); ([], false)] 41).
  split; [done|]. split; [apply after_reach|]. split; [by intros ?%elem_of_nil|]. vm_compute. reflexivity.
Qed.
Example C56_example : exists w e w', tw_reach (tw_new ex_opts ex_sigs 7) w /\ tw_enabled w e /\ tw_step w e = TNext w' (Some Ok) /\ w_created w' <> w_created w.
Proof.
  set (w := after ex_opts (take 12 ex_run)). set (e := ECreate 5 (Fin 1) [([(0, 1); (0, 2); (0, 3)]%nat, false); ([(0, 3)]%nat, true)] 41).
  destruct (tw_step w e) as [| |w' ret] eqn:E; [vm_compute in E; discriminate..|]. exists w, e, w'. split; [apply after_reach|]. split; [by intros ?%elem_of_nil|].
  vm_compute in E. injection E as <- <-. split; [reflexivity|]. vm_compute. discriminate.
Qed.

(** C57: the stream breaks after the first item was written and before the server
    confirmed it.  The next stream carries the second item only.  A Flush then waits
    for ever, whatever the worker and the server do, unless it times out or the
    writer is closed. *)
Definition broken_run : list sev :=
  append1 1 100 ++ append1 2 110 ++ append1 3 120 ++
  [SEv (ECreate 6 (Fin 1) [([(0, 0)]%nat, false)] 41); SEv (ECreate 6 (Fin 1) [([(0, 1)]%nat, false)] 42);
   SEv EStart; SEv ENext; SEv (EChunk false OutOk); SEv (EChunk false OutOk); SEv ECheck; SEv (ESend OutOk); SEv EPop;
   SEv ENext; SEv (EChunk false OutOk); SEv (EChunk false OutOk); SEv ECheck; SEv (ESend OutLost); SEv (EFinish Unavailable);
   SEv EStart; SEv ENext; SEv (EChunk false OutOk); SEv (EChunk false OutOk); SEv ECheck; SEv (ESend OutOk); SEv EPop; SFlush 0 200].
(** The user does not give up. *)
Definition patient (e : tev) : Prop := match e with EClose | EDone true _ _ => False | _ => True end.
Inductive patient_reach (w0 : tw) : tw -> Prop :=
| pr_init : patient_reach w0 w0
| pr_step w e w' ret : patient_reach w0 w -> patient e -> tw_step w e = TNext w' ret -> patient_reach w0 w'.
Theorem C57_flush_refuted : exists o sigs ep w, validate_options o = Ok /\ tw_reach (tw_new o sigs ep) w /\ w_failed w = false /\ w_unrec w = Ok /\ w_closed w = false /\
  w_user w = UWait 0 FinFlush /\ forall w', patient_reach w w' -> w_user w' = UWait 0 FinFlush /\ w_queue w' = [] /\ 41 ∈ w_flight w' /\ w_acked w' ⊆ {[42]}.
Proof.
  exists ex_opts, ex_sigs, 7. set (w := after ex_opts broken_run). exists w. split; [done|]. split; [apply after_reach|].
  do 4 (split; [vm_compute; reflexivity|]).
  set (J := fun x : tw => w_user x = UWait 0 FinFlush /\ w_queue x = [] /\ 41 ∈ w_flight x /\ w_acked x ⊆ {[42]} /\ w_closed x = false /\ w_unrec x = Ok /\
    (exists s, w_pos x = WTop s []) /\ confirmable (w_wire x) = [42]).
  assert (J0 : J w).
  { split; [vm_compute; reflexivity|]. split; [vm_compute; reflexivity|]. split; [refine (bool_decide_unpack _ _); vm_compute; exact Logic.I|].
    split; [assert (w_acked w = ∅) as -> by (vm_compute; reflexivity); apply empty_subseteq|]. split; [vm_compute; reflexivity|]. split; [vm_compute; reflexivity|]. split; [|vm_compute; reflexivity].
    eexists. vm_compute. reflexivity. }
  assert (JS : forall x e x' ret, J x -> patient e -> tw_step x e = TNext x' ret -> J x').
  { intros x e x' ret (U & Q & F & A & C & R & (s & P) & W) He. destruct e; cbn [tw_step]; rewrite ?P, ?U, ?Q, ?C; try done.
    - destruct (forallb _ keys) eqn:Hk; [|done]. intros [= <- <-]. rewrite forallb_forall in Hk.
      assert (K : forall k, k ∈ keys -> k = 42).
      { intros k Hin. apply elem_of_list_In in Hin. specialize (Hk _ Hin). apply bool_decide_eq_true in Hk. rewrite W in Hk. by apply elem_of_list_singleton in Hk. }
      split; [done|]. split; [done|]. split; [|split; [|split; [done|]; split; [done|]; split; [by exists s|done]]]; cbn [w_flight w_acked set_flight set_acked].
      + apply elem_of_difference. split; [done|]. intros Hx%elem_of_list_to_set. by apply K in Hx.
      + apply union_subseteq. split; [|done]. intros k Hx%elem_of_list_to_set. apply K in Hx as ->. by apply elem_of_singleton.
    - unfold append_begin. by rewrite U.
    - unfold append_col. by rewrite U.
    - unfold create_item. by rewrite U.
    - unfold flush_done. rewrite U. destruct timeout; [done|]. destruct (flush_cond x 0) eqn:Hf; [|done].
      unfold flush_cond in Hf. rewrite R, bool_decide_true in Hf by done. cbn [negb orb] in Hf. apply Z.leb_le in Hf. unfold num_pending in Hf. rewrite Q in Hf. cbn [length] in Hf.
      assert (size (w_flight x) <> 0%nat); [|lia]. intros Hs. apply size_empty_iff in Hs. set_solver.
    - unfold configure. by rewrite U. }
  intros w' H. assert (J w') as HJ; [|by destruct HJ as (?&?&?&?&_)]. induction H as [|x e x' ret H IH He E]; [done|]. by eapply JS.
Qed.

(** C57: an Append that fails in its second column has completed the chunk that the
    worker waits for, and does not signal: the item stays where it is. *)
Definition lost_run : list sev :=
  [SAppend [Some (scalar 1); Some (scalar 1)] true 100; SEv (EColumn 110); SEv (EColumn 111); SEv (EColumn 112);
   SEv (ECreate 6 (Fin 1) [([(0, 0)]%nat, false)] 41); SEv EStart; SEv ENext; SEv (EChunk false OutOk); SEv (EChunk false OutOk); SEv ECheck;
   SAppend [Some (scalar 2); Some (vec [2; 3])] true 120; SEv (EColumn 130); SEv (EColumn 131)].
Theorem C57_wakeup_refuted : exists o sigs ep w it s req, validate_options o = Ok /\ tw_reach (tw_new o sigs ep) w /\ w_user w = UIdle /\ w_unrec w = Ok /\
  w_pos w = WWait it s req false /\ Forall (ready (w_cols w)) (wi_refs it).
Proof.
  exists (Constant 2 4 false), ex_sigs, 7. set (w := after (Constant 2 4 false) lost_run). exists w, (ex_item w).1, ∅, [].
  split; [done|]. split; [apply after_reach|]. do 3 (split; [vm_compute; reflexivity|]).
  assert (wi_refs (ex_item w).1 = [(0, 0)]%nat) as -> by (vm_compute; reflexivity). constructor; [|constructor]. unfold ready.
  eexists _, _. split; vm_compute; reflexivity.
Qed.

(** Flush waits, and the three ways out. *)
Example C57_example : exists w n fin nk newep, tw_reach (tw_new ex_opts ex_sigs 7) w /\ w_failed w = false /\ w_user w = UWait n fin /\ 0 <= n /\
  tw_enabled w (EDone false nk newep) /\ tw_step w (EDone false nk newep) = TBlocked /\ w_flight w = ∅ /\ exists w', tw_step w EWake = TNext w' None.
Proof.
  set (w := after ex_opts (take 22 ex_run)). exists w, 0, FinFlush, (nkf 300), 0. split; [apply after_reach|]. split; [vm_compute; reflexivity|]. split; [vm_compute; reflexivity|].
  split; [done|]. split; [apply (tw_enabled_sound w (SDone false 300 0)); vm_compute; reflexivity|]. split; [vm_compute; reflexivity|]. split; [vm_compute; reflexivity|].
  eexists. vm_compute. reflexivity.
Qed.

Print Assumptions C39_trajectory_partial.
Print Assumptions C39_gap_refuted.
Print Assumptions C40_trajectory_async.
Print Assumptions C40_trajectory_sync.
Print Assumptions C40_trajectory_no_crash.
Print Assumptions C41_trajectory.
Print Assumptions C41_trajectory_all.
Print Assumptions C56_no_crash_partial.
Print Assumptions C56_no_crash_refuted.
Print Assumptions C57_wakeup_partial.
Print Assumptions C57_wakeup_refuted.
Print Assumptions C57_flush_waits_partial.
Print Assumptions C57_flush_refuted.
Print Assumptions C58_signature.
Print Assumptions C58_sampled_partial.
