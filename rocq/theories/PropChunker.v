(** C38: the Chunker. *)
From Verif Require Import Base Tensor TrajUtil PropDelta ChunkerOptions Chunker.

(** ** Specification *)

Notation hist := (list (tensor * Z * Z)).
Definition h_tensor (x : tensor * Z * Z) : tensor := x.1.1.
Definition h_ep (x : tensor * Z * Z) : Z := x.1.2.
Definition h_step (x : tensor * Z * Z) : Z := x.2.

(** Tensors stacked along a new first dimension. *)
Definition stacked (ty : dty) (sh : list nat) (ts : list tensor) : tensor :=
  mkTensor ty (length ts :: sh) (concat (t_data <$> ts)).
Definition same_kind (ty : dty) (sh : list nat) (t : tensor) : Prop := t_ty t = ty /\ t_shape t = sh.
(** Steps without holes. *)
Definition dense (l : list Z) : Prop := forall i x y, l !! i = Some x -> l !! S i = Some y -> y = x + 1.

(** The chunk holds exactly the rows [xs]. *)
Definition chunk_of (ch : chunk) (xs : hist) : Prop :=
  (exists ty sh, Forall (same_kind ty sh) (h_tensor <$> xs) /\
     unpack_chunk_column (ck_data ch) 0 = UOk (stacked ty sh (h_tensor <$> xs))) /\
  exists r x y, ck_range ch = Some r /\ head xs = Some x /\ last xs = Some y /\
    Forall (fun z => h_ep z = rg_ep r) xs /\ rg_start r = h_step x /\ rg_end r = h_step y /\
    (rg_sparse r = false <-> dense (h_step <$> xs)).

(** The [n] elements of [l] from position [lo] on. *)
Definition segment {A} (l : list A) (lo n : nat) : list A := take n (drop lo l).

(** The cell number [i] points to its tensor, in a chunk of at most [bound] rows. *)
Definition resolved (h : hist) (i : nat) (c : cell) (ch : chunk) : Prop :=
  ce_chunk c = Some ch /\ ck_key ch = ce_key c /\
  exists lo n, (lo <= i < lo + n)%nat /\ (lo + n <= length h)%nat /\ ce_off c = Z.of_nat (i - lo) /\ chunk_of ch (segment h lo n).

(** A sequence of calls from one state to another one. *)
Inductive k_path : chunker -> hist -> list kev -> chunker -> hist -> Prop :=
| kp_nil k h : k_path k h [] k h
| kp_snoc k h es k1 h1 e k2 h2 : k_path k h es k1 h1 -> k_enabled k1 e -> k_step k1 h1 e = Some (k2, h2) ->
    k_path k h (es ++ [e]) k2 h2.
(** max_chunk_length never exceeds [m]. *)
Definition max_le (m : Z) (e : kev) : Prop :=
  match e with KConfig o => get_max o <= m | KTune a => au_max a <= m | _ => True end.
Definition no_reset (e : kev) : Prop := match e with KReset _ => False | _ => True end.
Definition no_config (e : kev) : Prop := match e with KConfig _ => False | _ => True end.
(** The specification of the column fixes every size (TrajectoryWriter makes such
    specifications: trajectory_writer.cc:215-224). *)
Definition fully_defined (s : tspec) : Prop := exists sh, sp_shape s = Some (Some <$> sh).
(** The number of rows of a chunk. *)
Definition rows_le (ch : chunk) (m : Z) : Prop :=
  exists t d sh, unpack_chunk_column (ck_data ch) 0 = UOk t /\ t_shape t = d :: sh /\ Z.of_nat d <= m.

(** ** Concatenation *)

Lemma concat_lookup_rows (ts : list tensor) sh : Forall (fun t => length (t_data t) = elements sh) ts ->
  forall i t, ts !! i = Some t ->
  take (elements sh) (drop (i * elements sh) (concat (t_data <$> ts))) = t_data t.
Proof.
  induction 1 as [|u ts Hu _ IH]; intros i t Hi; [done|]. destruct i as [|i].
  - injection Hi as ->. cbn [Nat.mul]. rewrite drop_0. cbn. rewrite take_app_alt; done.
  - cbn in Hi. cbn [fmap list_fmap concat]. replace (S i * elements sh)%nat with (length (t_data u) + i * elements sh)%nat by (rewrite Hu; lia).
    rewrite drop_app_ge by lia. replace (length (t_data u) + i * elements sh - length (t_data u))%nat with (i * elements sh)%nat by lia. by apply IH.
Qed.

Lemma sub_slice_stacked ty sh ts i t : Forall (same_kind ty sh) ts -> Forall tensor_ok ts -> ts !! i = Some t ->
  sub_slice (stacked ty sh ts) (Z.of_nat i) = UOk t.
Proof.
  intros Hk Hok Hi. unfold sub_slice, stacked. cbn. rewrite decide_True by (apply lookup_lt_Some in Hi; lia).
  rewrite Nat2Z.id. rewrite concat_lookup_rows with (t := t); [|..|done].
  - eapply Forall_lookup_1 in Hk; [|done]. destruct Hk as [<- <-]. by destruct t.
  - apply Forall_lookup. intros j u Hj. eapply Forall_lookup_1 in Hk, Hok; [|done..]. destruct Hk as [_ <-], Hok. done.
Qed.

Lemma foldr_batched (ts : list tensor) :
  foldr Nat.add 0%nat ((fun u => default 0%nat (head (t_shape u))) <$> (batched <$> ts)) = length ts.
Proof. induction ts as [|t ts IH]; [done|]. cbn in *. by rewrite IH. Qed.
Lemma data_batched (ts : list tensor) : t_data <$> (batched <$> ts) = t_data <$> ts.
Proof. induction ts as [|t ts IH]; [done|]. cbn in *. by rewrite IH. Qed.

Lemma tf_concat_inv ts b : tf_concat (batched <$> ts) = Some b ->
  exists ty sh, Forall (same_kind ty sh) ts /\ b = stacked ty sh ts.
Proof.
  destruct ts as [|t ts]; [done|]. unfold tf_concat. cbn [fmap list_fmap]. 
  match goal with |- (if ?c then _ else _) = _ -> _ => destruct c eqn:Hc end; [|done]. intros [= <-].
  exists (t_ty t), (t_shape t). split.
  - apply Is_true_true, forallb_True in Hc. apply Forall_lookup. intros i u Hu.
    assert (Hu' : (batched t :: (batched <$> ts)) !! i = Some (batched u)) by (change (batched t :: (batched <$> ts)) with (batched <$> (t :: ts)); by rewrite list_lookup_fmap, Hu).
    eapply Forall_lookup_1 in Hc; [|exact Hu']. unfold concat_ok in Hc. cbn in Hc.
    apply andb_True in Hc as [H1 H2]. apply bool_decide_unpack in H1, H2. done.
  - unfold stacked. f_equal; [|].
    + f_equal. change (batched t :: list_fmap _ _ batched ts) with (batched <$> (t :: ts)). by rewrite foldr_batched.
    + change (batched t :: list_fmap _ _ batched ts) with (batched <$> (t :: ts)). by rewrite data_batched.
Qed.
Lemma tf_concat_some ty sh ts : ts <> [] -> Forall (same_kind ty sh) ts -> exists b, tf_concat (batched <$> ts) = Some b.
Proof.
  destruct ts as [|t ts]; [done|]. intros _ H. unfold tf_concat. cbn [fmap list_fmap].
  match goal with |- context [if ?c then _ else _] => assert (c = true) as -> end; [|by eexists].
  apply Is_true_true, forallb_True. apply (proj2 (Forall_fmap batched _ (t :: ts))). pose proof (Forall_inv H) as [H1 H2]. eapply Forall_impl; [exact H|]. intros u [Hu1 Hu2].
  unfold concat_ok. cbn. rewrite H1, H2, Hu1, Hu2. by rewrite !bool_decide_true.
Qed.

Lemma concat_length_rows (ts : list tensor) n : Forall (fun t => length (t_data t) = n) ts -> length (concat (t_data <$> ts)) = (length ts * n)%nat.
Proof. induction 1 as [|t ts H _ IH]; [done|]. cbn. rewrite app_length, IH, H. done. Qed.

Lemma stacked_ok ty sh ts : Forall (same_kind ty sh) ts -> Forall tensor_ok ts -> tensor_ok (stacked ty sh ts).
Proof.
  intros Hk Hok. split; cbn.
  - rewrite concat_length_rows with (n := elements sh); [done|]. apply Forall_lookup. intros j u Hj.
    eapply Forall_lookup_1 in Hk, Hok; [|done..]. destruct Hk as [_ <-], Hok. done.
  - apply Forall_concat, Forall_fmap. apply Forall_lookup. intros j u Hj.
    eapply Forall_lookup_1 in Hk, Hok; [|done..]. destruct Hk as [<- _], Hok. done.
Qed.

(** ** Ranges *)

Lemma range_skip key cs1 cs2 r : Forall (fun c => ce_key c <> key) cs1 -> range_of key (cs1 ++ cs2) r = range_of key cs2 r.
Proof.
  induction 1 as [|c cs H _ IH]; [done|]. cbn. destruct (Z.eqb_spec (ce_key c) key); done.
Qed.

Definition increasing (cs : list cell) : Prop :=
  forall i j c d, (i < j)%nat -> cs !! i = Some c -> cs !! j = Some d -> ce_ep c = ce_ep d /\ ce_step c < ce_step d.
Lemma increasing_cons c cs : increasing (c :: cs) -> increasing cs.
Proof. intros H i j x y Hij Hx Hy. apply (H (S i) (S j)); [lia|done..]. Qed.

Lemma range_fold key cs : forall r, Forall (fun c => ce_key c = key) cs -> increasing cs ->
  (forall c, head cs = Some c -> rg_ep r = ce_ep c /\ rg_end r < ce_step c) ->
  exists r', range_of key cs (Some r) = Some (Some r') /\ rg_ep r' = rg_ep r /\ rg_start r' = rg_start r /\
    rg_end r' = default (rg_end r) (ce_step <$> last cs) /\
    (rg_sparse r' = false <-> rg_sparse r = false /\ dense (rg_end r :: (ce_step <$> cs))).
Proof.
  induction cs as [|c cs IH]; intros r Hk Hi Hh.
  - exists r. do 4 (split; [done|]). split; [|by intros []]. intros H. split; [done|]. intros [|[]] x y Hx Hy; done.
  - cbn [range_of]. pose proof (Forall_inv Hk) as Hck. cbn in Hck. rewrite (proj2 (Z.eqb_eq _ _)) by done. 
    destruct (Hh c eq_refl) as [He Hs]. unfold extend_range.
    rewrite (proj2 (Z.eqb_eq _ _)) by done. rewrite (proj2 (Z.ltb_lt _ _)) by done. cbn [andb mbind option_bind].
    set (r1 := mkRange _ _ _ _).
    destruct (IH r1) as (r' & E & H1 & H2 & H3 & H4).
    + by inversion Hk.
    + by eapply increasing_cons.
    + intros d Hd. cbn. destruct cs as [|d' cs]; [done|]. cbn in Hd. injection Hd as <-.
      destruct (Hi 0%nat 1%nat c d') as [H1 H2]; [lia|done|done|]. split; [congruence|done].
    + exists r'. split; [done|]. split; [done|]. split; [done|]. split.
      { rewrite H3. cbn [rg_end]. destruct cs as [|d cs]; [done|]. rewrite last_cons_cons.
        destruct (last (d :: cs)) eqn:El; [done|by apply last_None in El]. }
      rewrite H4. cbn [rg_sparse rg_end]. destruct (rg_sparse r); cbn; [split; [by intros []|by intros []]|].
      rewrite negb_false_iff, Z.eqb_eq. split.
      * intros [Hst Hd]. split; [done|]. intros [|i] x y Hx Hy.
        -- cbn in Hx, Hy. congruence.
        -- by apply (Hd i).
      * intros [_ Hd]. split; [by apply (Hd 0%nat)|]. intros i x y Hx Hy. by apply (Hd (S i)).
Qed.

Lemma range_new key cs c : Forall (fun c => ce_key c = key) cs -> increasing cs -> head cs = Some c ->
  exists r d, range_of key cs None = Some (Some r) /\ last cs = Some d /\ rg_ep r = ce_ep c /\ rg_start r = ce_step c /\
    rg_end r = ce_step d /\ (rg_sparse r = false <-> dense (ce_step <$> cs)).
Proof.
  destruct cs as [|c' cs]; [done|]. intros Hk Hi [= ->]. cbn [range_of]. pose proof (Forall_inv Hk) as Hck. cbn in Hck.
  rewrite (proj2 (Z.eqb_eq _ _)) by done. cbn [extend_range mbind option_bind].
  destruct (range_fold key cs (mkRange (ce_ep c) (ce_step c) (ce_step c) false)) as (r & E & H1 & H2 & H3 & H4).
  - by inversion Hk.
  - by eapply increasing_cons.
  - intros d Hd. cbn. destruct cs as [|d' cs]; [done|]. injection Hd as ->. apply (Hi 0%nat 1%nat); [lia|done|done].
  - destruct (last (c :: cs)) as [d|] eqn:Hl; [|by apply last_None in Hl].
    exists r, d. split; [done|]. split; [done|]. split; [done|]. split; [done|]. split.
    + rewrite H3. cbn. destruct cs as [|d' cs]; [by injection Hl as <-|]. rewrite last_cons_cons in Hl. by rewrite Hl.
    + rewrite H4. cbn. split; [by intros []|done].
Qed.

(** ** Setting chunks *)

Lemma set_chunks_lookup ch ids : forall cs i, set_chunks ch ids cs !! i =
  (fun c => if bool_decide (i ∈ ids) && (ce_key c =? ck_key ch) then set_chunk ch c else c) <$> cs !! i.
Proof.
  induction ids as [|j ids IH]; intros cs i; cbn [set_chunks].
  - rewrite bool_decide_false by apply not_elem_of_nil. cbn. by destruct (cs !! i).
  - rewrite IH. destruct (decide (i = j)) as [->|Hne].
    + rewrite list_lookup_alter. destruct (cs !! j) as [c|]; [|done]. cbn. f_equal.
      rewrite (bool_decide_true (j ∈ j :: ids)) by apply elem_of_list_here. cbn.
      destruct (ce_key c =? ck_key ch) eqn:E; cbn [set_chunk ce_key]; rewrite E; [|by rewrite andb_false_r].
      rewrite andb_true_r. by destruct (bool_decide _).
    + rewrite list_lookup_alter_ne by done. destruct (cs !! i) as [c|]; [|done]. cbn. f_equal.
      assert (bool_decide (i ∈ j :: ids) = bool_decide (i ∈ ids)) as ->; [|done].
      apply bool_decide_ext. rewrite elem_of_cons. naive_solver.
Qed.
Lemma set_chunks_length ch ids cs : length (set_chunks ch ids cs) = length cs.
Proof. revert cs. induction ids as [|i ids IH]; intros cs; [done|]. cbn. by rewrite IH, alter_length. Qed.

Lemma omap_seq {A} (l : list A) lo n : (lo + n <= length l)%nat -> omap (fun i => l !! i) (seq lo n) = take n (drop lo l).
Proof.
  revert lo. induction n as [|n IH]; intros lo H; [done|]. cbn.
  destruct (l !! lo) as [x|] eqn:E; [|apply lookup_ge_None in E; lia].
  rewrite IH by lia. by rewrite (drop_S _ _ _ E).
Qed.

(** ** The invariant *)

(** The first cell of the unfinished chunk. *)
Definition k_first (k : chunker) : nat := (length (k_cells k) - length (k_buffer k))%nat.

Record kinv (k : chunker) (h : hist) : Prop := {
  ki_len : length h = length (k_cells k);
  ki_ok : Forall (fun x => tensor_ok (h_tensor x)) h;
  ki_info : forall i c x, k_cells k !! i = Some c -> h !! i = Some x ->
    ce_ep c = h_ep x /\ ce_step c = h_step x /\ t_ty (h_tensor x) = sp_ty (k_spec k) /\
    shape_compatible (sp_shape (k_spec k)) (t_shape (h_tensor x)) = true;
  ki_off : k_offset k = Z.of_nat (length (k_buffer k));
  ki_act : exists lo, k_active k = seq lo (length (k_cells k) - lo) /\ (lo + length (k_buffer k) <= length (k_cells k))%nat;
  ki_buf : k_buffer k = batched <$> (h_tensor <$> drop (k_first k) h);
  ki_new : forall j c, k_cells k !! (k_first k + j)%nat = Some c -> ce_key c = k_next k /\ ce_off c = Z.of_nat j /\ ce_chunk c = None;
  ki_old : forall i c, (i < k_first k)%nat -> k_cells k !! i = Some c -> ce_key c <> k_next k;
  ki_res : forall i c ch, k_cells k !! i = Some c -> ce_chunk c = Some ch -> resolved h i c ch;
  ki_live : forall i c, i ∈ k_active k -> (i < k_first k)%nat -> k_cells k !! i = Some c -> ce_chunk c <> None;
  ki_uniq : forall i j c d, k_cells k !! i = Some c -> k_cells k !! j = Some d -> ce_key c = ce_key d -> ce_off c = ce_off d -> i = j;
  ki_inc : increasing (drop (k_first k) (k_cells k));
  ki_opts : validate_options (k_opts k) = Ok }.

Lemma segment_app {A} (l k : list A) lo n : (lo + n <= length l)%nat -> segment (l ++ k) lo n = segment l lo n.
Proof.
  intros H. unfold segment. rewrite drop_app_le by lia. rewrite take_app_le; [done|]. rewrite drop_length. lia.
Qed.
Lemma resolved_app h h' i c ch : resolved h i c ch -> resolved (h ++ h') i c ch.
Proof.
  intros (H1 & H2 & lo & n & H3 & H4 & H5 & H6). split; [done|]. split; [done|]. exists lo, n.
  split; [done|]. split; [rewrite app_length; lia|]. split; [done|]. by rewrite segment_app.
Qed.

Lemma opts_bounds o : validate_options o = Ok -> 0 < get_max o <= get_keep o.
Proof.
  unfold validate_options. destruct (Z.leb_spec (get_max o) 0); [done|]. destruct (Z.leb_spec (get_keep o) 0); [done|].
  destruct (Z.ltb_spec (get_keep o) (get_max o)); [done|]. lia.
Qed.

(** What a flush makes. *)
Lemma flush_chunk k h b : kinv k h -> k_buffer k <> [] -> tf_concat (k_buffer k) = Some b ->
  exists b' r, (if get_delta (k_opts k) then delta_encode b true else Some b) = Some b' /\
    range_of (k_next k) (active_cells k) None = Some r /\
    chunk_of (mkChunk (k_next k) (mkChunkData [b'] (get_delta (k_opts k))) r) (drop (k_first k) h).
Proof.
  intros I Hne Hb. pose proof (ki_buf _ _ I) as Hbuf. rewrite Hbuf in Hb. apply tf_concat_inv in Hb as (ty & sh & Hk & ->).
  set (xs := drop (k_first k) h) in *.
  assert (Hok : Forall tensor_ok (h_tensor <$> xs)).
  { apply Forall_fmap. apply Forall_drop. exact (ki_ok _ _ I). }
  destruct (ki_act _ _ I) as (lo & Hact & Hlo). pose proof (ki_len _ _ I) as Hlen.
  assert (Hxl : length xs = length (k_buffer k)) by (rewrite Hbuf; by rewrite !fmap_length).
  assert (Hx0 : (1 <= length xs)%nat) by (rewrite Hxl; destruct (k_buffer k); cbn; [done|lia]).
  assert (HD : exists b', (if get_delta (k_opts k) then delta_encode (stacked ty sh (h_tensor <$> xs)) true else Some (stacked ty sh (h_tensor <$> xs))) = Some b' /\
     unpack_chunk_column (mkChunkData [b'] (get_delta (k_opts k))) 0 = UOk (stacked ty sh (h_tensor <$> xs))).
  { destruct (get_delta (k_opts k)).
    - destruct (C31_lossless (stacked ty sh (h_tensor <$> xs)) (length (h_tensor <$> xs)) sh) as (e & E1 & _ & _ & _ & E2).
      + by apply stacked_ok.
      + done.
      + by rewrite fmap_length.
      + exists e. split; [done|]. unfold unpack_chunk_column. rewrite decide_False by (cbn; lia). cbn [cd_tensors cd_delta]. change ([e] !! Z.to_nat 0) with (Some e). cbv iota. by rewrite E2.
    - eexists. split; [done|]. unfold unpack_chunk_column. by rewrite decide_False by (cbn; lia). }
  destruct HD as (b' & Hb' & Hun).
  assert (Hcells : active_cells k = take (k_first k - lo) (drop lo (k_cells k)) ++ drop (k_first k) (k_cells k)).
  { unfold active_cells. rewrite Hact, omap_seq by lia. rewrite take_ge by (rewrite drop_length; lia).
    rewrite <- (take_drop (k_first k - lo) (drop lo (k_cells k))) at 1. rewrite drop_drop. f_equal. f_equal. unfold k_first. lia. }
  set (cs := drop (k_first k) (k_cells k)) in *.
  assert (Hcl : length cs = length xs) by (unfold cs, xs; by rewrite !drop_length, Hlen).
  destruct (head cs) as [c0|] eqn:Hhd; [|destruct cs; cbn in *; [lia|done]].
  assert (Hkeys : Forall (fun c => ce_key c = k_next k) cs).
  { apply Forall_lookup. intros j c Hc. unfold cs in Hc. rewrite lookup_drop in Hc. by apply (ki_new _ _ I) in Hc as [? _]. }
  destruct (range_new (k_next k) cs c0 Hkeys (ki_inc _ _ I) Hhd) as (r & d & E & Hl & H1 & H2 & H3 & H4).
  assert (Hinfo : forall j c, cs !! j = Some c -> exists x, xs !! j = Some x /\ ce_ep c = h_ep x /\ ce_step c = h_step x).
  { intros j c Hc. destruct (lookup_lt_is_Some_2 xs j) as [x Hx]; [rewrite <- Hcl; by eapply lookup_lt_Some|].
    exists x. split; [done|]. unfold cs in Hc. unfold xs in Hx. rewrite lookup_drop in Hc. rewrite lookup_drop in Hx.
    destruct (ki_info _ _ I _ _ _ Hc Hx) as (? & ? & _). done. }
  assert (Hsteps : ce_step <$> cs = h_step <$> xs).
  { apply list_eq. intros j. rewrite !list_lookup_fmap. destruct (cs !! j) as [c|] eqn:Hc.
    - destruct (Hinfo _ _ Hc) as (x & -> & _ & E1). cbn. by rewrite E1.
    - apply lookup_ge_None in Hc. by rewrite (lookup_ge_None_2 xs) by lia. }
  exists b', (Some r). split; [done|]. split.
  { rewrite Hcells. rewrite range_skip; [done|]. apply Forall_lookup. intros j c Hc.
    apply lookup_take_Some in Hc as [Hc Hj]. rewrite lookup_drop in Hc. apply (ki_old _ _ I) in Hc; [done|lia]. }
  split; [by exists ty, sh|]. exists r.
  rewrite head_lookup in Hhd. rewrite last_lookup in Hl.
  destruct (Hinfo _ _ Hhd) as (x & Hx & Hx1 & Hx2). destruct (Hinfo _ _ Hl) as (y & Hy & Hy1 & Hy2).
  exists x, y. split; [done|]. rewrite head_lookup, last_lookup. split; [done|]. split; [by rewrite <- Hcl|].
  split.
  { apply Forall_lookup. intros j z Hz. destruct (lookup_lt_is_Some_2 cs j) as [c Hc]; [rewrite Hcl; by eapply lookup_lt_Some|].
    destruct (Hinfo _ _ Hc) as (z' & Hz' & Hz1 & _). assert (z' = z) as -> by congruence. rewrite <- Hz1, H1.
    destruct (decide (j = 0%nat)) as [->|]; [congruence|].
    symmetry. apply (ki_inc _ _ I 0%nat j); [lia|done|done]. }
  split; [congruence|]. split; [congruence|]. by rewrite <- Hsteps.
Qed.

Lemma flush_inv k h nk : kinv k h -> nk <> k_next k -> nk ∉ (ce_key <$> k_cells k) ->
  exists st k', flush_locked k nk = Some (st, k') /\ kinv k' h /\ k_spec k' = k_spec k /\ k_opts k' = k_opts k /\
    k_active k' = k_active k /\ length (k_cells k') = length (k_cells k) /\
    (st = Ok -> k_buffer k' = []) /\
    (st <> Ok -> k' = k /\ tf_concat (k_buffer k) = None /\ k_buffer k <> []).
Proof.
  intros I Hn1 Hn2. unfold flush_locked. destruct (k_buffer k) as [|t0 buf] eqn:Hbuf.
  { exists Ok, k. done. }
  rewrite <- Hbuf. destruct (tf_concat (k_buffer k)) as [b|] eqn:Hcat.
  2: { exists InvalidArgument, k. do 7 (split; [done|]). intros _. rewrite Hbuf. done. }
  destruct (flush_chunk k h b I) as (b' & r & -> & Hr & Hch); [by rewrite Hbuf|done|]. cbn [mbind option_bind]. rewrite Hr. cbn [mbind option_bind].
  set (ch := mkChunk _ _ _) in *. eexists _, _. split; [done|].
  destruct (ki_act _ _ I) as (lo & Hact & Hlo). pose proof (ki_len _ _ I) as Hlen.
  assert (Hm : (1 <= length (k_buffer k))%nat) by (rewrite Hbuf; cbn; lia).
  assert (L : forall i c', set_chunks ch (k_active k) (k_cells k) !! i = Some c' ->
     exists c, k_cells k !! i = Some c /\ ce_key c' = ce_key c /\ ce_off c' = ce_off c /\ ce_ep c' = ce_ep c /\ ce_step c' = ce_step c /\
       ((i < k_first k)%nat -> ce_chunk c' = ce_chunk c) /\ ((k_first k <= i)%nat -> ce_chunk c' = Some ch)).
  { intros i c' Hc'. rewrite set_chunks_lookup in Hc'. destruct (k_cells k !! i) as [c|] eqn:Hc; [|done]. cbn in Hc'. injection Hc' as <-.
    exists c. split; [done|]. pose proof (lookup_lt_Some _ _ _ Hc) as Hi. destruct (decide (i < k_first k)%nat) as [Hlt|Hge].
    - pose proof (ki_old _ _ I _ _ Hlt Hc) as Hk. rewrite (proj2 (Z.eqb_neq _ _)) by done. rewrite andb_false_r.
      do 4 (split; [done|]). split; [done|]. lia.
    - destruct (ki_new _ _ I (i - k_first k) c) as (Hk & _ & _); [by replace (k_first k + (i - k_first k))%nat with i by lia|].
      rewrite (proj2 (Z.eqb_eq _ _)) by done. rewrite bool_decide_true; [|rewrite Hact; apply elem_of_seq; unfold k_first in Hge; lia].
      cbn. do 4 (split; [done|]). split; [lia|done]. }
  split; [|do 3 (split; [done|]); split; [cbn [k_cells]; by rewrite set_chunks_length|done]].
  assert (F0 : forall s o, k_first (mkChunker s o [] 0 nk (set_chunks ch (k_active k) (k_cells k)) (k_active k)) = length (k_cells k)).
  { intros. unfold k_first. cbn. rewrite set_chunks_length. lia. }
  constructor; cbn [k_spec k_opts k_buffer k_offset k_next k_cells k_active]; rewrite ?F0.
  - by rewrite set_chunks_length.
  - apply I.
  - intros i c' x Hc' Hx. destruct (L _ _ Hc') as (c & Hc & _ & _ & -> & -> & _). by apply (ki_info _ _ I _ _ _ Hc Hx).
  - done.
  - exists lo. rewrite set_chunks_length. split; [done|]. cbn. lia.
  - rewrite drop_ge by lia. done.
  - intros j c' Hc'. apply lookup_lt_Some in Hc'. rewrite set_chunks_length in Hc'. lia.
  - intros i c' _ Hc'. destruct (L _ _ Hc') as (c & Hc & -> & _). intros E. apply Hn2. rewrite <- E. apply elem_of_list_fmap.
    exists c. split; [done|]. by eapply elem_of_list_lookup_2.
  - intros i c' ch' Hc' Hch'. destruct (L _ _ Hc') as (c & Hc & Hk & Ho & _ & _ & H1 & H2).
    destruct (decide (i < k_first k)%nat) as [Hlt|Hge].
    + rewrite H1 in Hch' by done. destruct (ki_res _ _ I _ _ _ Hc Hch') as (_ & Hk' & R). split; [by rewrite H1|].
      rewrite Hk. split; [done|]. by rewrite Ho.
    + rewrite H2 in Hch' by lia. injection Hch' as <-. pose proof (lookup_lt_Some _ _ _ Hc) as Hi.
      destruct (ki_new _ _ I (i - k_first k) c) as (Hk1 & Ho1 & _); [by replace (k_first k + (i - k_first k))%nat with i by lia|].
      split; [apply H2; lia|]. split; [by rewrite Hk, Hk1|]. exists (k_first k), (length (k_buffer k)).
      split; [unfold k_first in *; lia|]. split; [unfold k_first in *; lia|]. split; [by rewrite Ho, Ho1|].
      unfold segment. rewrite take_ge; [done|]. rewrite drop_length. unfold k_first. lia.
  - intros i c' Hi _ Hc'. destruct (L _ _ Hc') as (c & Hc & _ & _ & _ & _ & H1 & H2).
    destruct (decide (i < k_first k)%nat) as [Hlt|Hge]; [|by rewrite H2 by lia]. rewrite H1 by done. by apply (ki_live _ _ I i).
  - intros i j c' d' Hc' Hd' Hk Ho. destruct (L _ _ Hc') as (c & Hc & E1 & E2 & _). destruct (L _ _ Hd') as (d & Hd & E3 & E4 & _).
    apply (ki_uniq _ _ I i j c d Hc Hd); congruence.
  - rewrite drop_ge by (rewrite set_chunks_length; done). intros [] ? ? ? ?; done.
  - apply I.
Qed.

Lemma drop_seq n lo m : drop n (seq lo m) = seq (lo + n) (m - n).
Proof.
  revert lo m. induction n as [|n IH]; intros lo m; [rewrite drop_0; f_equal; lia|].
  destruct m as [|m]; [done|]. cbn. rewrite IH. f_equal. lia.
Qed.

Lemma trim_inv k h : kinv k h -> Z.of_nat (length (k_buffer k)) <= get_keep (k_opts k) -> kinv (trim k) h.
Proof.
  intros I Hk. destruct (ki_act _ _ I) as (lo & Hact & Hlo).
  assert (Ha : k_active (trim k) = seq (lo + (length (k_cells k) - lo - Z.to_nat (get_keep (k_opts k))))
     (length (k_cells k) - (lo + (length (k_cells k) - lo - Z.to_nat (get_keep (k_opts k)))))).
  { cbn. rewrite Hact. rewrite seq_length. rewrite drop_seq. f_equal. lia. }
  destruct I. constructor; try done.
  - eexists. split; [exact Ha|]. cbn. lia.
  - intros i c Hi. apply ki_live0. cbn in Hi. rewrite Hact in *. rewrite drop_seq in Hi. rewrite elem_of_seq in *. lia.
Qed.

(** A tensor enters the buffer. *)
Definition push (k : chunker) (t : tensor) (ep step : Z) : chunker :=
  mkChunker (k_spec k) (k_opts k) (k_buffer k ++ [batched t]) (k_offset k + 1) (k_next k)
    (k_cells k ++ [mkCell (k_next k) (k_offset k) ep step None]) (k_active k ++ [length (k_cells k)]).

Lemma lookup_snoc {A} (l : list A) x i y : (l ++ [x]) !! i = Some y ->
  (l !! i = Some y /\ (i < length l)%nat) \/ (i = length l /\ y = x).
Proof.
  intros H. apply lookup_app_Some in H as [H|[H1 H2]].
  - left. split; [done|]. by eapply lookup_lt_Some.
  - right. apply list_lookup_singleton_Some in H2 as [H2 ->]. split; [lia|done].
Qed.

Lemma push_inv k h t ep step : kinv k h -> tensor_ok t -> t_ty t = sp_ty (k_spec k) ->
  shape_compatible (sp_shape (k_spec k)) (t_shape t) = true ->
  (k_buffer k <> [] -> exists c, k_cells k !! (length (k_cells k) - 1)%nat = Some c /\ ce_ep c = ep /\ ce_step c < step) ->
  kinv (push k t ep step) (h ++ [(t, ep, step)]).
Proof.
  intros I Ht Hty Hsh Hlast. pose proof (ki_len _ _ I) as Hlen. destruct (ki_act _ _ I) as (lo & Hact & Hlo).
  assert (F : k_first (push k t ep step) = k_first k).
  { unfold k_first, push. cbn [k_cells k_buffer]. rewrite !app_length. cbn. lia. }
  assert (Hf : (k_first k <= length (k_cells k))%nat) by (unfold k_first; lia).
  constructor; rewrite ?F; unfold push; cbn [k_spec k_opts k_buffer k_offset k_next k_cells k_active].
  - rewrite !app_length. cbn. lia.
  - apply Forall_app. split; [apply I|]. by apply Forall_singleton.
  - intros i c x Hc Hx. apply lookup_snoc in Hc as [[Hc Hi]|[-> ->]]; apply lookup_snoc in Hx as [[Hx Hi']|[Hi' ->]]; try lia.
    + by apply (ki_info _ _ I i).
    + done.
  - rewrite app_length, (ki_off _ _ I). cbn. lia.
  - exists lo. rewrite !app_length. cbn [length]. split; [|lia].
    replace (length (k_cells k) + 1 - lo)%nat with (S (length (k_cells k) - lo)) by lia.
    rewrite seq_S, <- Hact. do 2 f_equal. lia.
  - rewrite drop_app_le by lia. rewrite !fmap_app. cbn. f_equal. apply I.
  - intros j c Hc. apply lookup_snoc in Hc as [[Hc Hi]|[Hj ->]]; [by apply (ki_new _ _ I)|].
    cbn. split; [done|]. split; [|done]. rewrite (ki_off _ _ I). f_equal. unfold k_first in *. lia.
  - intros i c Hi Hc. apply lookup_snoc in Hc as [[Hc _]|[-> ->]]; [|lia]. by apply (ki_old _ _ I i).
  - intros i c ch Hc Hch. apply lookup_snoc in Hc as [[Hc _]|[-> ->]]; [|done]. apply resolved_app. by apply (ki_res _ _ I).
  - intros i c Hi Hl Hc. apply lookup_snoc in Hc as [[Hc Hi']|[-> ->]]; [|lia].
    apply elem_of_app in Hi as [Hi|Hi%elem_of_list_singleton]; [|lia]. by apply (ki_live _ _ I i).
  - assert (N : forall i c, k_cells k !! i = Some c -> ce_key c = k_next k -> ce_off c = k_offset k -> False).
    { intros i c Hc Hk Ho. destruct (decide (i < k_first k)%nat) as [Hl|Hl]; [by apply (ki_old _ _ I _ _ Hl Hc)|].
      destruct (ki_new _ _ I (i - k_first k) c) as (_ & Ho' & _); [by replace (k_first k + (i - k_first k))%nat with i by lia|].
      rewrite Ho', (ki_off _ _ I) in Ho. apply lookup_lt_Some in Hc. unfold k_first in *. lia. }
    intros i j c d Hc Hd Hk Ho. apply lookup_snoc in Hc as [[Hc _]|[-> ->]]; apply lookup_snoc in Hd as [[Hd _]|[-> ->]].
    + by apply (ki_uniq _ _ I i j c d).
    + exfalso. by apply (N i c).
    + exfalso. by apply (N j d).
    + done.
  - rewrite drop_app_le by lia. intros i j c d Hij Hc Hd.
    apply lookup_snoc in Hd as [[Hd Hj]|[-> ->]]; apply lookup_snoc in Hc as [[Hc Hi]|[-> ->]]; try lia.
    + by apply (ki_inc _ _ I i j).
    + cbn. rewrite drop_length in *. destruct Hlast as (e & He & <- & He2).
      { intros E. unfold k_first in Hi. rewrite E in Hi. cbn in Hi. lia. }
      destruct (decide (i = length (k_cells k) - k_first k - 1)%nat) as [->|Hne].
      * rewrite lookup_drop in Hc. assert (c = e) as ->; [|done].
        replace (k_first k + (length (k_cells k) - k_first k - 1))%nat with (length (k_cells k) - 1)%nat in Hc by lia. congruence.
      * destruct (ki_inc _ _ I i (length (k_cells k) - k_first k - 1)%nat c e) as [E1 E2]; [lia|done| |].
        -- rewrite lookup_drop. replace (k_first k + (length (k_cells k) - k_first k - 1))%nat with (length (k_cells k) - 1)%nat by lia. done.
        -- split; [done|lia].
  - apply I.
Qed.

Lemma k_last k h : kinv k h -> k_buffer k <> [] ->
  last (k_active k) = Some (length (k_cells k) - 1)%nat /\ exists c, k_cells k !! (length (k_cells k) - 1)%nat = Some c.
Proof.
  intros I Hne. destruct (ki_act _ _ I) as (lo & Hact & Hlo). assert (1 <= length (k_buffer k))%nat by (destruct (k_buffer k); cbn; [done|lia]).
  split.
  - rewrite Hact. replace (length (k_cells k) - lo)%nat with (S (length (k_cells k) - lo - 1)) by lia. rewrite seq_S, last_snoc. f_equal. lia.
  - apply lookup_lt_is_Some_2. lia.
Qed.

(** The possible results of Append. *)
Lemma append_cases k h t ep step nk : kinv k h -> tensor_ok t -> nk <> k_next k -> nk ∉ (ce_key <$> k_cells k) ->
  (exists st, st <> Ok /\ k_append k t ep step nk = Some (st, None, k)) \/
  (kinv (push k t ep step) (h ++ [(t, ep, step)]) /\
   ((Z.of_nat (length (k_buffer k)) + 1 < get_max (k_opts k) /\
     k_append k t ep step nk = Some (Ok, Some (length (k_cells k)), trim (push k t ep step))) \/
    (get_max (k_opts k) <= Z.of_nat (length (k_buffer k)) + 1 /\ exists k1,
     flush_locked (push k t ep step) nk = Some (Ok, k1) /\ k_append k t ep step nk = Some (Ok, Some (length (k_cells k)), trim k1)) \/
    (get_max (k_opts k) <= Z.of_nat (length (k_buffer k)) + 1 /\ exists st, st <> Ok /\
     tf_concat (k_buffer (push k t ep step)) = None /\
     flush_locked (push k t ep step) nk = Some (st, push k t ep step) /\ k_append k t ep step nk = Some (st, None, push k t ep step)))).
Proof.
  intros I Ht Hn1 Hn2. unfold k_append.
  destruct (bool_decide_reflect (t_ty t = sp_ty (k_spec k))) as [Hty|]; cbn [negb]; [|left; by exists InvalidArgument].
  destruct (shape_compatible (sp_shape (k_spec k)) (t_shape t)) eqn:Hsh; cbn [negb]; [|left; by exists InvalidArgument].
  fold (push k t ep step). set (k1 := push k t ep step).
  set (go := if get_max (k_opts k1) <=? Z.of_nat (length (k_buffer k1)) then _ else _).
  assert (Hk : (k_buffer k <> [] -> exists c, k_cells k !! (length (k_cells k) - 1)%nat = Some c /\ ce_ep c = ep /\ ce_step c < step) ->
    kinv k1 (h ++ [(t, ep, step)])) by (by apply push_inv).
  assert (Hgo : kinv k1 (h ++ [(t, ep, step)]) ->
    (Z.of_nat (length (k_buffer k)) + 1 < get_max (k_opts k) /\ go = Some (Ok, Some (length (k_cells k)), trim k1)) \/
    (get_max (k_opts k) <= Z.of_nat (length (k_buffer k)) + 1 /\ exists k2,
     flush_locked k1 nk = Some (Ok, k2) /\ go = Some (Ok, Some (length (k_cells k)), trim k2)) \/
    (get_max (k_opts k) <= Z.of_nat (length (k_buffer k)) + 1 /\ exists st, st <> Ok /\ tf_concat (k_buffer k1) = None /\
     flush_locked k1 nk = Some (st, k1) /\ go = Some (st, None, k1))).
  { intros I1. pose proof (opts_bounds _ (ki_opts _ _ I)) as Hb.
    assert (HL : forall k2, k_active k2 = k_active k1 -> k_opts k2 = k_opts k -> last (k_active (trim k2)) = Some (length (k_cells k))).
    { intros k2 E1 E2. unfold trim. cbn [k_active]. rewrite E1, E2. unfold k1, push. cbn [k_active]. rewrite app_length. cbn [length].
      rewrite drop_app_le by lia. by rewrite last_snoc. }
    subst go. change (k_opts k1) with (k_opts k). replace (Z.of_nat (length (k_buffer k1))) with (Z.of_nat (length (k_buffer k)) + 1)
      by (unfold k1, push; cbn [k_buffer]; rewrite app_length; cbn; lia).
    destruct (Z.leb_spec (get_max (k_opts k)) (Z.of_nat (length (k_buffer k)) + 1)) as [Hle|Hlt].
    - right. destruct (flush_inv k1 _ nk I1) as (st & k2 & E & _ & _ & H2 & H3 & _ & _ & H6); [done| |].
      { unfold k1, push. cbn [k_cells]. rewrite fmap_app. intros [H|H%elem_of_list_singleton]%elem_of_app; done. }
      rewrite E. cbn [mbind option_bind]. destruct (bool_decide_reflect (st = Ok)) as [->|Hne].
      + left. split; [done|]. exists k2. split; [done|]. rewrite HL; done.
      + right. split; [done|]. destruct (H6 Hne) as (-> & H7 & _). by exists st.
    - left. split; [done|]. rewrite HL; done. }
  destruct (k_buffer k) as [|b0 bs] eqn:Hbuf.
  { assert (I1 : kinv k1 (h ++ [(t, ep, step)])) by (by apply Hk). right. split; [done|]. by apply Hgo. }
  destruct (k_last k h I) as (-> & c & Hc); [by rewrite Hbuf|]. cbn [mbind option_bind]. rewrite Hc. cbn [mbind option_bind].
  destruct (Z.eqb_spec (ce_ep c) ep) as [He|]; cbn [negb]; [|left; by exists FailedPrecondition].
  destruct (Z.leb_spec step (ce_step c)); [left; by exists FailedPrecondition|].
  assert (I1 : kinv k1 (h ++ [(t, ep, step)])) by (apply Hk; intros _; by exists c). right. split; [done|]. by apply Hgo.
Qed.

Lemma trim_same k : k_spec (trim k) = k_spec k /\ k_cells (trim k) = k_cells k /\ k_opts (trim k) = k_opts k /\ k_buffer (trim k) = k_buffer k.
Proof. done. Qed.

Lemma step_inv k h e : kinv k h -> k_enabled k e -> exists k' h', k_step k h e = Some (k', h') /\ kinv k' h' /\ k_spec k' = k_spec k.
Proof.
  intros I He. destruct e as [t ep step nk|nk|nk|o|a]; cbn [k_step k_enabled] in *.
  - destruct He as (Ht & Hn1 & Hn2). pose proof (opts_bounds _ (ki_opts _ _ I)) as Hb.
    assert (E1 : (length (k_cells k) <? length (k_cells (push k t ep step)))%nat = true)
      by (apply Nat.ltb_lt; unfold push; cbn [k_cells]; rewrite app_length; cbn; lia).
    destruct (append_cases k h t ep step nk I Ht Hn1 Hn2) as [(st & _ & ->)|(I1 & [[Hl ->]|[(_ & k1 & Hf & ->)|(_ & st & _ & _ & Hf & ->)]])]; cbn [mbind option_bind].
    + rewrite (proj2 (Nat.ltb_ge _ _)) by lia. by exists k, h.
    + eexists _, _. split; [done|]. cbn [trim k_cells]. rewrite E1. split; [|done]. apply trim_inv; [done|].
      unfold push. cbn [k_buffer k_opts]. rewrite app_length. cbn. lia.
    + destruct (flush_inv _ _ nk I1) as (st & k2 & Hf' & I2 & H1 & H2 & H3 & H4 & H5 & _); [done| |].
      { unfold push. cbn [k_cells]. rewrite fmap_app. intros [H|H%elem_of_list_singleton]%elem_of_app; done. }
      rewrite Hf in Hf'. injection Hf' as <- <-. eexists _, _. split; [done|]. cbn [trim k_cells]. rewrite H4, E1. split; [|done].
      apply trim_inv; [done|]. rewrite H5 by done. cbn. pose proof (opts_bounds _ (ki_opts _ _ I2)). lia.
    + eexists _, _. split; [done|]. rewrite E1. done.
  - destruct He as (Hn1 & Hn2). unfold k_flush. destruct (flush_inv k h nk I) as (st & k2 & -> & I2 & H1 & _); [done..|].
    cbn [mbind option_bind]. by exists k2, h.
  - destruct He as (Hn1 & Hn2). eexists _, _. split; [done|]. split; [|done].
    assert (F : k_first (k_reset k nk) = length (k_cells k)) by (unfold k_first, k_reset; cbn; lia).
    constructor; rewrite ?F; unfold k_reset; cbn [k_spec k_opts k_buffer k_offset k_next k_cells k_active]; try apply I.
    + done.
    + exists (length (k_cells k)). rewrite Nat.sub_diag. split; [done|]. cbn. lia.
    + rewrite drop_ge; [done|]. rewrite (ki_len _ _ I). lia.
    + intros j c Hc. apply lookup_lt_Some in Hc. lia.
    + intros i c _ Hc E. apply Hn2. rewrite <- E. apply elem_of_list_fmap. exists c. split; [done|]. by eapply elem_of_list_lookup_2.
    + intros i c Hi. by apply elem_of_nil in Hi.
    + rewrite drop_ge by lia. intros i j c d _ Hc. done.
  - eexists _, _. split; [done|]. unfold k_apply_config. destruct (k_buffer k) as [|b0 bs] eqn:Hbuf; [|done].
    destruct (bool_decide_reflect (validate_options o = Ok)) as [Ho|]; [|done]. split; [|done].
    pose proof (opts_bounds _ Ho). apply trim_inv; [|cbn; lia].
    assert (Hk : k = mkChunker (k_spec k) (k_opts k) (k_buffer k) (k_offset k) (k_next k) (k_cells k) (k_active k)) by (by destruct k).
    rewrite Hbuf in Hk. rewrite Hk in I. destruct I. by constructor.
  - destruct He as (a0 & Ha0 & Hk & Hb). eexists _, _. split; [done|]. split; [|done]. destruct I. constructor; try done.
    cbn [k_opts]. unfold validate_options. cbn. destruct (Z.leb_spec (au_max a) 0); [lia|]. destruct (Z.leb_spec (au_keep a) 0); [lia|].
    destruct (Z.ltb_spec (au_keep a) (au_max a)); [lia|]. done.
Qed.

Lemma new_inv spec o nk k : k_new spec o nk = Some k -> validate_options o = Ok -> kinv k [].
Proof.
  unfold k_new. destruct (_ <=? _); [|done]. intros [= <-] Ho. constructor; cbn; try done.
  by exists 0%nat.
Qed.
Lemma reach_inv spec o nk k0 k h : k_new spec o nk = Some k0 -> validate_options o = Ok -> k_reach k0 k h -> kinv k h /\ k_spec k = spec.
Proof.
  intros H0 Ho. induction 1 as [|k h e k' h' _ [IH Hs] He E].
  - split; [by eapply new_inv|]. unfold k_new in H0. destruct (_ <=? _); [|done]. by injection H0 as <-.
  - destruct (step_inv k h e IH He) as (k1 & h1 & E1 & I1 & Hs1). rewrite E in E1. injection E1 as <- <-. split; [done|congruence].
Qed.

(** ** Theorems *)

Section theorems.
Context (spec : tspec) (o : copts) (nk0 : Z) (k0 : chunker).
Context (H0 : k_new spec o nk0 = Some k0) (Ho : validate_options o = Ok).

Theorem C38_no_crash k h e : k_reach k0 k h -> k_enabled k e -> exists k' h', k_step k h e = Some (k', h').
Proof.
  intros Hr He. destruct (reach_inv _ _ _ _ _ _ H0 Ho Hr) as [I _]. destruct (step_inv k h e I He) as (k' & h' & E & _). by exists k', h'.
Qed.

(** A chunk of a reference has its key, and holds consecutive appends; the row at
    the offset of the reference is the tensor that was appended. *)
Theorem C38_resolved k h i c ch x : k_reach k0 k h -> k_cells k !! i = Some c -> ce_chunk c = Some ch -> h !! i = Some x ->
  resolved h i c ch /\ ce_ep c = h_ep x /\ ce_step c = h_step x /\
  exists col, unpack_chunk_column (ck_data ch) 0 = UOk col /\ sub_slice col (ce_off c) = UOk (h_tensor x).
Proof.
  intros Hr Hc Hch Hx. destruct (reach_inv _ _ _ _ _ _ H0 Ho Hr) as [I _]. pose proof (ki_res _ _ I _ _ _ Hc Hch) as R.
  split; [done|]. destruct (ki_info _ _ I _ _ _ Hc Hx) as (-> & -> & _). split; [done|]. split; [done|].
  destruct R as (_ & _ & lo & n & H1 & H2 & -> & (ty & sh & Hk & Hu) & _). eexists. split; [exact Hu|].
  apply sub_slice_stacked; [done|..].
  - apply Forall_fmap. unfold segment. apply Forall_take, Forall_drop, I.
  - rewrite list_lookup_fmap. unfold segment. rewrite lookup_take by lia. rewrite lookup_drop.
    replace (lo + (i - lo))%nat with i by lia. by rewrite Hx.
Qed.

(** CellRef::GetData. *)
Theorem C38_get_data k h i x : k_reach k0 k h -> h !! i = Some x ->
  exists st r, copy_data k i = Some (st, r) /\ (st = Ok -> r = Some (h_tensor x)) /\ (i ∈ k_active k -> st = Ok) /\
    (forall c ch, k_cells k !! i = Some c -> ce_chunk c = Some ch -> st = Ok).
Proof.
  intros Hr Hx. destruct (reach_inv _ _ _ _ _ _ H0 Ho Hr) as [I _]. pose proof (ki_len _ _ I) as Hlen.
  destruct (lookup_lt_is_Some_2 (k_cells k) i) as [c Hc]; [rewrite <- Hlen; by eapply lookup_lt_Some|].
  unfold copy_data. rewrite Hc. cbn [mbind option_bind]. destruct (ce_chunk c) as [ch|] eqn:Hch.
  { destruct (C38_resolved k h i c ch x Hr Hc Hch Hx) as (_ & _ & _ & col & -> & ->). by eexists _, _. }
  destruct (ki_act _ _ I) as (lo & Hact & Hlo). set (m := length (k_cells k)) in *.
  pose proof (lookup_lt_Some _ _ _ Hc) as Him. fold m in Him.
  assert (Hb : default (length (k_active k)) (fst <$> list_find (fun j => j = i) (reverse (k_active k))) =
     if decide (lo <= i)%nat then (m - 1 - i)%nat else (m - lo)%nat).
  { case_decide as Hli.
    - assert (Hf : list_find (fun j => j = i) (reverse (k_active k)) = Some ((m - 1 - i)%nat, i)).
      { apply list_find_Some. assert (Hl : forall j, (j < m - lo)%nat -> reverse (k_active k) !! j = Some (m - 1 - j)%nat).
        { intros j Hj. rewrite reverse_lookup by (rewrite Hact, seq_length; lia). rewrite Hact, seq_length.
          rewrite lookup_seq_lt by lia. f_equal. lia. }
        split; [rewrite Hl by lia; f_equal; lia|]. split; [done|]. intros j y Hj Hlt. rewrite Hl in Hj by lia. injection Hj as <-. lia. }
      by rewrite Hf.
    - assert (Hf : list_find (fun j => j = i) (reverse (k_active k)) = None).
      { apply list_find_None. apply Forall_forall. intros j Hj E. subst j. rewrite elem_of_reverse, Hact, elem_of_seq in Hj. lia. }
      rewrite Hf. cbn. by rewrite Hact, seq_length. }
  rewrite Hb. clear Hb. 
  destruct (decide (k_first k <= i)%nat) as [Hfi|Hfi].
  - (* in the buffer *)
    assert (Hlo' : (lo <= i)%nat) by (unfold k_first in Hfi; fold m in Hfi; lia). rewrite decide_True by done.
    assert (Hbl : k_buffer k !! (i - k_first k)%nat = Some (batched (h_tensor x))).
    { rewrite (ki_buf _ _ I), !list_lookup_fmap, lookup_drop. replace (k_first k + (i - k_first k))%nat with i by lia. by rewrite Hx. }
    pose proof (lookup_lt_Some _ _ _ Hbl). destruct (Z.ltb_spec (Z.of_nat (length (k_buffer k)) - Z.of_nat (m - 1 - i) - 1) 0) as [Hneg|Hpos].
    { exfalso. unfold k_first in *. fold m in Hfi. lia. }
    replace (Z.to_nat (Z.of_nat (length (k_buffer k)) - Z.of_nat (m - 1 - i) - 1)) with (i - k_first k)%nat by (unfold k_first; fold m; lia).
    rewrite Hbl. cbn. eexists _, _. split; [done|]. split; [|done]. intros _. destruct (h_tensor x); done.
  - assert (Hna : i ∉ k_active k). { intros Hi. apply (ki_live _ _ I i c Hi); [lia|done|done]. }
    rewrite decide_False. 2: { intros Hl. apply Hna. rewrite Hact. apply elem_of_seq. lia. }
    destruct (Z.ltb_spec (Z.of_nat (length (k_buffer k)) - Z.of_nat (m - lo) - 1) 0) as [Hneg|Hpos]; [|lia].
    eexists _, _. split; [done|]. split; [done|]. split; [done|]. intros ? ? [= <-]. congruence.
Qed.

(** No two references share a row. *)
Theorem C38_unique k h i j c d : k_reach k0 k h -> k_cells k !! i = Some c -> k_cells k !! j = Some d ->
  ce_key c = ce_key d -> ce_off c = ce_off d -> i = j.
Proof. intros Hr. destruct (reach_inv _ _ _ _ _ _ H0 Ho Hr) as [I _]. apply (ki_uniq _ _ I). Qed.

Lemma path_reach k h es k' h' : k_reach k0 k h -> k_path k h es k' h' -> k_reach k0 k' h'.
Proof. intros Hr. induction 1; [done|]. eapply kr_step; [by apply IHk_path|done..]. Qed.

Lemma dims_defined sh s : dims_compatible (Some <$> sh) s = true -> s = sh.
Proof.
  revert s. induction sh as [|d sh IH]; intros [|n s]; try done. cbn. intros [H1%Nat.eqb_eq H2]%andb_true_iff. f_equal; [done|by apply IH].
Qed.
Lemma defined_concat k h : kinv k h -> fully_defined (k_spec k) -> k_buffer k <> [] -> tf_concat (k_buffer k) <> None.
Proof.
  intros I (sh & Hsh) Hne. rewrite (ki_buf _ _ I) in *.
  destruct (tf_concat_some (sp_ty (k_spec k)) sh (h_tensor <$> drop (k_first k) h)) as [b ->]; [|..|done].
  - intros E. by rewrite E in Hne.
  - apply Forall_fmap, Forall_lookup. intros j x Hx. rewrite lookup_drop in Hx.
    destruct (lookup_lt_is_Some_2 (k_cells k) (k_first k + j)%nat) as [c Hc]; [rewrite <- (ki_len _ _ I); by eapply lookup_lt_Some|].
    destruct (ki_info _ _ I _ _ _ Hc Hx) as (_ & _ & H1 & H2). rewrite Hsh in H2. cbn in H2. apply dims_defined in H2. done.
Qed.

(** After a flush every living reference has its chunk, if the specification of the
    column fixes every size.  Without that the claim is false:
    [C38_partial_shape_refuted]. *)
Theorem C38_flush_partial k h nk : fully_defined spec -> k_reach k0 k h -> k_enabled k (KFlush nk) ->
  exists k', k_flush k nk = Some (Ok, k') /\
    (forall i c, i ∈ k_active k -> k_cells k' !! i = Some c -> exists ch, ce_chunk c = Some ch /\ resolved h i c ch).
Proof.
  intros Hd Hr [Hn1 Hn2]. destruct (reach_inv _ _ _ _ _ _ H0 Ho Hr) as [I Hs]. unfold k_flush.
  destruct (flush_inv k h nk I Hn1 Hn2) as (st & k' & E & I' & _ & _ & Ha & Hl & H5 & H6). 
  assert (st = Ok) as ->.
  { destruct (decide (st = Ok)) as [|Hne]; [done|]. destruct (H6 Hne) as (_ & Hc & Hb). exfalso.
    eapply defined_concat; [exact I| |done|done]. by rewrite Hs. }
  exists k'. split; [done|]. intros i c Hi Hc. destruct (ce_chunk c) as [ch|] eqn:Hch.
  - exists ch. split; [done|]. by apply (ki_res _ _ I').
  - exfalso. eapply (ki_live _ _ I' i c); [by rewrite Ha| |done|done]. unfold k_first. rewrite H5 by done. cbn.
    apply lookup_lt_Some in Hc. lia.
Qed.

(** How a step changes the references. *)
Lemma step_monotone k h e k' h' : kinv k h -> k_enabled k e -> k_step k h e = Some (k', h') ->
  (length (k_cells k) <= length (k_cells k'))%nat /\
  (no_config e -> get_keep (k_opts k') = get_keep (k_opts k)) /\
  (no_reset e -> no_config e -> forall i, i ∈ k_active k -> (length (k_cells k') - i <= Z.to_nat (get_keep (k_opts k)))%nat -> i ∈ k_active k').
Proof.
  intros I He E. destruct (ki_act _ _ I) as (lo & Hact & Hlo). destruct e as [t ep step nk|nk|nk|o'|a]; cbn [k_step k_enabled] in *.
  - destruct He as (Ht & Hn1 & Hn2).
    assert (T : forall k2, k_active k2 = k_active k ++ [length (k_cells k)] -> k_opts k2 = k_opts k ->
      length (k_cells k2) = S (length (k_cells k)) -> forall i, i ∈ k_active k ->
      (length (k_cells k2) - i <= Z.to_nat (get_keep (k_opts k)))%nat -> i ∈ k_active (trim k2)).
    { intros k2 E1 E2 E3 i Hi Hk. unfold trim. cbn [k_active]. rewrite E1, E2, Hact in *. rewrite elem_of_seq in Hi.
      replace (seq lo (length (k_cells k) - lo) ++ [length (k_cells k)]) with (seq lo (S (length (k_cells k) - lo))).
      2: { rewrite seq_S. do 2 f_equal. lia. }
      rewrite drop_seq, elem_of_seq, seq_length. lia. }
    assert (L1 : length (k_cells (push k t ep step)) = S (length (k_cells k))) by (unfold push; cbn [k_cells]; rewrite app_length; cbn; lia).
    destruct (append_cases k h t ep step nk I Ht Hn1 Hn2) as [(st & _ & Eq)|(I1 & [[Hl Eq]|[(_ & k1 & Hf & Eq)|(_ & st & _ & _ & Hf & Eq)]])];
      rewrite Eq in E; cbn [mbind option_bind] in E; injection E as <- _.
    + done.
    + cbn [trim k_cells]. split; [lia|]. split; [done|]. intros _ _. by apply T.
    + destruct (flush_inv _ _ nk I1) as (st & k2 & Hf' & I2 & H1 & H2 & H3 & H4 & H5 & _); [done| |].
      { unfold push. cbn [k_cells]. rewrite fmap_app. intros [H|H%elem_of_list_singleton]%elem_of_app; done. }
      rewrite Hf in Hf'. injection Hf' as <- <-. cbn [trim k_cells]. rewrite H4. split; [lia|]. split; [intros _; cbn [trim k_opts]; by rewrite H2|].
      intros _ _ i Hi Hk. apply (T k1); [by rewrite H3|by rewrite H2|by rewrite H4|done|by rewrite H4].
    + split; [lia|]. split; [done|]. intros _ _ i Hi _. unfold push. cbn [k_active]. apply elem_of_app. by left.
  - destruct He as (Hn1 & Hn2). unfold k_flush in E. destruct (flush_inv k h nk I) as (st & k2 & E2 & I2 & H1 & H2 & H3 & H4 & _); [done..|].
    rewrite E2 in E. injection E as <- _. rewrite H4, H3, H2. done.
  - injection E as <- _. unfold k_reset. cbn [k_cells k_opts k_active]. split; [done|]. split; [done|]. intros [].
  - injection E as <- _. split; [|split; [intros []|intros _ []]].
    unfold k_apply_config. destruct (k_buffer k); [|done]. destruct (bool_decide _); done.
  - injection E as <- _. cbn [k_cells k_opts k_active]. split; [done|]. split; [|done]. destruct He as (a0 & -> & Hk & _). intros _. cbn. congruence.
Qed.

(** A reference lives while at most num_keep_alive_refs appends, its own one
    included, happened since it was made. *)
Theorem C38_window k h t ep step nk id k1 es k' h' : k_reach k0 k h -> k_enabled k (KAppend t ep step nk) ->
  k_append k t ep step nk = Some (Ok, Some id, k1) -> k_path k1 (h ++ [(t, ep, step)]) es k' h' ->
  Forall no_reset es -> Forall no_config es -> Z.of_nat (length h' - length h) <= get_keep (k_opts k) ->
  id = length h /\ h' !! id = Some (t, ep, step) /\ id ∈ k_active k'.
Proof.
  intros Hr He Ea Hp Hnr Hnc Hk. destruct (reach_inv _ _ _ _ _ _ H0 Ho Hr) as [I _].
  destruct (step_inv k h _ I He) as (k2 & h2 & E2 & I2 & _). pose proof (ki_len _ _ I) as Hlen. pose proof (opts_bounds _ (ki_opts _ _ I)) as Hb.
  cbn [k_step] in E2. rewrite Ea in E2. cbn [mbind option_bind] in E2.
  assert (A : id = length (k_cells k) /\ length (k_cells k1) = S (length (k_cells k)) /\ last (k_active k1) = Some id /\ k_opts k1 = k_opts k).
  { destruct He as (Ht & Hn1 & Hn2).
    assert (L1 : length (k_cells (push k t ep step)) = S (length (k_cells k))) by (unfold push; cbn [k_cells]; rewrite app_length; cbn; lia).
    assert (HL : forall k2, k_active k2 = k_active k ++ [length (k_cells k)] -> k_opts k2 = k_opts k -> last (k_active (trim k2)) = Some (length (k_cells k))).
    { intros k3 E3 E4. unfold trim. cbn [k_active]. rewrite E3, E4. rewrite app_length. cbn [length]. rewrite drop_app_le by lia. by rewrite last_snoc. }
    destruct (append_cases k h t ep step nk I Ht Hn1 Hn2) as [(st & Hst & Eq)|(I1 & [[Hl Eq]|[(_ & k3 & Hf & Eq)|(_ & st & Hst & _ & Hf & Eq)]])];
      rewrite Eq in Ea; injection Ea; intros; subst; try done.
    - split; [done|]. split; [done|]. split; [by apply HL|done].
    - destruct (flush_inv _ _ nk I1) as (st & k4 & Hf' & _ & _ & H2 & H3 & H4 & _); [done| |].
      { unfold push. cbn [k_cells]. rewrite fmap_app. intros [H|H%elem_of_list_singleton]%elem_of_app; done. }
      rewrite Hf in Hf'. injection Hf' as <- <-. split; [done|]. cbn [trim k_cells k_opts]. split; [by rewrite H4|]. split; [|by rewrite H2].
      by apply HL. }
  destruct A as (-> & Hl1 & Hlast & Hopt). rewrite (proj2 (Nat.ltb_lt _ _)) in E2 by lia. injection E2 as <- <-.
  rewrite <- Hlen in Hl1, Hlast |- *. split; [done|].
  assert (Hin : length h ∈ k_active k1). { rewrite last_lookup in Hlast. by eapply elem_of_list_lookup_2. }
  assert (Hx : (h ++ [(t, ep, step)]) !! length h = Some (t, ep, step)) by (rewrite lookup_app_r, Nat.sub_diag by lia; done).
  assert (Hr1 : k_reach k0 k1 (h ++ [(t, ep, step)])).
  { eapply kr_step; [exact Hr|exact He|]. cbn [k_step]. rewrite Ea. cbn [mbind option_bind]. by rewrite (proj2 (Nat.ltb_lt _ _)) by lia. }
  remember (h ++ [(t, ep, step)]) as h1 eqn:Eh1. rewrite <- Hopt in Hk.
  clear Hb Hopt Eh1 He Ea I Hr Hlen Hl1 Hlast. 
  enough (G : h' !! length h = Some (t, ep, step) /\ (Z.of_nat (length h' - length h) <= get_keep (k_opts k1) -> length h ∈ k_active k') /\
     get_keep (k_opts k') = get_keep (k_opts k1) /\ kinv k' h' /\ k_reach k0 k' h').
  { destruct G as (G1 & G2 & _). split; [done|by apply G2]. }
  clear Hk. induction Hp as [|k1 h1 es k2 h2 e k3 h3 Hp IH He E]; [done|].
  apply Forall_app in Hnr as [Hnr Hnr1%Forall_inv]. apply Forall_app in Hnc as [Hnc Hnc1%Forall_inv].
  destruct IH as (G1 & G2 & G3 & G4 & G5); [done..|].
  destruct (step_inv k2 h2 e G4 He) as (k4 & h4 & E4 & I4 & _). rewrite E in E4. injection E4 as <- <-.
  destruct (step_monotone k2 h2 e k3 h3 G4 He E) as (M1 & M2 & M3).
  assert (Hh : h3 = h2 \/ exists y, h3 = h2 ++ [y]).
  { destruct e; cbn [k_step] in E.
    - destruct (k_append _ _ _ _ _) as [[[? ?] ?]|]; [|done]. cbn in E. injection E as _ <-. match goal with |- context [if ?b then _ else _] => destruct b end; [right; by eexists|by left].
    - destruct (k_flush _ _) as [[? ?]|]; [|done]. cbn in E. injection E as _ <-. by left.
    - injection E as _ <-. by left.
    - injection E as _ <-. by left.
    - injection E as _ <-. by left. }
  split; [destruct Hh as [->|[y ->]]; [done|by apply lookup_app_l_Some]|].
  split; [|split; [rewrite M2 by done; done|split; [done|by eapply kr_step]]].
  intros Hk. pose proof (ki_len _ _ I4). pose proof (ki_len _ _ G4). apply M3; [done|done|apply G2; lia|rewrite G3; lia].
Qed.

Lemma concat_none_snoc ts t : ts <> [] -> tf_concat (batched <$> ts) = None -> tf_concat ((batched <$> ts) ++ [batched t]) = None.
Proof.
  destruct ts as [|u ts]; [done|]. intros _. change [batched t] with (batched <$> [t]). rewrite <- fmap_app. intros Hn.
  destruct (tf_concat (batched <$> (u :: ts) ++ [t])) as [b|] eqn:E; [|done].
  apply tf_concat_inv in E as (ty & sh & Hk & _). apply Forall_app in Hk as [Hk _].
  destruct (tf_concat_some ty sh (u :: ts)) as [b' Hb']; [done|done|congruence].
Qed.

Definition sized (m : Z) (k : chunker) : Prop :=
  get_max (k_opts k) <= m /\ (Z.of_nat (length (k_buffer k)) < m \/ (k_buffer k <> [] /\ tf_concat (k_buffer k) = None)) /\
  (forall i c ch, k_cells k !! i = Some c -> ce_chunk c = Some ch -> rows_le ch m).

Lemma flush_sized m k h nk st k' : kinv k h -> nk <> k_next k -> nk ∉ (ce_key <$> k_cells k) -> 0 < m ->
  get_max (k_opts k) <= m -> (Z.of_nat (length (k_buffer k)) <= m \/ (k_buffer k <> [] /\ tf_concat (k_buffer k) = None)) ->
  (forall i c ch, k_cells k !! i = Some c -> ce_chunk c = Some ch -> rows_le ch m) ->
  flush_locked k nk = Some (st, k') -> (st = Ok -> sized m k') /\ (forall i c ch, k_cells k' !! i = Some c -> ce_chunk c = Some ch -> rows_le ch m).
Proof.
  intros I Hn1 Hn2 Hm Hmax Hbl Hc E. pose proof E as E0. unfold flush_locked in E.
  destruct (k_buffer k) as [|b0 bs] eqn:Hbuf. { injection E as <- <-. split; [|done]. intros _. split; [done|]. rewrite Hbuf. split; [by left|done]. }
  rewrite <- Hbuf in *. assert (Hne : k_buffer k <> []) by (by rewrite Hbuf). destruct (tf_concat (k_buffer k)) as [b|] eqn:Hcat.
  2: { injection E as <- <-. split; [done|done]. }
  destruct (flush_chunk k h b I) as (b' & r & E1 & Hr & Hch); [done|done|]. rewrite E1 in E. cbn [mbind option_bind] in E. rewrite Hr in E.
  cbn [mbind option_bind] in E. injection E as <- <-. set (ch := mkChunk _ _ _) in *.
  assert (R : rows_le ch m).
  { destruct Hch as [(ty & sh & _ & Hu) _]. eexists _, _, sh. split; [exact Hu|]. split; [done|]. rewrite fmap_length, drop_length.
    unfold k_first. rewrite (ki_len _ _ I). destruct Hbl as [Hbl|[_ ?]]; [|done]. lia. }
  assert (G : forall i c ch0, set_chunks ch (k_active k) (k_cells k) !! i = Some c -> ce_chunk c = Some ch0 -> rows_le ch0 m).
  { intros i c ch0 Hi Hch0. rewrite set_chunks_lookup in Hi. destruct (k_cells k !! i) as [c0|] eqn:Hc0; [|done]. cbn in Hi. injection Hi as <-.
    destruct (bool_decide _ && _); [injection Hch0 as <-; done|by eapply Hc]. }
  split; [|done]. intros _. split; [done|]. split; [left; cbn; lia|done].
Qed.

Lemma step_sized m k h e k' h' : kinv k h -> k_enabled k e -> k_step k h e = Some (k', h') -> max_le m e -> 0 < m -> sized m k -> sized m k'.
Proof.
  intros I He E Hle Hm (S1 & S2 & S3). destruct e as [t ep step nk|nk|nk|o'|a]; cbn [k_step k_enabled max_le] in *.
  - destruct He as (Ht & Hn1 & Hn2).
    assert (S3' : forall i c ch, k_cells (push k t ep step) !! i = Some c -> ce_chunk c = Some ch -> rows_le ch m).
    { intros i c ch Hc Hch. unfold push in Hc. cbn [k_cells] in Hc. apply lookup_snoc in Hc as [[Hc _]|[-> ->]]; [by eapply S3|done]. }
    assert (B1 : Z.of_nat (length (k_buffer (push k t ep step))) = Z.of_nat (length (k_buffer k)) + 1)
      by (unfold push; cbn [k_buffer]; rewrite app_length; cbn; lia).
    assert (S2' : Z.of_nat (length (k_buffer (push k t ep step))) <= m \/ (k_buffer (push k t ep step) <> [] /\ tf_concat (k_buffer (push k t ep step)) = None)).
    { destruct S2 as [S2|[S2 S2']]; [left; lia|]. right. unfold push. cbn [k_buffer]. split; [by destruct (k_buffer k)|].
      rewrite (ki_buf _ _ I) in *. apply concat_none_snoc; [|done]. intros E0. by rewrite E0 in S2. }
    destruct (append_cases k h t ep step nk I Ht Hn1 Hn2) as [(st & _ & Eq)|(I1 & [[Hl Eq]|[(_ & k1 & Hf & Eq)|(_ & st & _ & Hcn & Hf & Eq)]])];
      rewrite Eq in E; cbn [mbind option_bind] in E; injection E as <- _.
    + done.
    + split; [done|]. split; [|done]. cbn [trim k_buffer]. left. lia.
    + destruct (flush_sized m _ _ nk Ok k1 I1) as [G _]; [done| |done|done|done|done|done|].
      { unfold push. cbn [k_cells]. rewrite fmap_app. intros [H|H%elem_of_list_singleton]%elem_of_app; done. }
      destruct (G eq_refl) as (G1 & G2 & G3). done.
    + split; [done|]. split; [right|done]. split; [|done]. unfold push. cbn [k_buffer]. by destruct (k_buffer k).
  - destruct He as (Hn1 & Hn2). unfold k_flush in E. destruct (flush_inv k h nk I) as (st & k2 & E2 & _ & _ & _ & _ & _ & _ & H6); [done..|].
    rewrite E2 in E. injection E as <- _. destruct (flush_sized m k h nk st k2 I) as [G _]; try done.
    { destruct S2 as [S2|S2]; [left; lia|by right]. }
    destruct (decide (st = Ok)) as [->|Hne]; [by apply G|]. destruct (H6 Hne) as [-> _]. done.
  - injection E as <- _. split; [done|]. split; [left; cbn; lia|done].
  - injection E as <- _. unfold k_apply_config. destruct (k_buffer k) as [|b0 bs] eqn:Hb; [|unfold sized; cbn [snd]; by rewrite Hb].
    destruct (bool_decide _); [|unfold sized; cbn [snd]; by rewrite Hb]. split; [done|]. split; [left; cbn; lia|done].
  - injection E as <- _. split; [done|]. done.
Qed.

(** Chunks have at most max_chunk_length rows: the greatest value that it had. *)
Theorem C38_size m es k h i c ch : k_path k0 [] es k h -> get_max o <= m -> Forall (max_le m) es ->
  k_cells k !! i = Some c -> ce_chunk c = Some ch -> rows_le ch m.
Proof.
  intros Hp Hmo Hes. pose proof (opts_bounds _ Ho) as Hb.
  assert (G : kinv k h /\ sized m k).
  { remember [] as h0 eqn:Eh in Hp. remember k0 as k1 eqn:Ek in Hp. induction Hp as [|k1 h1 es k2 h2 e k3 h3 Hp IH He E]; subst.
    - split; [by eapply new_inv|]. unfold k_new in H0. destruct (_ <=? _); [|done]. injection H0 as <-. split; [done|]. split; [left; cbn; lia|done].
    - apply Forall_app in Hes as [Hes He1%Forall_inv]. destruct IH as [I S]; [done..|].
      destruct (step_inv k2 h2 e I He) as (k4 & h4 & E4 & I4 & _). rewrite E in E4. injection E4 as <- <-. split; [done|].
      eapply step_sized; [exact I|done..|lia|done]. }
  destruct G as [_ (_ & _ & G)]. apply G.
Qed.

(** Without Reset a reference gets its chunk after at most max_chunk_length
    appends, its own one included.  [fully_defined] is needed as before. *)
Theorem C38_eventually_partial m k h es k' h' i c : fully_defined spec -> k_reach k0 k h -> k_path k h es k' h' ->
  get_max (k_opts k) <= m -> Z.of_nat (length (k_buffer k)) < m -> Forall (max_le m) es -> Forall no_reset es ->
  (length h <= i)%nat -> Z.of_nat i + m <= Z.of_nat (length h') -> k_cells k' !! i = Some c ->
  exists ch, ce_chunk c = Some ch /\ resolved h' i c ch.
Proof.
  intros Hd Hr Hp Hmo Hbl Hes Hnr Hi Hm Hc.
  assert (G : kinv k' h' /\ k_spec k' = spec /\ get_max (k_opts k') <= m /\ Z.of_nat (length (k_buffer k')) < m /\
     forall i c, (length h <= i)%nat -> (i < k_first k')%nat -> k_cells k' !! i = Some c -> ce_chunk c <> None).
  { clear i c Hi Hm Hc. induction Hp as [k h|k h es k1 h1 e k2 h2 Hp IH He E].
    - destruct (reach_inv _ _ _ _ _ _ H0 Ho Hr) as [I Hs]. split; [done|]. split; [done|]. split; [done|]. split; [done|].
      intros i c H1 H2. rewrite (ki_len _ _ I) in H1. unfold k_first in H2. lia.
    - apply Forall_app in Hes as [Hes He1%Forall_inv]. apply Forall_app in Hnr as [Hnr Hn1%Forall_inv].
      destruct IH as (I & Hs & G1 & G2 & G3); [done..|].
      destruct (step_inv k1 h1 e I He) as (k4 & h4 & E4 & I4 & Hs4). rewrite E in E4. injection E4 as <- <-. split; [done|]. split; [congruence|].
      assert (HF : forall ka kb ha nk st, kinv ka ha -> nk <> k_next ka -> nk ∉ (ce_key <$> k_cells ka) -> k_spec ka = spec ->
        flush_locked ka nk = Some (st, kb) -> k_opts kb = k_opts ka /\ k_buffer kb = [] /\
        forall i c c', k_cells ka !! i = Some c -> k_cells kb !! i = Some c' -> (i < k_first ka)%nat /\ ce_chunk c <> None \/ (k_first ka <= i)%nat -> ce_chunk c' <> None).
      { intros ka kb ha nk st Ia F1 F2 Fs F3. destruct (flush_inv ka ha nk Ia F1 F2) as (st' & kb' & E5 & I5 & _ & O5 & A5 & L5 & B5 & N5).
        rewrite F3 in E5. injection E5 as <- <-.
        assert (st = Ok) as ->.
        { destruct (decide (st = Ok)) as [|Hne]; [done|]. destruct (N5 Hne) as (_ & Hcn & Hb). exfalso. eapply defined_concat; [exact Ia| |done|done]. by rewrite Fs. }
        split; [done|]. split; [by apply B5|]. intros i c c' Hca Hcb [[Hl Hch]|Hge].
        - unfold flush_locked in F3. destruct (k_buffer ka) as [|b0 bs] eqn:Hbuf; [injection F3 as <-; congruence|]. rewrite <- Hbuf in *.
          destruct (tf_concat (k_buffer ka)) as [b|]; [|done]. destruct (if get_delta _ then _ else _) as [b'|]; [|done]. cbn [mbind option_bind] in F3.
          destruct (range_of _ _ _) as [r|]; [|done]. cbn [mbind option_bind] in F3. injection F3 as <-. cbn [k_cells] in Hcb.
          rewrite set_chunks_lookup, Hca in Hcb. cbn in Hcb. injection Hcb as <-. destruct (bool_decide _ && _); [done|done].
        - destruct (ki_act _ _ Ia) as (lo & Hact & Hlo). pose proof (lookup_lt_Some _ _ _ Hca).
          apply (ki_live _ _ I5 i); [rewrite A5, Hact; apply elem_of_seq; unfold k_first in Hge; lia| |done].
          unfold k_first. rewrite B5 by done. cbn. rewrite L5. lia. }
      destruct e as [t ep step nk|nk|nk|o'|a]; cbn [k_step k_enabled max_le no_reset] in *; [..|].
      + destruct He as (Ht & F1 & F2).
        assert (B1 : Z.of_nat (length (k_buffer (push k1 t ep step))) = Z.of_nat (length (k_buffer k1)) + 1)
          by (unfold push; cbn [k_buffer]; rewrite app_length; cbn; lia).
        assert (P : forall i c, (length h <= i)%nat -> (i < k_first (push k1 t ep step))%nat -> k_cells (push k1 t ep step) !! i = Some c -> ce_chunk c <> None).
        { intros i c H1 H2 H3. assert (F : k_first (push k1 t ep step) = k_first k1) by (unfold k_first, push; cbn [k_cells k_buffer]; rewrite !app_length; cbn; lia).
          rewrite F in H2. unfold push in H3. cbn [k_cells] in H3. apply lookup_snoc in H3 as [[H3 _]|[-> ->]]; [by apply (G3 i)|].
          unfold k_first in H2. lia. }
        assert (F2' : nk ∉ (ce_key <$> k_cells (push k1 t ep step))).
        { unfold push. cbn [k_cells]. rewrite fmap_app. intros [H|H%elem_of_list_singleton]%elem_of_app; done. }
        destruct (append_cases k1 h1 t ep step nk I Ht F1 F2) as [(st & _ & Eq)|(I1 & [[Hl Eq]|[(_ & k3 & Hf & Eq)|(_ & st & Hst & Hcn & Hf & Eq)]])];
          rewrite Eq in E; cbn [mbind option_bind] in E; injection E as <- _.
        * done.
        * cbn [trim k_opts k_buffer k_cells]. split; [done|]. split; [lia|]. exact P.
        * destruct (HF _ _ _ nk Ok I1 F1 F2' Hs Hf) as (H1 & H2 & H3). cbn [trim k_opts k_buffer k_cells]. rewrite H1, H2. split; [done|]. split; [cbn; lia|].
          intros i c J1 J2 J3. destruct (flush_inv _ _ nk I1 F1 F2') as (st' & kb' & E5 & _ & _ & _ & _ & L5 & _). rewrite Hf in E5. injection E5 as <- <-.
          destruct (lookup_lt_is_Some_2 (k_cells (push k1 t ep step)) i) as [c0 Hc0]; [rewrite <- L5; by eapply lookup_lt_Some|].
          apply (H3 i c0 c Hc0 J3). destruct (decide (i < k_first (push k1 t ep step))%nat); [left; split; [done|by apply (P i)]|right; lia].
        * exfalso. eapply (defined_concat (push k1 t ep step)); [exact I1|by rewrite <- Hs in Hd| |exact Hcn]. unfold push. cbn [k_buffer]. by destruct (k_buffer k1).
      + destruct He as (F1 & F2). unfold k_flush in E. destruct (flush_locked k1 nk) as [[st k3]|] eqn:Hf; [|done]. cbn [mbind option_bind] in E. injection E as <- _.
        destruct (HF _ _ _ nk st I F1 F2 Hs Hf) as (H1 & H2 & H3). rewrite H1, H2. split; [done|]. split; [cbn; lia|].
        intros i c J1 J2 J3. destruct (flush_inv _ _ nk I F1 F2) as (st' & kb' & E5 & _ & _ & _ & _ & L5 & _). rewrite Hf in E5. injection E5 as <- <-.
        destruct (lookup_lt_is_Some_2 (k_cells k1) i) as [c0 Hc0]; [rewrite <- L5; by eapply lookup_lt_Some|].
        apply (H3 i c0 c Hc0 J3). destruct (decide (i < k_first k1)%nat); [left; split; [done|by apply (G3 i)]|right; lia].
      + done.
      + injection E as <- _. unfold k_apply_config in *. destruct (k_buffer k1) as [|b0 bs] eqn:Hb; [|cbn [snd]; by rewrite Hb].
        destruct (bool_decide _); [|cbn [snd]; by rewrite Hb]. cbn [snd trim k_opts k_buffer k_cells]. split; [done|]. split; [done|].
        intros i c J1 J2 J3. apply (G3 i c J1); [|done]. unfold k_first in *. rewrite Hb. done.
      + injection E as <- _. done. }
  destruct G as (I & _ & _ & G2 & G3). pose proof (ki_len _ _ I) as Hlen. destruct (ce_chunk c) as [ch|] eqn:Hch.
  - exists ch. split; [done|]. by apply (ki_res _ _ I).
  - exfalso. apply (G3 i c Hi); [|done|done]. unfold k_first. lia.
Qed.

Lemma flush_new k h nk st k' i c c' ch : kinv k h -> flush_locked k nk = Some (st, k') -> k_cells k !! i = Some c ->
  k_cells k' !! i = Some c' -> ce_chunk c = None -> ce_chunk c' = Some ch ->
  rows_le ch (Z.of_nat (length (k_buffer k))) /\ tf_concat (k_buffer k) <> None.
Proof.
  intros I E Hc Hc' Hn Hs. unfold flush_locked in E.
  destruct (k_buffer k) as [|b0 bs] eqn:Hbuf. { injection E as <- <-. congruence. }
  rewrite <- Hbuf in *. assert (Hne : k_buffer k <> []) by (by rewrite Hbuf). destruct (tf_concat (k_buffer k)) as [b|] eqn:Hcat.
  2: { injection E as <- <-. congruence. }
  destruct (flush_chunk k h b I) as (b' & r & E1 & Hr & Hch); [done|done|]. rewrite E1 in E. cbn [mbind option_bind] in E. rewrite Hr in E.
  cbn [mbind option_bind] in E. injection E as <- <-. cbn [k_cells] in Hc'. rewrite set_chunks_lookup, Hc in Hc'. cbn in Hc'. injection Hc' as <-.
  destruct (bool_decide _ && _); [|congruence]. cbn in Hs. injection Hs as <-. split; [|done].
  destruct Hch as [(ty & sh & _ & Hu) _]. eexists _, _, sh. split; [exact Hu|]. split; [done|]. rewrite fmap_length, drop_length.
  unfold k_first. rewrite (ki_len _ _ I). lia.
Qed.

(** Without auto tuning: a chunk has at most as many rows as max_chunk_length is
    when it is made. *)
Definition no_tune (e : kev) : Prop := match e with KTune _ => False | _ => True end.
Theorem C38_size_now es k h e k' h' i c' ch : k_path k0 [] es k h -> Forall no_tune es -> k_enabled k e -> no_tune e ->
  k_step k h e = Some (k', h') -> k_cells k' !! i = Some c' -> ce_chunk c' = Some ch ->
  (forall c, k_cells k !! i = Some c -> ce_chunk c = None) -> rows_le ch (get_max (k_opts k)).
Proof.
  intros Hp Hes He Hte E Hc' Hch Hnew.
  assert (G : kinv k h /\ (Z.of_nat (length (k_buffer k)) < get_max (k_opts k) \/ (k_buffer k <> [] /\ tf_concat (k_buffer k) = None))).
  { clear e k' h' i c' ch He Hte E Hc' Hch Hnew. remember [] as h0 eqn:Eh in Hp. remember k0 as k1 eqn:Ek in Hp.
    induction Hp as [|k1 h1 es k2 h2 e k3 h3 Hp IH He E]; subst.
    - split; [by eapply new_inv|]. pose proof (opts_bounds _ Ho). unfold k_new in H0. destruct (_ <=? _); [|done]. injection H0 as <-. left. cbn. lia.
    - apply Forall_app in Hes as [Hes He1%Forall_inv]. destruct IH as [I S]; [done..|]. pose proof (opts_bounds _ (ki_opts _ _ I)) as Hb.
      destruct (step_inv k2 h2 e I He) as (k4 & h4 & E4 & I4 & _). rewrite E in E4. injection E4 as <- <-. split; [done|].
      destruct e as [t ep step nk|nk|nk|o'|a]; cbn [k_step k_enabled no_tune] in *; [..|done].
      + destruct He as (Ht & Hn1 & Hn2).
        destruct (append_cases k2 h2 t ep step nk I Ht Hn1 Hn2) as [(st & _ & Eq)|(I1 & [[Hl Eq]|[(_ & k1 & Hf & Eq)|(_ & st & _ & Hcn & Hf & Eq)]])];
          rewrite Eq in E; cbn [mbind option_bind] in E; injection E as <- _.
        * done.
        * left. cbn [trim k_buffer k_opts push]. rewrite app_length. cbn [length]. lia.
        * left. destruct (flush_inv _ _ nk I1) as (st & k5 & Hf' & _ & _ & H2 & _ & _ & H5 & _); [done| |].
          { unfold push. cbn [k_cells]. rewrite fmap_app. intros [H|H%elem_of_list_singleton]%elem_of_app; done. }
          rewrite Hf in Hf'. injection Hf' as <- <-. cbn [trim k_buffer k_opts]. rewrite H5, H2 by done. cbn [length push k_opts]. lia.
        * right. split; [|done]. unfold push. cbn [k_buffer]. by destruct (k_buffer k2).
      + destruct He as (Hn1 & Hn2). unfold k_flush in E. destruct (flush_inv k2 h2 nk I) as (st & k5 & E2 & _ & _ & H2 & _ & _ & H5 & H6); [done..|].
        rewrite E2 in E. injection E as <- _. destruct (decide (st = Ok)) as [->|Hne]; [left; rewrite H5, H2 by done; cbn; lia|].
        destruct (H6 Hne) as [-> _]. done.
      + injection E as <- _. left. cbn. lia.
      + injection E as <- _. unfold k_apply_config. destruct (k_buffer k2) as [|b0 bs] eqn:Hbf; [|cbn [snd]; by rewrite Hbf].
        destruct (bool_decide_reflect (validate_options o' = Ok)) as [Ho'|]; [|cbn [snd]; by rewrite Hbf].
        pose proof (opts_bounds _ Ho'). left. cbn [snd trim k_buffer k_opts length]. lia. }
  destruct G as [I S].
  assert (W : forall a b, a <= b -> rows_le ch a -> rows_le ch b) by (intros a b Hab (t & d & sh & H1 & H2 & H3); exists t, d, sh; split; [done|]; split; [done|lia]).
  assert (Same : k_cells k' !! i = k_cells k !! i -> False). { intros E0. rewrite E0 in Hc'. by rewrite (Hnew _ Hc') in Hch. }
  destruct e as [t ep step nk|nk|nk|o'|a]; cbn [k_step k_enabled no_tune] in *; [..|done].
  - destruct He as (Ht & Hn1 & Hn2).
    assert (PN : forall c, k_cells (push k t ep step) !! i = Some c -> ce_chunk c = None).
    { intros c Hc. unfold push in Hc. cbn [k_cells] in Hc. apply lookup_snoc in Hc as [[Hc _]|[_ ->]]; [by apply Hnew|done]. }
    assert (B1 : Z.of_nat (length (k_buffer (push k t ep step))) = Z.of_nat (length (k_buffer k)) + 1)
      by (unfold push; cbn [k_buffer]; rewrite app_length; cbn; lia).
    destruct (append_cases k h t ep step nk I Ht Hn1 Hn2) as [(st & _ & Eq)|(I1 & [[Hl Eq]|[(_ & k1 & Hf & Eq)|(_ & st & _ & Hcn & Hf & Eq)]])];
      rewrite Eq in E; cbn [mbind option_bind] in E; injection E as <- _.
    + done.
    + cbn [trim k_cells] in Hc'. by rewrite (PN _ Hc') in Hch.
    + destruct (flush_inv _ _ nk I1) as (st & k5 & Hf' & _ & _ & _ & _ & L5 & _ & _); [done| |].
      { unfold push. cbn [k_cells]. rewrite fmap_app. intros [H|H%elem_of_list_singleton]%elem_of_app; done. }
      rewrite Hf in Hf'. injection Hf' as <- <-. cbn [trim k_cells] in Hc'.
      destruct (lookup_lt_is_Some_2 (k_cells (push k t ep step)) i) as [c Hc]; [rewrite <- L5; by eapply lookup_lt_Some|].
      destruct (flush_new _ _ nk Ok k1 i c c' ch I1 Hf Hc Hc' (PN _ Hc) Hch) as [R1 R2]. rewrite B1 in R1.
      destruct S as [S|[S S']]; [eapply W; [|exact R1]; lia|]. exfalso. apply R2. unfold push. cbn [k_buffer].
      rewrite (ki_buf _ _ I) in *. apply concat_none_snoc; [|done]. intros E0. by rewrite E0 in S.
    + by rewrite (PN _ Hc') in Hch.
  - destruct He as (Hn1 & Hn2). unfold k_flush in E. destruct (flush_inv k h nk I) as (st & k5 & E2 & _ & _ & _ & _ & L5 & _); [done..|].
    rewrite E2 in E. injection E as <- _. destruct (lookup_lt_is_Some_2 (k_cells k) i) as [c Hc]; [rewrite <- L5; by eapply lookup_lt_Some|].
    destruct (flush_new _ _ nk st k5 i c c' ch I E2 Hc Hc' (Hnew _ Hc) Hch) as [R1 R2].
    destruct S as [S|[_ S']]; [eapply W; [|exact R1]; lia|done].
  - injection E as <- _. done.
  - injection E as <- _. exfalso. apply Same. unfold k_apply_config. destruct (k_buffer k); [|done]. destruct (bool_decide _); done.
Qed.
End theorems.

(** ** Refutations *)

(** The calls [es] one after the other; whether all of them are enabled is left to
    the reader of the result. *)
Fixpoint k_run (k : chunker) (h : hist) (es : list kev) : option (chunker * hist) :=
  match es with [] => Some (k, h) | e :: es => '(k, h) ← k_step k h e; k_run k h es end.

Definition scalar (x : Z) : tensor := mkTensor (TOther 1) [] [x].
Definition vec (l : list Z) : tensor := mkTensor (TOther 1) [length l] l.
Definition fresh_chunker (s : tspec) (o : copts) : chunker := mkChunker s o [] 0 100 [] [].

(** A specification that leaves a size open: the first tensor is appended with
    success, the second one, of another size, makes Append fail, and from then on
    Flush fails and the first reference never gets a chunk. *)
Definition open_spec : tspec := mkTspec (TOther 1) (Some [None]).
Definition open_0 : chunker := fresh_chunker open_spec (Constant 2 4 false).
Definition open_1 : chunker := mkChunker open_spec (Constant 2 4 false) [batched (vec [1; 2])] 1 100 [mkCell 100 0 7 0 None] [0%nat].
Definition open_2 : chunker := mkChunker open_spec (Constant 2 4 false) [batched (vec [1; 2]); batched (vec [3])] 2 100
  [mkCell 100 0 7 0 None; mkCell 100 1 7 1 None] [0; 1]%nat.

Lemma open_stuck es : forall k h k' h', tf_concat (k_buffer k) = None -> (exists ts, k_buffer k = batched <$> ts /\ ts <> []) ->
  0 < get_max (k_opts k) -> Forall no_reset es -> (forall e, e ∈ es -> match e with KAppend _ _ _ _ | KFlush _ => True | _ => False end) ->
  (forall i c, k_cells k !! i = Some c -> ce_chunk c = None) -> (Z.of_nat (length (k_buffer k)) >= get_max (k_opts k)) ->
  k_run k h es = Some (k', h') -> forall i c, k_cells k' !! i = Some c -> ce_chunk c = None.
Proof.
  induction es as [|e es IH]; intros k h k' h' Hn Hts Hm Hnr Hev Hcs Hbl E; cbn [k_run] in E.
  { injection E as <- <-. done. }
  destruct (k_step k h e) as [[k1 h1]|] eqn:E1; [|done]. cbn [mbind option_bind] in E.
  apply Forall_cons in Hnr as [Hnr1 Hnr]. 
  assert (G : tf_concat (k_buffer k1) = None /\ (exists ts, k_buffer k1 = batched <$> ts /\ ts <> []) /\ 0 < get_max (k_opts k1) /\
    (forall i c, k_cells k1 !! i = Some c -> ce_chunk c = None) /\ Z.of_nat (length (k_buffer k1)) >= get_max (k_opts k1)).
  { destruct Hts as (ts & Hts & Hne).
    assert (FL : forall ka nk, tf_concat (k_buffer ka) = None -> k_buffer ka <> [] -> flush_locked ka nk = Some (InvalidArgument, ka)).
    { intros ka nk Ha Hb. unfold flush_locked. destruct (k_buffer ka) as [|b0 bs] eqn:Hbb; [done|]. by rewrite Ha. }
    assert (Hbne : k_buffer k <> []) by (rewrite Hts; by destruct ts).
    pose proof (Hev e (elem_of_list_here _ _)) as Hk. destruct e as [t ep step nk|nk|nk|o'|a]; try done; cbn [k_step] in E1.
    - assert (GP : tf_concat (k_buffer (push k t ep step)) = None) by (unfold push; cbn [k_buffer]; rewrite Hts in *; by apply concat_none_snoc).
      assert (LB : Z.of_nat (length (k_buffer (push k t ep step))) = Z.of_nat (length (k_buffer k)) + 1)
        by (unfold push; cbn [k_buffer]; rewrite app_length; cbn; lia).
      assert (K1 : k1 = k \/ k1 = push k t ep step).
      { destruct (k_append k t ep step nk) as [[[st r] k2]|] eqn:Ea; [|done]. cbn [mbind option_bind] in E1. injection E1 as <- _.
        unfold k_append in Ea. destruct (bool_decide (t_ty t = sp_ty (k_spec k))); cbn [negb] in Ea; [|injection Ea as <- <- <-; by left].
        destruct (shape_compatible (sp_shape (k_spec k)) (t_shape t)); cbn [negb] in Ea; [|injection Ea as <- <- <-; by left].
        fold (push k t ep step) in Ea. rewrite FL in Ea by (try done; unfold push; cbn [k_buffer]; by destruct (k_buffer k)).
        rewrite (proj2 (Z.leb_le _ _)) in Ea by (change (k_opts (push k t ep step)) with (k_opts k); lia). cbn [mbind option_bind] in Ea.
        rewrite bool_decide_false in Ea by done.
        destruct (k_buffer k); [done|]. destruct (last (k_active k) ≫= _) as [c|]; [|done]. cbn [mbind option_bind] in Ea.
        destruct (ce_ep c =? ep); cbn [negb] in Ea; [|injection Ea as <- <- <-; by left].
        destruct (step <=? ce_step c); injection Ea as <- <- <-; [by left|by right]. }
      destruct K1 as [->| ->]; [split; [done|]; split; [by exists ts|done]|]. split; [done|]. split.
      { exists (ts ++ [t]). unfold push. cbn [k_buffer]. rewrite Hts, fmap_app. split; [done|]. by destruct ts. }
      split; [done|]. split; [|change (k_opts (push k t ep step)) with (k_opts k); lia].
      intros i c Hc. unfold push in Hc. cbn [k_cells] in Hc. apply lookup_snoc in Hc as [[Hc _]|[_ ->]]; [by eapply Hcs|done].
    - unfold k_flush in E1. rewrite FL in E1 by done. injection E1 as <- <-. split; [done|]. split; [by exists ts|done]. }
  destruct G as (G1 & G2 & G3 & G4 & G5). eapply (IH k1 h1); try done. intros e' He'. apply Hev. by apply elem_of_list_further.
Qed.

Theorem C38_partial_shape_refuted :
  k_new open_spec (Constant 2 4 false) 100 = Some open_0 /\ k_enabled open_0 (KAppend (vec [1; 2]) 7 0 101) /\
  k_append open_0 (vec [1; 2]) 7 0 101 = Some (Ok, Some 0%nat, open_1) /\ k_enabled open_1 (KAppend (vec [3]) 7 1 101) /\
  k_append open_1 (vec [3]) 7 1 101 = Some (InvalidArgument, None, open_2) /\
  (forall nk, k_flush open_2 nk = Some (InvalidArgument, open_2)) /\
  forall es k h, (forall e, e ∈ es -> match e with KAppend _ _ _ _ | KFlush _ => True | _ => False end) ->
    k_run open_2 [(vec [1; 2], 7, 0); (vec [3], 7, 1)] es = Some (k, h) -> forall i c, k_cells k !! i = Some c -> ce_chunk c = None.
Proof.
  split; [done|]. split. { split; [|split; [done|apply not_elem_of_nil]]. split; [done|]. repeat constructor. }
  split; [done|]. split. { split; [split; [done|repeat constructor]|]. split; [done|]. cbn. rewrite elem_of_list_singleton. done. }
  split; [done|]. split; [done|]. intros es k h Hev. apply open_stuck; try done.
  - by exists [vec [1; 2]; vec [3]].
  - apply Forall_forall. intros e He. specialize (Hev e He). by destruct e.
  - intros [|[|i]] c Hc; [by injection Hc as <-|by injection Hc as <-|done].
Qed.

(** With auto tuning: the buffer is filled while max_chunk_length is 3, which then
    becomes 1, and the next chunk has 3 rows. *)
Definition scalar_spec : tspec := mkTspec (TOther 1) (Some []).
Definition auto_opts (m : Z) : auto := mkAuto 4 false 1 m (mkScore (-1) (-1)) [] [].
Definition tune_0 : chunker := fresh_chunker scalar_spec (Auto (auto_opts 3)).
Definition tune_events : list kev := [KAppend (scalar 1) 7 0 101; KAppend (scalar 2) 7 1 101; KTune (auto_opts 1); KAppend (scalar 3) 7 2 101].
Theorem C38_size_tuned_refuted : exists k h c ch t, k_run tune_0 [] tune_events = Some (k, h) /\ get_max (k_opts k) = 1 /\
  k_cells k !! 2%nat = Some c /\ ce_chunk c = Some ch /\ unpack_chunk_column (ck_data ch) 0 = UOk t /\ t_shape t = [3%nat].
Proof. do 5 eexists. do 5 (split; [vm_compute; reflexivity|]). done. Qed.

(** ** Examples *)

(** Chunks of two rows, three references: five appends and a flush. *)
Definition ex_0 : chunker := fresh_chunker scalar_spec (Constant 2 3 true).
Definition ex_events : list kev := [KAppend (scalar 1) 7 0 101; KAppend (scalar 2) 7 1 101; KAppend (scalar 3) 7 3 102; KAppend (scalar 4) 7 4 102;
  KAppend (scalar 5) 7 5 103; KFlush 103].
Lemma run_path k h es k' h' : k_run k h es = Some (k', h') ->
  (forall i e k1 h1, es !! i = Some e -> k_run k h (take i es) = Some (k1, h1) -> k_enabled k1 e) -> k_path k h es k' h'.
Proof.
  revert k' h'. induction es as [|e es IH] using rev_ind; intros k' h' E He; [injection E as <- <-; constructor|].
  assert (R : forall es1 es2 k h, k_run k h (es1 ++ es2) = '(k, h) ← k_run k h es1; k_run k h es2).
  { clear. induction es1 as [|e es1 IH]; intros es2 k h; [done|]. cbn [app k_run]. destruct (k_step k h e) as [[k1 h1]|]; [|done]. cbn [mbind option_bind]. apply IH. }
  rewrite R in E. destruct (k_run k h es) as [[k1 h1]|] eqn:E1; [|done]. cbn [mbind option_bind k_run] in E.
  destruct (k_step k1 h1 e) as [[k2 h2]|] eqn:E2; [|done]. cbn in E. injection E as <- <-. eapply kp_snoc; [|..|exact E2].
  - apply IH; [done|]. intros i e0 k3 h3 Hi Hr. apply (He i e0 k3 h3); [by apply lookup_app_l_Some|]. rewrite take_app_le; [done|]. apply lookup_lt_Some in Hi. lia.
  - apply (He (length es) e k1 h1); [by apply list_lookup_middle|]. by rewrite take_app.
Qed.
Lemma path_reach0 k0 es k h : k_path k0 [] es k h -> k_reach k0 k h.
Proof.
  intros H. remember [] as h0 eqn:E in H. induction H as [|k1 h1 es k2 h2 e k3 h3 Hp IH He Hs]; [subst; apply kr_init|].
  eapply kr_step; [by apply IH|done|done].
Qed.

Definition is_some {A} (o : option A) : bool := match o with Some _ => true | None => false end.
Definition fresh_b (k : chunker) (nk : Z) : bool := negb (nk =? k_next k) && forallb (fun c => negb (ce_key c =? nk)) (k_cells k).
(** [k_enabled], computed, for the calls and tensors of the example. *)
Definition enabled_b (k : chunker) (e : kev) : bool :=
  match e with
  | KAppend t _ _ nk => (length (t_data t) =? elements (t_shape t))%nat && bool_decide (t_ty t = TOther 1) && fresh_b k nk
  | KFlush nk | KReset nk => fresh_b k nk
  | KConfig _ => true
  | KTune _ => false
  end.
Fixpoint path_b (k : chunker) (h : hist) (es : list kev) : bool :=
  match es with
  | [] => true
  | e :: es => enabled_b k e && match k_step k h e with Some (k, h) => path_b k h es | None => false end
  end.
Lemma enabled_b_sound k e : enabled_b k e = true -> k_enabled k e.
Proof.
  assert (F : forall nk, fresh_b k nk = true -> nk <> k_next k /\ nk ∉ (ce_key <$> k_cells k)).
  { intros nk [H1 H2]%andb_true_iff. split; [by intros ->; rewrite Z.eqb_refl in H1|]. intros (c & -> & Hc)%elem_of_list_fmap.
    rewrite forallb_forall in H2. specialize (H2 c (proj1 (elem_of_list_In _ _) Hc)). by rewrite Z.eqb_refl in H2. }
  destruct e as [t ep step nk|nk|nk|o|a]; cbn [enabled_b k_enabled]; try done; try apply F.
  intros [[H1%Nat.eqb_eq H2%bool_decide_eq_true]%andb_true_iff H3]%andb_true_iff. split; [|by apply F]. split; [done|]. rewrite H2. by apply Forall_true.
Qed.
Lemma path_b_sound k h es k' h' : path_b k h es = true -> k_run k h es = Some (k', h') -> k_path k h es k' h'.
Proof.
  intros Hb E. apply run_path; [done|]. clear E. revert k h Hb. induction es as [|e es IH]; intros k h Hb i e0 k1 h1 Hi Hr; [done|].
  cbn [path_b] in Hb. apply andb_true_iff in Hb as [Hb1 Hb2]. destruct i as [|i].
  - injection Hi as ->. injection Hr as <- <-. by apply enabled_b_sound.
  - cbn in Hi. cbn [take k_run] in Hr. destruct (k_step k h e) as [[k2 h2]|]; [|done]. cbn [mbind option_bind] in Hr. by eapply IH.
Qed.

Example C38_example : exists k h, k_new scalar_spec (Constant 2 3 true) 100 = Some ex_0 /\ validate_options (Constant 2 3 true) = Ok /\
  fully_defined scalar_spec /\ k_path ex_0 [] ex_events k h /\ k_reach ex_0 k h /\
  h = [(scalar 1, 7, 0); (scalar 2, 7, 1); (scalar 3, 7, 3); (scalar 4, 7, 4); (scalar 5, 7, 5)] /\ k_active k = [2; 3; 4]%nat /\
  forallb (fun c => is_some (ce_chunk c)) (k_cells k) = true /\ (ce_off <$> k_cells k) = [0; 1; 0; 1; 0] /\ (ce_key <$> k_cells k) = [100; 100; 101; 101; 102] /\
  copy_data k 3 = Some (Ok, Some (scalar 4)) /\ k_keep_keys k = [101; 102] /\
  Forall (max_le 2) ex_events /\ Forall no_reset ex_events /\ Forall no_config ex_events /\ Forall no_tune ex_events.
Proof.
  destruct (k_run ex_0 [] ex_events) as [[k h]|] eqn:E; [|vm_compute in E; done]. exists k, h.
  assert (P : k_path ex_0 [] ex_events k h) by (apply path_b_sound; [vm_compute; reflexivity|done]).
  split; [done|]. split; [done|]. split; [by exists []|]. split; [done|]. split; [by eapply path_reach0|].
  vm_compute in E. injection E as <- <-. do 7 (split; [vm_compute; reflexivity|]). repeat split; by repeat constructor.
Qed.

(** While the chunk is open the data comes from the buffer; and a reference that
    fell out of the window with its chunk open cannot exist, but one that Reset
    dropped does: its data is lost. *)
Example C38_example_buffer : exists k h, k_path ex_0 [] (take 3 ex_events) k h /\ length (k_buffer k) = 1%nat /\
  copy_data k 2 = Some (Ok, Some (scalar 3)) /\ copy_data (k_reset k 105) 2 = Some (Internal, None) /\
  k_enabled k (KAppend (scalar 4) 7 4 102) /\ k_enabled k (KFlush 102).
Proof.
  destruct (k_run ex_0 [] (take 3 ex_events)) as [[k h]|] eqn:E; [|vm_compute in E; done]. exists k, h.
  split; [apply path_b_sound; [vm_compute; reflexivity|done]|]. vm_compute in E. injection E as <- <-.
  do 3 (split; [vm_compute; reflexivity|]). split; apply enabled_b_sound; vm_compute; reflexivity.
Qed.

Print Assumptions C38_no_crash.
Print Assumptions C38_resolved.
Print Assumptions C38_get_data.
Print Assumptions C38_unique.
Print Assumptions C38_flush_partial.
Print Assumptions C38_eventually_partial.
Print Assumptions C38_window.
Print Assumptions C38_size.
Print Assumptions C38_size_now.
Print Assumptions C38_partial_shape_refuted.
Print Assumptions C38_size_tuned_refuted.
