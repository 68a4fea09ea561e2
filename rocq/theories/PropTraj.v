(** C36 and C50: trajectories of timesteps, chunk keys of a trajectory. *)
From Verif Require Import Base Trajectory Tensor TrajUtil Table PropTable.
Local Open Scope Z_scope.

(** ** C50 *)

(** [keys] lists the elements of [uses] once each, in the order of their first
    occurrences. *)
Definition first_use_order (uses keys : list Z) : Prop :=
  NoDup keys /\ (forall k, k ∈ keys <-> k ∈ uses) /\
  forall i j a b, (i < j)%nat -> keys !! i = Some a -> keys !! j = Some b ->
    exists m, uses !! m = Some a /\ forall n, (n <= m)%nat -> uses !! n <> Some b.

Lemma chunk_keys_aux_elem seen l k : k ∈ chunk_keys_aux seen l <-> k ∈ l /\ k ∉ seen.
Proof.
  revert seen. induction l as [|x l IH]; intros seen; cbn [chunk_keys_aux]; [set_solver|].
  case_decide as Hx; rewrite ?elem_of_cons, IH; [split; [set_solver|]|].
  - intros [[->|?] ?]; [done|set_solver].
  - destruct (decide (k = x)) as [->|]; [set_solver|]. rewrite not_elem_of_cons. set_solver.
Qed.
Lemma chunk_keys_aux_order seen l :
  NoDup (chunk_keys_aux seen l) /\
  forall i j a b, (i < j)%nat -> chunk_keys_aux seen l !! i = Some a -> chunk_keys_aux seen l !! j = Some b ->
    exists m, l !! m = Some a /\ forall n, (n <= m)%nat -> l !! n <> Some b.
Proof.
  revert seen. induction l as [|x l IH]; intros seen; cbn [chunk_keys_aux]; [split; [constructor|done]|].
  case_decide as Hx.
  - destruct (IH seen) as [H1 H2]. split; [done|]. intros i j a b Hij Ha Hb.
    destruct (H2 i j a b Hij Ha Hb) as (m & Hm & Hn). exists (S m). split; [done|].
    intros [|n] Hle; cbn; [|apply Hn; lia]. intros [= ->].
    apply elem_of_list_lookup_2, chunk_keys_aux_elem in Hb as [_ Hb]. done.
  - destruct (IH (x :: seen)) as [H1 H2]. split.
    { constructor; [|done]. rewrite chunk_keys_aux_elem. set_solver. }
    intros [|i] [|j] a b Hij; try lia; cbn.
    + intros [= <-] Hb. exists 0%nat. split; [done|]. intros n Hn. assert (n = 0%nat) as -> by lia. cbn. intros [= <-].
      apply elem_of_list_lookup_2, chunk_keys_aux_elem in Hb as [_ Hb]. set_solver.
    + intros Ha Hb. destruct (H2 i j a b ltac:(lia) Ha Hb) as (m & Hm & Hn). exists (S m). split; [done|].
      intros [|n] Hle; cbn; [|apply Hn; lia]. intros [= <-].
      apply elem_of_list_lookup_2, chunk_keys_aux_elem in Hb as [_ Hb]. set_solver.
Qed.

(** GetChunkKeys: the keys of all slices, column after column. *)
Theorem C50_keys tr : first_use_order (sl_key <$> concat tr) (get_chunk_keys tr).
Proof.
  unfold get_chunk_keys, traj_keys. destruct (chunk_keys_aux_order [] (sl_key <$> concat tr)) as [H1 H2].
  split; [done|]. split; [|done]. intros k. rewrite chunk_keys_aux_elem. set_solver.
Qed.

(** The specification leaves no freedom. *)
Theorem C50_unique uses k1 k2 : first_use_order uses k1 -> first_use_order uses k2 -> k1 = k2.
Proof.
  set (R := fun a b => exists m, uses !! m = Some a /\ forall n, (n <= m)%nat -> uses !! n <> Some b).
  assert (HR : AntiSymm (=) R).
  { intros a b (m & Hm & Hn) (m' & Hm' & Hn'). exfalso. destruct (decide (m <= m')%nat); [by apply (Hn' m)|]. apply (Hn m'); [lia|done]. }
  assert (HS : forall k, first_use_order uses k -> StronglySorted R k).
  { intros k (_ & _ & Ho). assert (Ho' : forall i j a b, (i < j)%nat -> k !! i = Some a -> k !! j = Some b -> R a b) by exact Ho.
    clear Ho. induction k as [|x k IH]; [constructor|]. constructor.
    - apply IH. intros i j a b Hij Ha Hb. apply (Ho' (S i) (S j)); [lia|done|done].
    - apply Forall_lookup_2. intros j b Hb. by apply (Ho' 0%nat (S j)); [lia| |]. }
  intros H1 H2. apply (StronglySorted_unique R); [by apply HS|by apply HS|].
  destruct H1 as (N1 & E1 & _), H2 as (N2 & E2 & _). apply NoDup_Permutation; [done|done|]. intros x. by rewrite E1, E2.
Qed.

(** A table accepts an item exactly if its trajectory is not empty and its chunks
    are the ones of the trajectory, in that order. *)
Theorem C50_accepts it : check_item_validity it = Ok <->
  (exists c cs, it_traj it = c :: cs /\ c <> []) /\ first_use_order (sl_key <$> concat (it_traj it)) (ck_key <$> it_chunks it).
Proof.
  assert (HK := C50_keys (it_traj it)). unfold check_item_validity. split.
  - destruct (it_traj it) as [|[|x c] cs]; try done. case_decide; [|done]. case_decide as E; [|done]. intros _.
    split; [by eexists _, _|]. by rewrite E.
  - intros [(c & cs & E & Hc) HF]. assert (E2 := C50_unique _ _ _ HF HK). rewrite E in *. destruct c as [|x c]; [done|].
    rewrite <- E2. rewrite decide_True by (by rewrite fmap_length). by rewrite decide_True.
Qed.

(** Any other item is rejected with InvalidArgument and the table stays as it
    was. *)
Theorem C50_rejects {F : FP} t now d it : 
  ~ ((exists c cs, it_traj it = c :: cs /\ c <> []) /\ first_use_order (sl_key <$> concat (it_traj it)) (ck_key <$> it_chunks it)) ->
  step t (OInsert now d it) = Some (RStatus InvalidArgument, t).
Proof.
  rewrite <- C50_accepts. intros H. cbn. unfold insert_or_assign. rewrite bool_decide_false by done. cbn. do 2 f_equal. f_equal.
  unfold check_item_validity in *. repeat case_match; done.
Qed.

(** ** C36 *)

Section Window.
Context {A : Type} (rows : Z -> list A).

(** The chunks with their lengths, the way the function is called. *)
Definition with_lengths (keys : list Z) : list (Z * Z) := (fun k => (k, Z.of_nat (length (rows k)))) <$> keys.
(** All rows of some chunks, the rows of a slice. *)
Definition all_rows (keys : list Z) : list A := concat (rows <$> keys).
Definition slice_rows (s : slice) : list A := take (Z.to_nat (sl_len s)) (drop (Z.to_nat (sl_off s)) (rows (sl_key s))).
Definition slice_within (s : slice) : Prop := 0 <= sl_off s /\ 0 <= sl_len s /\ sl_off s + sl_len s <= Z.of_nat (length (rows (sl_key s))).

(** The window of [length] rows from [offset] is within the chunks, starts in the
    first and ends in the last of them. *)
Definition window_of (keys : list Z) (offset length : Z) : Prop :=
  exists first, keys !! 0%nat = Some first /\ 0 <= offset < Z.of_nat (base.length (rows first)) /\ 0 < length /\
  Z.of_nat (base.length (all_rows (take (base.length keys - 1) keys))) < offset + length <= Z.of_nat (base.length (all_rows keys)).

Lemma all_rows_cons k ks : all_rows (k :: ks) = rows k ++ all_rows ks.
Proof. done. Qed.
Lemma all_rows_app k1 k2 : all_rows (k1 ++ k2) = all_rows k1 ++ all_rows k2.
Proof. unfold all_rows. by rewrite fmap_app, concat_app. Qed.

Lemma column_ok idx k ks off rem : 0 <= off <= Z.of_nat (length (rows k)) -> 0 < rem ->
  Z.of_nat (length (all_rows (take (length ks) (k :: ks)))) < off + rem <= Z.of_nat (length (all_rows (k :: ks))) ->
  exists col, timestep_column idx (with_lengths (k :: ks)) off rem = Some col /\
    sl_key <$> col = k :: ks /\ Forall (fun s => slice_within s /\ sl_idx s = idx) col /\
    sl_off <$> col = off :: (const 0 <$> ks) /\
    foldr Z.add 0 (sl_len <$> col) = rem /\
    concat (slice_rows <$> col) = take (Z.to_nat rem) (drop (Z.to_nat off) (all_rows (k :: ks))).
Proof.
  revert k off rem. induction ks as [|k2 ks IH]; intros k off rem Hoff Hrem Hw.
  - cbn [with_lengths fmap list_fmap timestep_column]. rewrite decide_True by done. rewrite all_rows_cons, app_length in Hw. cbn [all_rows fmap list_fmap concat length] in Hw.
    rewrite Z.min_r by lia. rewrite decide_True by lia. cbn [mbind option_bind]. eexists. split; [done|].
    cbn [fmap list_fmap sl_key sl_off sl_len foldr concat]. split; [done|]. split.
    { constructor; [|constructor]. split; [|done]. unfold slice_within. cbn. lia. }
    split; [done|]. split; [lia|]. unfold all_rows. cbn [fmap list_fmap concat]. by rewrite !app_nil_r.
  - cbn [length] in Hw. change (take (S (length ks)) (k :: k2 :: ks)) with (k :: take (length ks) (k2 :: ks)) in Hw.
    rewrite !(all_rows_cons k), !app_length in Hw.
    unfold with_lengths. rewrite fmap_cons. cbn [timestep_column]. rewrite decide_True by done. rewrite Z.min_l by lia.
    set (l := (Z.of_nat (length (rows k)) - off)) in *.
    destruct (IH k2 0 (rem - l)) as (col & Hcol & Hk & Hf & Ho & Hs & Hr); [lia|lia|lia|].
    unfold with_lengths in Hcol. rewrite Hcol. cbn [mbind option_bind]. eexists. split; [done|].
    rewrite !fmap_cons. cbn [sl_key sl_off sl_len foldr concat]. rewrite Hk. split; [done|]. split.
    { constructor; [|done]. split; [|done]. unfold slice_within. cbn. lia. }
    split; [by rewrite Ho|]. split; [lia|]. rewrite Hr. unfold slice_rows. cbn [sl_key sl_off sl_len].
    rewrite (all_rows_cons k (k2 :: ks)). rewrite (drop_app_le (rows k)) by lia. rewrite take_app_ge by (rewrite drop_length; lia).
    rewrite (take_ge (drop (Z.to_nat off) (rows k))) by (rewrite drop_length; lia). f_equal.
    rewrite drop_0. f_equal. rewrite drop_length. lia.
Qed.

Lemma window_column idx keys off len : window_of keys off len ->
  exists col, timestep_column idx (with_lengths keys) off len = Some col /\
    sl_key <$> col = keys /\ Forall (fun s => slice_within s /\ sl_idx s = idx) col /\
    sl_off <$> col = off :: (const 0 <$> tail keys) /\
    foldr Z.add 0 (sl_len <$> col) = len /\
    concat (slice_rows <$> col) = take (Z.to_nat len) (drop (Z.to_nat off) (all_rows keys)).
Proof.
  intros (k & Hk & Ho & Hl & Hw). destruct keys as [|k' ks]; [done|]. injection Hk as ->.
  cbn [length] in Hw. rewrite Nat.sub_succ, Nat.sub_0_r in Hw. apply column_ok; [lia|done|done].
Qed.

Lemma columns_ok first n chunks off len :
  (forall idx, is_Some (timestep_column idx chunks off len)) ->
  exists tr, timestep_columns n first chunks off len = Some tr /\ length tr = n /\
    forall c col, tr !! c = Some col -> timestep_column (first + Z.of_nat c) chunks off len = Some col.
Proof.
  intros H. revert first. induction n as [|n IH]; intros first; cbn [timestep_columns]; [by exists []|].
  destruct (H first) as [col Hcol]. rewrite Hcol. cbn [mbind option_bind]. destruct (IH (first + 1)) as (tr & -> & Hl & Hc).
  cbn [mbind option_bind]. eexists. split; [done|]. split; [cbn; lia|]. intros [|c] col'; cbn.
  - intros [= <-]. by rewrite Z.add_0_r.
  - intros Hc'. rewrite <- (Hc c col' Hc'). f_equal. lia.
Qed.

(** The slices of column after column are parts of the chunks that together are
    the rows of the window. *)
Theorem C36_window_partial keys num_columns offset length : window_of keys offset length ->
  exists tr, flat_timestep_trajectory (with_lengths keys) num_columns offset length = Some tr /\
    base.length tr = num_columns /\
    forall c col, tr !! c = Some col ->
      sl_key <$> col = keys /\ Forall (fun s => slice_within s /\ sl_idx s = Z.of_nat c) col /\
      concat (slice_rows <$> col) = take (Z.to_nat length) (drop (Z.to_nat offset) (all_rows keys)).
Proof.
  intros Hw. destruct (columns_ok 0 num_columns (with_lengths keys) offset length) as (tr & Htr & Hl & Hc).
  { intros idx. destruct (window_column idx _ _ _ Hw) as (col & Hcol & _). by exists col. }
  exists tr. split; [done|]. split; [done|]. intros c col Hcol. specialize (Hc c col Hcol). rewrite Z.add_0_l in Hc.
  destruct (window_column (Z.of_nat c) _ _ _ Hw) as (col' & Hcol' & H1 & H2 & _ & _ & H3). rewrite Hc in Hcol'. injection Hcol' as <-. done.
Qed.

Lemma foldl_foldr_add (l : list Z) a : foldl Z.add a l = a + foldr Z.add 0 l.
Proof. revert a. induction l as [|x l IH]; intros a; cbn; [lia|]. rewrite IH. lia. Qed.

(** The result is recognised as a trajectory of timesteps; offset and length are
    read off it. *)
Theorem C36_recognised keys num_columns offset length tr : window_of keys offset length -> (0 < num_columns)%nat ->
  flat_timestep_trajectory (with_lengths keys) num_columns offset length = Some tr ->
  is_timestep_trajectory tr = true /\ timestep_trajectory_offset tr = Some offset /\ timestep_trajectory_length tr = Some length /\
  forall c, (c < num_columns)%nat -> column_length tr c = Some length.
Proof.
  intros Hw Hn Htr. destruct (columns_ok 0 num_columns (with_lengths keys) offset length) as (tr' & Htr' & Hl & Hc).
  { intros idx. destruct (window_column idx _ _ _ Hw) as (col & Hcol & _). by exists col. }
  unfold flat_timestep_trajectory in Htr. rewrite Htr in Htr'. injection Htr' as <-.
  assert (HW : forall c col, tr !! c = Some col -> sl_key <$> col = keys /\ Forall (fun s => sl_idx s = Z.of_nat c) col /\
                 sl_off <$> col = offset :: (const 0 <$> tail keys) /\ foldr Z.add 0 (sl_len <$> col) = length).
  { intros c col Hcol. specialize (Hc c col Hcol). rewrite Z.add_0_l in Hc.
    destruct (window_column (Z.of_nat c) _ _ _ Hw) as (col' & Hcol' & H1 & H2 & H3 & H4 & _). rewrite Hc in Hcol'. injection Hcol' as <-.
    split; [done|]. split; [|done]. apply (Forall_impl _ _ _ H2). by intros s [_ ?]. }
  assert (HL : forall c, (c < num_columns)%nat -> column_length tr c = Some length).
  { intros c Hc'. unfold column_length. destruct (lookup_lt_is_Some_2 tr c) as [col Hcol]; [lia|]. rewrite Hcol. cbn [mbind option_bind].
    rewrite foldl_foldr_add. by destruct (HW c col Hcol) as (_ & _ & _ & ->). }
  destruct tr as [|c0 tr]; [cbn in Hl; lia|]. destruct (HW 0%nat c0 eq_refl) as (K0 & I0 & O0 & L0). split; [|split; [|split; [by apply HL|done]]].
  - unfold is_timestep_trajectory. apply andb_true_iff. split.
    + apply forallb_forall. intros s Hs%elem_of_list_In. destruct c0 as [|s0 c0]; [done|]. cbn [tail] in Hs. rewrite fmap_cons in O0.
      injection O0 as _ O0. assert (sl_off s ∈ sl_off <$> c0) as Hin by (by apply elem_of_list_fmap_1). rewrite O0 in Hin.
      apply elem_of_list_fmap in Hin as (? & -> & _). done.
    + apply forallb_forall. intros b Hb%elem_of_list_In. apply elem_of_lookup_imap_1 in Hb as (c & col & -> & Hcol).
      specialize (Hc c col Hcol) as Hcc. rewrite Z.add_0_l in Hcc. destruct (HW c col Hcol) as (Kc & Ic & Oc & Lc).
      assert (Hlens : base.length col = base.length c0) by (by rewrite <- (fmap_length sl_key), Kc, <- K0, fmap_length).
      apply andb_true_iff. split; [by apply Nat.eqb_eq|].
      assert (Hlen : sl_len <$> col = sl_len <$> c0).
      { specialize (Hc 0%nat c0 eq_refl). clear -Hcc Hc. cbn in Hc. revert Hcc Hc. generalize offset length (with_lengths keys).
        intros o r l. revert o r col c0. induction l as [|[k n] l IH]; intros o r col c0; cbn [timestep_column].
        - case_decide; [|done]. by intros [= <-] [= <-].
        - case_decide; [|done]. destruct (timestep_column (Z.of_nat c) l 0 _) as [x|] eqn:Ex; [|done]. destruct (timestep_column (0 + Z.of_nat 0) l 0 _) as [y|] eqn:Ey; [|done].
          cbn. intros [= <-] [= <-]. cbn. f_equal. by apply (IH _ _ _ _ Ex Ey). }
      apply forallb_forall. intros [s f] Hin%elem_of_list_In. cbn [fst snd].
      assert (HP : exists i, col !! i = Some s /\ c0 !! i = Some f).
      { clear -Hin. revert c0 Hin. induction col as [|x col IH]; intros [|y c0] Hin; cbn in Hin; try (by apply elem_of_nil in Hin).
        apply elem_of_cons in Hin as [[= -> ->]|Hin]; [by exists 0%nat|]. destruct (IH _ Hin) as [i Hi]. by exists (S i). }
      destruct HP as (i & Hs & Hf).
      assert (HE : forall (g : slice -> Z), g <$> col = g <$> c0 -> g s = g f).
      { intros g Hg. assert (H1 : (g <$> col) !! i = Some (g s)) by (by rewrite list_lookup_fmap, Hs).
        rewrite Hg, list_lookup_fmap, Hf in H1. by injection H1. }
      unfold same_slice. rewrite (HE sl_key) by congruence. rewrite (HE sl_off) by congruence. rewrite (HE sl_len) by done.
      rewrite Forall_lookup in Ic. rewrite (Ic i s Hs). by rewrite !Z.eqb_refl.
  - unfold timestep_trajectory_offset. cbn. destruct c0 as [|s0 c0]; [done|]. rewrite fmap_cons in O0. injection O0 as O0 _. cbn. by rewrite O0.
Qed.
End Window.

(** Windows that end before the last chunk kill the process. *)
Theorem C36_crash {A} (rows : Z -> list A) keys num_columns offset length :
  (0 < num_columns)%nat -> (exists first, keys !! 0%nat = Some first /\ 0 <= offset < Z.of_nat (base.length (rows first))) ->
  0 < length -> offset + length <= Z.of_nat (base.length (all_rows rows (take (base.length keys - 1) keys))) ->
  flat_timestep_trajectory (with_lengths rows keys) num_columns offset length = None.
Proof.
  intros Hn (k & Hk & Ho) Hl Hw. destruct num_columns as [|n]; [lia|]. unfold flat_timestep_trajectory. cbn [timestep_columns].
  enough (timestep_column 0 (with_lengths rows keys) offset length = None) as -> by done.
  destruct keys as [|k' ks]; [done|]. injection Hk as ->. cbn [base.length] in Hw. rewrite Nat.sub_succ, Nat.sub_0_r in Hw.
  assert (Ho' : 0 <= offset <= Z.of_nat (base.length (rows k))) by lia. clear Ho Hn. revert k offset length Ho' Hl Hw.
  induction ks as [|k2 ks IH]; intros k off rem Ho Hr Hw; [cbn in Hw; lia|].
  cbn [base.length] in Hw. change (take (S (base.length ks)) (k :: k2 :: ks)) with (k :: take (base.length ks) (k2 :: ks)) in Hw.
  rewrite all_rows_cons, app_length in Hw. unfold with_lengths in *. rewrite fmap_cons. cbn [timestep_column]. rewrite decide_True by done.
  destruct (decide (rem <= Z.of_nat (base.length (rows k)) - off)) as [Hle|Hle].
  - rewrite Z.min_r by done. rewrite Z.sub_diag, fmap_cons. cbn [timestep_column]. by rewrite decide_False by lia.
  - rewrite Z.min_l by lia. rewrite (IH k2); [done|lia|lia|lia].
Qed.

(** Windows that start after the first chunk are answered with slices outside of
    the chunks. *)
Definition rows1 (k : Z) : list Z := if decide (k = 7) then [70; 71] else [80; 81; 82; 83; 84].
Theorem C36_window_refuted :
  ~ forall (rows : Z -> list Z) keys num_columns offset length,
      0 <= offset -> 0 < length -> offset + length <= Z.of_nat (base.length (all_rows rows keys)) ->
      exists tr, flat_timestep_trajectory (with_lengths rows keys) num_columns offset length = Some tr /\
        forall c col, tr !! c = Some col ->
          Forall (slice_within rows) col /\
          concat (slice_rows rows <$> col) = take (Z.to_nat length) (drop (Z.to_nat offset) (all_rows rows keys)).
Proof.
  intros H. destruct (H rows1 [7; 8] 1%nat 3 2) as (tr & Htr & Hc); [lia|lia|by vm_compute|].
  vm_compute in Htr. injection Htr as <-. destruct (Hc 0%nat _ eq_refl) as [Hf _].
  apply Forall_cons in Hf as [(_ & Hf & _) _]. cbn in Hf. lia.
Qed.

(** ** Concrete cases *)

Example C36_example : window_of rows1 [7; 8] 1 3 /\
  flat_timestep_trajectory (with_lengths rows1 [7; 8]) 2 1 3 =
    Some [[mkSlice 7 1 1 0; mkSlice 8 0 2 0]; [mkSlice 7 1 1 1; mkSlice 8 0 2 1]].
Proof. split; [|by vm_compute]. exists 7. split; [done|]. by vm_compute. Qed.

Example C36_crash_example : flat_timestep_trajectory (with_lengths rows1 [8; 7]) 1 0 4 = None.
Proof. by vm_compute. Qed.

(** A trajectory that is not one of timesteps. *)
Example is_timestep_gap : is_timestep_trajectory [[mkSlice 7 1 1 0; mkSlice 8 1 2 0]] = false.
Proof. done. Qed.

Example C50_example : get_chunk_keys [[mkSlice 5 0 1 0; mkSlice 3 0 1 0]; [mkSlice 5 1 1 0; mkSlice 4 1 1 0; mkSlice 3 0 2 0]] = [5; 3; 4].
Proof. by vm_compute. Qed.
Example C50_accepts_example :
  check_item_validity (mkItem 1 (Fin 1) 0 (0, 0) [mkChunk 5 0; mkChunk 3 0] [[mkSlice 5 0 1 0; mkSlice 3 0 1 0]; [mkSlice 5 1 1 0]]) = Ok /\
  check_item_validity (mkItem 1 (Fin 1) 0 (0, 0) [mkChunk 3 0; mkChunk 5 0] [[mkSlice 5 0 1 0; mkSlice 3 0 1 0]; [mkSlice 5 1 1 0]]) = InvalidArgument /\
  check_item_validity (mkItem 1 (Fin 1) 0 (0, 0) [mkChunk 5 0] [[]; [mkSlice 5 1 1 0]]) = InvalidArgument.
Proof. by vm_compute. Qed.

Print Assumptions C50_keys.
Print Assumptions C50_unique.
Print Assumptions C50_accepts.
Print Assumptions C50_rejects.
Print Assumptions C36_window_partial.
Print Assumptions C36_recognised.
Print Assumptions C36_crash.
Print Assumptions C36_window_refuted.
