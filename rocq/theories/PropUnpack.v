(** C78: what a reference to a slice of a chunk yields, and which references are
    refused. *)
From Verif Require Import Base Trajectory Tensor TrajUtil Sample Stream PropDelta PropStream.
Local Open Scope Z_scope.

(** ** Specification *)

(** Columns as a writer puts them in a chunk: at least one row each. *)
Definition packable (t : tensor) (rows : nat) : Prop :=
  tensor_ok t /\ (1 <= rows)%nat /\ exists sh, t_shape t = rows :: sh.

(** [c] holds the columns [cols], encoded or as they are. *)
Definition holds (c : chunk_data) (cols : list tensor) : Prop :=
  Forall (fun t => exists n, packable t n) cols /\
  (if cd_delta c then delta_encode_list cols true = Some (cd_tensors c) else cd_tensors c = cols).

(** [r] is rows [off], ..., [off + len - 1] of [t], element by element. *)
Definition is_rows (t : tensor) (off len : nat) (r : tensor) : Prop :=
  exists d sh, t_shape t = d :: sh /\ t_ty r = t_ty t /\ t_shape r = len :: sh /\ length (t_data r) = (len * Tensor.elements sh)%nat /\
  forall i j, (i < len)%nat -> (j < Tensor.elements sh)%nat ->
    t_data r !! (i * Tensor.elements sh + j)%nat = t_data t !! ((off + i) * Tensor.elements sh + j)%nat.

(** The reference (column, offset, length) points outside of the columns. *)
Definition outside (cols : list tensor) (column offset len : Z) : Prop :=
  column < 0 \/ Z.of_nat (length cols) <= column \/ offset < 0 \/
  exists t rows, cols !! Z.to_nat column = Some t /\ packable t rows /\ Z.of_nat rows < offset + len.

(** ** Chunks *)

Lemma encoded_lookup cols es : delta_encode_list cols true = Some es -> length es = length cols /\
  forall i t, cols !! i = Some t -> exists e, es !! i = Some e /\ delta_encode t true = Some e.
Proof.
  revert es. induction cols as [|t cols IH]; intros es; cbn [delta_encode_list].
  - intros [= <-]. split; [done|]. intros i t. by rewrite lookup_nil.
  - destruct (delta_encode t true) as [e|] eqn:E; cbn [mbind option_bind]; [|done].
    destruct (delta_encode_list cols true) as [es'|]; cbn [mbind option_bind]; [|done]. intros [= <-].
    destruct (IH es' eq_refl) as [H1 H2]. split; [cbn; by rewrite H1|].
    intros [|i] u Hu; [injection Hu as <-; by exists e|]. by apply H2.
Qed.

Lemma holds_length c cols : holds c cols -> length (cd_tensors c) = length cols.
Proof. intros [_ H]. destruct (cd_delta c); [by apply encoded_lookup in H as [H _]|by rewrite H]. Qed.

Lemma unpack_column c cols column t : holds c cols -> 0 <= column -> cols !! Z.to_nat column = Some t ->
  unpack_chunk_column c column = UOk t.
Proof.
  intros Hh H0 Ht. pose proof (holds_length _ _ Hh) as Hl. unfold unpack_chunk_column.
  pose proof (lookup_lt_Some _ _ _ Ht) as Hlt.
  rewrite decide_False by (rewrite Hl; lia). destruct Hh as [Hf Hh]. destruct (cd_delta c).
  - destruct (encoded_lookup _ _ Hh) as [_ He]. destruct (He _ _ Ht) as (e & -> & E).
    destruct (Forall_lookup_1 _ _ _ _ Hf Ht) as (n & P1 & P2 & sh & P3).
    destruct (C31_lossless t n sh P1 P3 P2) as (e' & E1 & _ & _ & _ & E2). rewrite E in E1. injection E1 as <-. by rewrite E2.
  - by rewrite Hh, Ht.
Qed.

Lemma packable_fun t n m : packable t n -> packable t m -> n = m.
Proof. intros (_ & _ & sh & E1) (_ & _ & sh' & E2). congruence. Qed.

(** The three outcomes, decided by the numbers. *)
Lemma unpack_cases c cols column offset len : holds c cols ->
  (outside cols column offset len /\ unpack_chunk_column_and_slice c column offset len = UInvalid) \/
  (~ outside cols column offset len /\ len < 0 /\ unpack_chunk_column_and_slice c column offset len = UCrash) \/
  (~ outside cols column offset len /\ 0 <= len /\ exists t r, cols !! Z.to_nat column = Some t /\
     unpack_chunk_column_and_slice c column offset len = UOk r /\ is_rows t (Z.to_nat offset) (Z.to_nat len) r).
Proof.
  intros Hh. pose proof (holds_length _ _ Hh) as Hl.
  destruct (decide (column < 0 \/ Z.of_nat (length cols) <= column)) as [Ho|Ho].
  { left. split; [unfold outside; tauto|]. unfold unpack_chunk_column_and_slice, unpack_chunk_column.
    rewrite decide_True by (rewrite Hl; lia). done. }
  destruct (lookup_lt_is_Some_2 cols (Z.to_nat column)) as [t Ht]; [lia|].
  pose proof (unpack_column c cols column t Hh ltac:(lia) Ht) as Hu.
  destruct (Forall_lookup_1 _ _ _ _ (proj1 Hh) Ht) as (n & Hp). pose proof Hp as (P1 & P2 & sh & P3).
  unfold unpack_chunk_column_and_slice. rewrite Hu, P3.
  destruct (decide (offset < 0 \/ Z.of_nat n < offset + len)) as [Hs|Hs].
  { left. split; [|done]. destruct Hs as [Hs|Hs]; [right; right; by left|]. right; right; right. by exists t, n. }
  assert (Hn : ~ outside cols column offset len).
  { intros [?|[?|[?|(t' & m & E1 & E2 & E3)]]]; [tauto|tauto|tauto|]. rewrite Ht in E1. injection E1 as <-.
    rewrite (packable_fun _ _ _ E2 Hp) in E3. tauto. }
  right. unfold tensor_slice. rewrite P3. destruct (decide (len < 0)) as [H0|H0].
  { left. split; [done|]. split; [done|]. rewrite decide_False by lia. done. }
  right. split; [done|]. split; [lia|]. rewrite decide_True by lia. eexists t, _. split; [done|]. split; [done|].
  destruct P1 as [P1 _]. rewrite P3 in P1. cbn [Tensor.elements foldr] in P1. fold (Tensor.elements sh) in P1.
  replace (Z.to_nat (offset + len - offset)) with (Z.to_nat len) by lia.
  exists n, sh. split; [done|]. split; [done|]. split; [done|]. cbn [t_data].
  assert (Z.to_nat offset + Z.to_nat len <= n)%nat by lia.
  split; [rewrite take_length, drop_length, P1; nia|].
  intros i j Hi Hj. rewrite lookup_take by nia. rewrite lookup_drop. f_equal. lia.
Qed.

(** A reference within the chunk gives the rows it names. *)
Theorem C78_slice c cols column offset len t rows : holds c cols ->
  0 <= column -> cols !! Z.to_nat column = Some t -> packable t rows -> 0 <= offset -> 0 <= len -> offset + len <= Z.of_nat rows ->
  exists r, unpack_chunk_column_and_slice c column offset len = UOk r /\ is_rows t (Z.to_nat offset) (Z.to_nat len) r.
Proof.
  intros Hh Hc Ht Hp H0 Hl Hr. destruct (unpack_cases c cols column offset len Hh) as [[Ho _]|[(_ & ? & _)|(_ & _ & t' & r & E1 & E2 & E3)]]; [|lia|].
  - exfalso. destruct Ho as [?|[?|[?|(t' & m & E1 & E2 & E3)]]]; [lia|apply lookup_lt_Some in Ht; lia|lia|].
    rewrite Ht in E1. injection E1 as <-. rewrite (packable_fun _ _ _ E2 Hp) in E3. lia.
  - rewrite Ht in E1. injection E1 as <-. by exists r.
Qed.

(** Exactly the references that point outside are refused with InvalidArgument. *)
Theorem C78_refused c cols column offset len : holds c cols ->
  unpack_chunk_column_and_slice c column offset len = UInvalid <-> outside cols column offset len.
Proof.
  intros Hh. destruct (unpack_cases c cols column offset len Hh) as [[Ho E]|[(Ho & _ & E)|(Ho & _ & t & r & _ & E & _)]];
    rewrite E; split; intros H; done.
Qed.

(** UnpackChunkColumn alone (CellRef::GetData). *)
Theorem C78_column c cols column : holds c cols ->
  (forall t, 0 <= column -> cols !! Z.to_nat column = Some t -> unpack_chunk_column c column = UOk t) /\
  (column < 0 \/ Z.of_nat (length cols) <= column -> unpack_chunk_column c column = UInvalid).
Proof.
  intros Hh. split; [intros t H0 Ht; by apply (unpack_column c cols)|]. intros Ho. unfold unpack_chunk_column.
  rewrite (holds_length _ _ Hh), decide_True by lia. done.
Qed.

(** A negative length that leaves the end inside is not refused: the slice
    operation of TensorFlow aborts the process.  This is the only case. *)
Theorem C78_crash_iff c cols column offset len : holds c cols ->
  unpack_chunk_column_and_slice c column offset len = UCrash <-> ~ outside cols column offset len /\ len < 0.
Proof.
  intros Hh. destruct (unpack_cases c cols column offset len Hh) as [[Ho E]|[(Ho & Hl & E)|(Ho & Hl & t & r & _ & E & _)]];
    rewrite E; split; intros H; try done; [tauto|lia].
Qed.

(** ** Items *)

(** The item has a slice that points outside of its chunk. *)
Definition bad_slice (s : sampled_item) (cols : Z -> list tensor) (x : slice) : Prop :=
  x ∈ concat (si_traj (sp_info s)) /\ outside (cols (sl_key x)) (sl_idx x) (sl_off x) (sl_len x).

Section item.
  Context (full : gmap Z chunk_data) (cols : Z -> list tensor).
  Definition full_ok (x : slice) : Prop := 0 <= sl_len x /\ exists c, full !! sl_key x = Some c /\ holds c (cols (sl_key x)).
  Definition out_x (x : slice) : Prop := outside (cols (sl_key x)) (sl_idx x) (sl_off x) (sl_len x).

  Lemma local_slices_cases sl : Forall full_ok sl ->
    (Exists out_x sl /\ local_slices sl full = SlError) \/
    (~ Exists out_x sl /\ exists ts a b, local_slices sl full = SlOk ts a b /\ length ts = length sl).
  Proof.
    induction 1 as [|x sl [Hl (c & Hc & Hh)] Hf IH]; cbn [local_slices].
    - right. split; [by intros H%Exists_nil|]. eexists [], ∅, ∅. done.
    - rewrite Hc. destruct (unpack_cases c _ (sl_idx x) (sl_off x) (sl_len x) Hh) as [[Ho E]|[(_ & ? & _)|(Ho & _ & t & r & _ & E & _)]]; [|lia|].
      + rewrite E. left. split; [by left|done].
      + rewrite E. destruct IH as [[H1 H2]|(H1 & ts & a & b & H2 & H3)]; rewrite H2.
        * left. split; [by right|done].
        * right. split; [by intros [?|?]%Exists_cons|]. eexists _, _, _. split; [done|]. cbn. by rewrite H3.
  Qed.
  Lemma local_traj_cases tr : Forall full_ok (concat tr) ->
    (Exists out_x (concat tr) /\ local_traj tr full = ClError) \/
    (~ Exists out_x (concat tr) /\ exists cs, local_traj tr full = ClOk cs /\ Forall2 (fun ts sl => length ts = length sl) cs tr).
  Proof.
    induction tr as [|sl tr IH]; cbn [concat local_traj].
    - intros _. right. split; [by intros H%Exists_nil|]. exists []. by split.
    - intros [H1 H2]%Forall_app. destruct (local_slices_cases sl H1) as [[E1 E2]|(E1 & ts & a & b & E2 & E3)]; rewrite E2.
      + left. split; [apply Exists_app; by left|done].
      + destruct (IH H2) as [[F1 F2]|(F1 & cs & F2 & F3)]; rewrite F2.
        * left. split; [apply Exists_app; by right|done].
        * right. split; [by intros [?|?]%Exists_app|]. eexists. split; [done|]. by constructor.
  Qed.
End item.

Lemma item_full s cols : item_ok s -> Forall (fun x => 0 <= sl_len x) (concat (si_traj (sp_info s))) ->
  Forall (fun c => holds (kc_data c) (cols (kc_key c))) (sp_chunks s) ->
  Forall (full_ok (foldl (fun m c => <[kc_key c := kc_data c]> m) ∅ (sp_chunks s)) cols) (concat (si_traj (sp_info s))).
Proof.
  intros [Hk Hn] Hl Hc. destruct (keys_aux_nodup [] (traj_keys (si_traj (sp_info s)))) as [HN HE].
  fold (get_chunk_keys (si_traj (sp_info s))) in HN, HE. rewrite <- Hk in HN, HE.
  apply Forall_forall. intros x Hx. rewrite Forall_forall in Hl. rewrite Forall_forall in Hc. split; [by apply Hl|].
  assert (Hk2 : sl_key x ∈ kc_key <$> sp_chunks s).
  { apply HE. split; [|apply not_elem_of_nil]. unfold traj_keys. apply elem_of_list_fmap. by exists x. }
  apply elem_of_list_fmap in Hk2 as (c & E & Hin). exists (kc_data c). rewrite E. split; [|by apply Hc].
  apply (foldl_ins_lookup _ _ _ _ HN). left. by exists c.
Qed.

(** A sampled item with no reference outside of its chunks becomes a sample; with
    one, the client gets an error for it.  The client does not crash, in the
    process of the server or over a stream of messages.  Lengths are taken to be
    nonnegative. *)
Theorem C78_item_partial s cols g : item_ok s -> carries g s ->
  Forall (fun x => 0 <= sl_len x) (concat (si_traj (sp_info s))) ->
  Forall (fun c => holds (kc_data c) (cols (kc_key c))) (sp_chunks s) ->
  (exists first rest, si_traj (sp_info s) = first :: rest /\ first <> []) ->
  as_sample g = as_sample_local s /\
  ((exists x, bad_slice s cols x) -> as_sample_local s = AError) /\
  (~ (exists x, bad_slice s cols x) -> exists smp, as_sample_local s = AOk smp).
Proof.
  intros Hi Hg Hl Hc (first & rest & Hf & Hne). split; [by apply carries_local|].
  pose proof (item_full s cols Hi Hl Hc) as Hfull.
  unfold as_sample_local.
  destruct (local_traj_cases _ cols (si_traj (sp_info s)) Hfull) as [[E1 E2]|(E1 & cs & E2 & E3)]; rewrite E2; cbn [finish_sample].
  - split; [done|]. intros H. destruct H. apply Exists_exists in E1 as (x & H1 & H2). by exists x.
  - split; [intros (x & H1 & H2); destruct E1; apply Exists_exists; by exists x|]. intros _.
    rewrite Hf in E3. destruct cs as [|ts cs]; [by apply Forall2_nil_cons_inv in E3|]. apply Forall2_cons in E3 as [E3 _].
    destruct ts as [|t ts]; [destruct first; [done|discriminate]|]. unfold make_sample. by eexists.
Qed.

(** ** Examples *)

Definition ux_col : tensor := mkTensor (TInt 8 true) [3; 2]%nat [250; 1; 3; 0; 255; 128].
Definition ux_chunk : chunk_data := mkChunkData [mkTensor (TInt 8 true) [3; 2]%nat [250; 1; 9; 255; 252; 128]] true.
Example C78_holds : holds ux_chunk [ux_col].
Proof.
  split; [|vm_compute; reflexivity]. constructor; [|constructor]. exists 3%nat. split; [|split; [lia|by eexists]].
  split; [done|]. repeat constructor; cbn; lia.
Qed.
Example C78_example :
  unpack_chunk_column_and_slice ux_chunk 0 1 2 = UOk (mkTensor (TInt 8 true) [2; 2]%nat [3; 0; 255; 128]) /\
  unpack_chunk_column_and_slice ux_chunk 1 1 2 = UInvalid /\
  unpack_chunk_column_and_slice ux_chunk (-1) 1 2 = UInvalid /\
  unpack_chunk_column_and_slice ux_chunk 0 2 2 = UInvalid /\
  unpack_chunk_column_and_slice ux_chunk 0 (-1) 2 = UInvalid.
Proof. repeat split; vm_compute; reflexivity. Qed.

(** "A reference that does not fit is refused" is false of a negative length. *)
Theorem C78_negative_refuted : exists c cols column offset len, holds c cols /\ len < 0 /\
  unpack_chunk_column_and_slice c column offset len = UCrash.
Proof. exists ux_chunk, [ux_col], 0, 2, (-1). split; [apply C78_holds|]. split; [lia|]. vm_compute. reflexivity. Qed.

Definition ux_info (x : slice) : sinfo := mkSinfo (mkMeta 7 1 1 (Fin 1) false) [[mkSlice 11 0 2 0; x]] [false].
Definition ux_item (x : slice) : sampled_item := mkSampled (ux_info x) [mkKchunk 11 ux_chunk].
Example C78_item_example : item_ok (ux_item (mkSlice 11 2 1 0)) /\
  (exists smp, as_sample_local (ux_item (mkSlice 11 2 1 0)) = AOk smp) /\ as_sample_local (ux_item (mkSlice 11 2 1 1)) = AError /\
  as_sample_local (ux_item (mkSlice 11 2 2 0)) = AError.
Proof. split; [by split|]. split; [eexists; vm_compute; reflexivity|]. split; vm_compute; reflexivity. Qed.

Print Assumptions C78_slice.
Print Assumptions C78_refused.
Print Assumptions C78_column.
Print Assumptions C78_crash_iff.
Print Assumptions C78_item_partial.
Print Assumptions C78_negative_refuted.
