(** C88: datasets made from the signature of a table. *)
From stdpp Require Import strings pretty.
From Verif Require Import Base Signature PropSignature PyTree PropPyTree.
From Verif Require Import Trajectory Tensor Sample Chunker PropSample PropTraj TrajWriter PropTrajWriter SigCheck PropSigCheck Dataset PropDataset PyDataset.
Local Open Scope Z_scope.

(** ** Specification *)

(** A structure with tuples instead of lists. *)
Inductive tupled {A B} (R : A -> B -> Prop) : nest A -> nest B -> Prop :=
| tu_leaf a b : R a b -> tupled R (NLeaf a) (NLeaf b)
| tu_list l l' : Forall2 (tupled R) l l' -> tupled R (NList l) (NTuple l')
| tu_tuple l l' : Forall2 (tupled R) l l' -> tupled R (NTuple l) (NTuple l')
| tu_dict fs fs' fs'' : fs'' ≡ₚ fs' -> Forall2 (fun a b => fst a = fst b /\ tupled R (snd a) (snd b)) fs fs'' -> tupled R (NDict fs) (NDict fs')
| tu_named n fs fs' : Forall2 (fun a b => fst a = fst b /\ tupled R (snd a) (snd b)) fs fs' -> tupled R (NNamed n fs) (NNamed n fs').

(** A tensor and the entry of a signature it comes from.  [first]: the tensor has one
    more dimension in front. *)
Definition leaf_conforms (dt : Z -> dty) (sh : list Z -> pshape) (first : bool) (s : sleaf) (t : tensor) : Prop :=
  exists name ty dims, (s = LSpec name ty dims \/ s = LBounded name ty dims) /\ (if first then rows_conform else conforms) (mkTspec (dt ty) (sh dims)) t.
Definition is_batch (k : pkind) : bool := match k with PReplay _ false => true | _ => false end.
Definition rank_known (sh : list Z -> pshape) (s : sleaf) : Prop := exists name ty dims, (s = LSpec name ty dims \/ s = LBounded name ty dims) /\ sh dims <> None.
Definition all_specs (s : nest sleaf) : Prop := forallb is_spec (nflatten s) = true.

(** The tensors of an element. *)
Definition elem_cols (e : elem) : list tensor := match e with EStep d => d.2 | EBatch d => d.2 | ETraj d => d.2 end.

(** ** Tuples for lists *)

Section Tuples.
Context {A : Type}.
Lemma tuples_flat (d : nest A) : nflatten (lists_to_tuples d) = nflatten d.
Proof.
  assert (HL : forall l, Forall (fun d : nest A => nflatten (lists_to_tuples d) = nflatten d) l -> concat (List.map nflatten (List.map lists_to_tuples l)) = concat (List.map nflatten l)).
  { induction 1 as [|x l Hx _ IH]; [done|]. cbn. by rewrite Hx, IH. }
  assert (HF : forall l, Forall (fun kv : string * nest A => nflatten (lists_to_tuples (snd kv)) = nflatten (snd kv)) l ->
    concat (List.map (fun kv => nflatten (snd kv)) (List.map (fun kv => (fst kv, lists_to_tuples (snd kv))) l)) = concat (List.map (fun kv => nflatten (snd kv)) l)).
  { induction 1 as [|x l Hx _ IH]; [done|]. cbn. by rewrite Hx, IH. }
  induction d as [a|l IH|l IH|fs IH|n fs IH] using nest_ind2; [done|by apply HL|by apply HL| |by apply HF].
  cbn [lists_to_tuples]. rewrite !flatten_dict, sort_map. apply HF. by apply sort_in.
Qed.
Lemma tuples_wf (d : nest A) : nwf d -> nwf (lists_to_tuples d).
Proof.
  induction d as [a|l IH|l IH|fs IH|n fs IH] using nest_ind2; intros HW; inversion HW as [|? Hw|? Hw|? ND Hw|? ? Hw]; subst; constructor.
  - clear HW. induction Hw; [constructor|]. apply Forall_cons in IH as [? IH]. constructor; auto.
  - clear HW. induction Hw; [constructor|]. apply Forall_cons in IH as [? IH]. constructor; auto.
  - clear -ND. match goal with |- NoDup ?x => assert (x = fst <$> fs) as ->; [|done] end. clear. induction fs as [|x fs IH]; [done|]. cbn. cbn in IH. by rewrite IH.
  - clear HW ND. induction Hw; [constructor|]. apply Forall_cons in IH as [? IH]. constructor; auto.
  - clear HW. induction Hw; [constructor|]. apply Forall_cons in IH as [? IH]. constructor; auto.
Qed.
End Tuples.
Lemma tuples_rel {A B} (R : A -> B -> Prop) d : forall d', nrel R (lists_to_tuples d) d' -> tupled R d d'.
Proof.
  assert (HL : forall l l', Forall (fun d => forall d', nrel R (lists_to_tuples d) d' -> tupled R d d') l -> Forall2 (nrel R) (List.map lists_to_tuples l) l' -> Forall2 (tupled R) l l').
  { intros l l' IH. revert l'. induction IH as [|x l Hx _ IH]; intros l' H; [apply Forall2_nil_inv_l in H as ->; constructor|]. apply Forall2_cons_inv_l in H as (y & l1 & Hy & H & ->). constructor; auto. }
  assert (HF : forall (l : list (string * nest A)) (l' : list (string * nest B)), Forall (fun kv => forall d', nrel R (lists_to_tuples (snd kv)) d' -> tupled R (snd kv) d') l -> Forall2 (fun a b => fst a = fst b /\ nrel R (snd a) (snd b)) (List.map (fun kv => (fst kv, lists_to_tuples (snd kv))) l) l' ->
    Forall2 (fun a b => fst a = fst b /\ tupled R (snd a) (snd b)) l l').
  { intros l l' IH. revert l'. induction IH as [|x l Hx _ IH]; intros l' H; [apply Forall2_nil_inv_l in H as ->; constructor|]. apply Forall2_cons_inv_l in H as (y & l1 & [Hk Hy] & H & ->). constructor; [split; auto|auto]. }
  induction d as [a|l IH|l IH|fs IH|n fs IH] using nest_ind2; intros d' H; inversion H as [? b Hb|? l' Hl|? l' Hl|? fs' fs'' HP Hl|? ? fs' Hl]; subst.
  - by constructor.
  - constructor. by apply HL.
  - constructor. by apply HL.
  - apply (tu_dict R fs fs' fs''); [done|]. by apply HF.
  - constructor. by apply HF.
Qed.
Lemma tuples_shaped {A B} (R : A -> B -> Prop) d : forall d', nrel R d d' -> nrel R (lists_to_tuples d) (lists_to_tuples d').
Proof.
  assert (HL : forall l l', Forall (fun d => forall d', nrel R d d' -> nrel R (lists_to_tuples d) (lists_to_tuples d')) l -> Forall2 (nrel R) l l' -> Forall2 (nrel R) (List.map lists_to_tuples l) (List.map lists_to_tuples l')).
  { intros l l' IH. revert l'. induction IH as [|x l Hx _ IH]; intros l' H; [apply Forall2_nil_inv_l in H as ->; constructor|]. apply Forall2_cons_inv_l in H as (y & l1 & Hy & H & ->). cbn. constructor; auto. }
  assert (HF : forall (l : list (string * nest A)) (l' : list (string * nest B)), Forall (fun kv => forall d', nrel R (snd kv) d' -> nrel R (lists_to_tuples (snd kv)) (lists_to_tuples d')) l -> Forall2 (fun a b => fst a = fst b /\ nrel R (snd a) (snd b)) l l' ->
    Forall2 (fun a b => fst a = fst b /\ nrel R (snd a) (snd b)) (List.map (fun kv => (fst kv, lists_to_tuples (snd kv))) l) (List.map (fun kv => (fst kv, lists_to_tuples (snd kv))) l')).
  { intros l l' IH. revert l'. induction IH as [|x l Hx _ IH]; intros l' H; [apply Forall2_nil_inv_l in H as ->; constructor|]. apply Forall2_cons_inv_l in H as (y & l1 & [Hk Hy] & H & ->). cbn. constructor; [split; cbn; auto|auto]. }
  induction d as [a|l IH|l IH|fs IH|n fs IH] using nest_ind2; intros d' H; inversion H as [? b Hb|? l' Hl|? l' Hl|? fs' fs'' HP Hl|? ? fs' Hl]; subst; cbn [lists_to_tuples].
  - by constructor.
  - constructor. by apply HL.
  - constructor. by apply HL.
  - eapply nr_dict; [apply Permutation_map; exact HP|]. by apply HF.
  - constructor. by apply HF.
Qed.

(** ** Making a dataset *)

Lemma map_structure_ok {A B} (f : A -> B) s : nwf s -> exists s', map_structure f s = Some s' /\ nrel (fun a b => b = f a) s s' /\ nflatten s' = List.map f (nflatten s).
Proof.
  intros HW. destruct (C87_places (fun a b => b = f a) s s (List.map f (nflatten s)) HW) as (s' & E & H).
  - by apply nrel_refl.
  - clear. induction (nflatten s); cbn; by constructor.
  - exists s'. split; [done|]. split; [done|]. by eapply C87_flatten_unflatten.
Qed.
Lemma replay_flat {A} (a b c d : A) data : nflatten (replay_sample a b c d data) = a :: b :: c :: d :: nflatten data.
Proof. cbn. by rewrite app_nil_r. Qed.
Lemma replay_tuples {A} (a b c d : A) data : lists_to_tuples (replay_sample a b c d data) = replay_sample a b c d (lists_to_tuples data).
Proof. done. Qed.
Lemma replay_wf {A} (a b c d : A) data : nwf data -> nwf (replay_sample a b c d data).
Proof. intros H. constructor. constructor; [constructor; by repeat constructor|]. constructor; [done|constructor]. Qed.

Section Sig.
Context (dt : Z -> dty) (sh : list Z -> pshape).

Definition leaf_spec (k : pkind) (s : sleaf) : Chunker.tspec := Chunker.mkTspec (leaf_dtype dt s) (if is_batch k then concatenate (pk_length k) (leaf_shape sh s) else leaf_shape sh s).
Definition head_spec (k : pkind) : list Chunker.tspec := (fun ty => Chunker.mkTspec ty (info_shape k)) <$> [DT_UINT64; DT_DOUBLE; DT_INT64; DT_DOUBLE].
Definition ranks_ok (k : pkind) (s : nest sleaf) : Prop := is_batch k = true -> Forall (rank_known sh) (nflatten s).

Lemma zip_map {A B C D} (f : B -> C -> D) (g : A -> B) (h : A -> C) (l : list A) : zip_with f (List.map g l) (List.map h l) = List.map (fun a => f (g a) (h a)) l.
Proof. induction l as [|a l IH]; [done|]. cbn. by rewrite IH. Qed.
Lemma batch_ok_iff n s : is_spec s = true -> batch_dim_ok n (concatenate n (leaf_shape sh s)) = true <-> rank_known sh s.
Proof.
  intros HS. unfold rank_known. destruct s as [nm ty dims|nm ty dims|]; [| |done]; cbn [leaf_shape]; (destruct (sh dims) as [ds|] eqn:E; cbn [concatenate batch_dim_ok]; [rewrite bool_decide_eq_true|]; split; try done).
  - intros _. exists nm, ty, dims. split; [by left|by rewrite E].
  - intros (nm' & ty' & dims' & [[= <- <- <-]|[=]] & Hn). by destruct Hn.
  - intros _. exists nm, ty, dims. split; [by right|by rewrite E].
  - intros (nm' & ty' & dims' & [[=]|[= <- <- <-]] & Hn). by destruct Hn.
Qed.

Lemma init_shape k o (dtypes : nest dty) (shapes : nest pshape) : nwf shapes -> length (nflatten dtypes) = length (nflatten shapes) ->
  py_args_ok o (pk_length k) = true -> (is_batch k = true -> forallb (batch_dim_ok (pk_length k)) (nflatten shapes) = true) ->
  exists sd, py_init k o dtypes shapes = Some (mkPds (op_kind k) (DT_UINT64 :: DT_DOUBLE :: DT_INT64 :: DT_DOUBLE :: nflatten dtypes) (replicate 4 (info_shape k) ++ nflatten shapes) sd) /\
    exists data, data_of sd = Some data /\ nwf data /\ shaped (lists_to_tuples shapes) data /\ nflatten data = zip_with Chunker.mkTspec (nflatten dtypes) (nflatten shapes).
Proof.
  intros HW HL Ho Hb. unfold py_init. rewrite Ho. cbn [negb]. assert (E : match k with PReplay n false => negb (forallb (batch_dim_ok n) (nflatten shapes)) | _ => false end = false).
  { destruct k as [| |n [|]]; try done. specialize (Hb eq_refl). cbn in Hb. by rewrite Hb. }
  rewrite E. clear E. cbn zeta. unfold tf_dtypes. rewrite !replay_tuples, !replay_flat, !tuples_flat. cbn [zip_with].
  set (S := replay_sample _ _ _ _ (lists_to_tuples shapes)). assert (HS : nwf S) by (by apply replay_wf, tuples_wf).
  set (xs := _ :: _ :: _ :: _ :: zip_with _ _ _). assert (HX : length xs = length (nflatten S)). { unfold S, xs. rewrite replay_flat, tuples_flat. cbn. rewrite zip_with_length, HL, Nat.min_id. done. }
  destruct (proj2 (C87_count S xs HS) HX) as (sd & E & Hsd). rewrite E. cbn [mbind option_bind]. exists sd. split; [done|].
  pose proof (C87_flatten_unflatten S xs sd HS E) as HF. pose proof (nwf_rel _ _ _ Hsd HS) as Hwd. unfold S in Hsd. clear E HX HS. unfold replay_sample in Hsd.
  inversion Hsd as [| | | |? ? fs' Hl]; subst. apply Forall2_cons_inv_l in Hl as ([k1 i1] & l1 & [Hk1 Hi1] & Hl & ->). apply Forall2_cons_inv_l in Hl as ([k2 data] & l2 & [Hk2 Hd] & Hl & ->). apply Forall2_nil_inv_l in Hl as ->.
  exists data. split; [done|]. inversion Hwd as [| | | |? ? Hw]; subst. apply Forall_cons in Hw as [_ Hw]. apply Forall_cons in Hw as [Hwdata _]. cbn [snd fst] in *. split; [done|]. split; [done|].
  cbn [nflatten List.map concat snd] in HF. rewrite app_nil_r in HF. inversion Hi1 as [| | | |? ? fi Hfi]; subst.
  assert (HLi : exists a b c d, concat (List.map (fun kv : string * nest Chunker.tspec => nflatten (snd kv)) fi) = [a; b; c; d]).
  { clear -Hfi. do 4 (apply Forall2_cons_inv_l in Hfi as ([? ?] & ? & [_ H] & Hfi & ->); cbn [snd] in H; inversion H; subst; clear H). apply Forall2_nil_inv_l in Hfi as ->. cbn. by do 4 eexists. }
  destruct HLi as (a & b & c & d & HLi). cbn [nflatten] in HF. rewrite HLi in HF. unfold xs in HF. cbn in HF. by injection HF.
Qed.

(** The arguments that __init__ accepts are those that the op accepts, except that a
    timeout below -1 is refused. *)
Theorem C88_arguments o : py_args_ok o None = true <-> validate_sopts (op_options o) = Ok /\ -1 <= do_timeout o.
Proof.
  unfold py_args_ok, validate_sopts, op_options. cbn. destruct (Z.ltb_spec (do_in_flight o) 1); [split; [done|by intros [? _]]|].
  destruct ((do_workers o <? 1) && negb (do_workers o =? -1)); [split; [done|by intros [? _]]|]. destruct ((do_per_stream o <? 1) && negb (do_per_stream o =? -1)); [split; [done|by intros [? _]]|].
  destruct (Z.ltb_spec (do_timeout o) (-1)) as [Ht|Ht]; [split; [done|intros [_ ?]; lia]|].
  assert (match (if do_timeout o <? 0 then None else Some (do_timeout o)) with Some t => t <? 0 | None => false end = false) as -> by (destruct (Z.ltb_spec (do_timeout o) 0); [done|by apply Z.ltb_ge]).
  destruct ((do_flexible o <? 1) && negb (do_flexible o =? -1)); [split; [done|by intros [? _]]|]. split; [by split|done].
Qed.

Definition made (k : pkind) (s : nest sleaf) (d : pdataset) : Prop :=
  pd_kind d = op_kind k /\ pd_dtypes d = DT_UINT64 :: DT_DOUBLE :: DT_INT64 :: DT_DOUBLE :: List.map (leaf_dtype dt) (nflatten s) /\
  pd_shapes d = replicate 4 (info_shape k) ++ List.map (fun l => sp_shape (leaf_spec k l)) (nflatten s) /\
  exists data, data_of (pd_spec d) = Some data /\ nwf data /\ shaped (lists_to_tuples s) data /\ nflatten data = List.map (leaf_spec k) (nflatten s).
Lemma from_result k o s : nwf s -> all_specs s -> truthy s = true ->
  ((exists d, from_table_signature dt sh k o (Some (Some s)) = Some d) -> py_args_ok o (pk_length k) = true /\ ranks_ok k s) /\
  (py_args_ok o (pk_length k) = true -> ranks_ok k s -> exists d, from_table_signature dt sh k o (Some (Some s)) = Some d /\ made k s d).
Proof.
  intros HW HA HT. unfold from_table_signature. rewrite HT. cbn [negb].
  destruct (map_structure_ok (leaf_shape sh) s HW) as (shp & -> & Hr1 & Hf1). destruct (map_structure_ok (leaf_dtype dt) s HW) as (dts & -> & Hr2 & Hf2). cbn [mbind option_bind].
  assert (Hw1 : nwf shp) by exact (nwf_rel _ _ _ Hr1 HW).
  assert (H2 : exists shp2, match k with PReplay n false => map_structure (concatenate n) shp | _ => Some shp end = Some shp2 /\ nwf shp2 /\ shaped s shp2 /\
    nflatten shp2 = List.map (fun l => sp_shape (leaf_spec k l)) (nflatten s)).
  { assert (Hs : shaped s shp) by (eapply nrel_impl; [|exact Hr1]; done). destruct k as [| |n [|]]; try (exists shp; by rewrite Hf1). destruct (map_structure_ok (concatenate n) shp Hw1) as (shp2 & E & Hr & Hf). exists shp2. split; [done|]. split; [exact (nwf_rel _ _ _ Hr Hw1)|].
    split; [|rewrite Hf, Hf1, List.map_map; done]. eapply (nrel_trans (fun _ _ => True)); [|exact Hs|exact Hr]. done. }
  destruct H2 as (shp2 & -> & Hw2 & Hs2 & Hf3). cbn [mbind option_bind].
  assert (HB : is_batch k = true -> forallb (batch_dim_ok (pk_length k)) (nflatten shp2) = true <-> ranks_ok k s).
  { intros Hk. unfold ranks_ok. rewrite Hf3. unfold leaf_spec. cbn [sp_shape]. rewrite Hk. unfold all_specs in HA. clear -HA. induction (nflatten s) as [|l ls IH]; [split; [constructor|done]|]. cbn in HA |- *. apply andb_true_iff in HA as [HA1 HA2].
    rewrite andb_true_iff, (batch_ok_iff _ l HA1), (IH HA2). split; [intros [? ?] _; constructor; auto|]. intros H. specialize (H eq_refl). apply Forall_cons in H as [? ?]. auto. }
  split.
  - intros [d Hd]. unfold py_init in Hd. destruct (py_args_ok o (pk_length k)) eqn:Ho; [|done]. split; [done|]. intros Hk. apply HB; [done| |done].
    cbn [negb] in Hd. destruct k as [| |n [|]]; try done. cbn [pk_length]. by destruct (forallb (batch_dim_ok n) (nflatten shp2)).
  - intros Ho HR. destruct (init_shape k o dts shp2 Hw2) as (sd & E & data & D1 & D2 & D3 & D4); [|done|intros Hk; by apply HB|].
    { rewrite Hf3, Hf2. by rewrite !List.map_length. }
    eexists. split; [exact E|]. unfold made. cbn [pd_kind pd_dtypes pd_shapes pd_spec]. rewrite Hf2, Hf3. split; [done|]. split; [done|]. split; [done|]. exists data. split; [done|]. split; [done|]. split.
    + eapply (nrel_trans (fun _ _ => True)); [|apply tuples_shaped; exact Hs2|exact D3]. done.
    + rewrite D4, Hf2, Hf3, zip_map. done.
Qed.

(** from_table_signature fails (ValueError) exactly if an argument is out of range, the
    server does not name the table, the table has no signature (or an empty one), or
    sequences are to be emitted and a leaf has no rank. *)
Theorem C88_made k o info : (forall s, info = Some (Some s) -> nwf s /\ all_specs s) ->
  (exists d, from_table_signature dt sh k o info = Some d) <->
  py_args_ok o (pk_length k) = true /\ exists s, info = Some (Some s) /\ truthy s = true /\ (is_batch k = true -> Forall (rank_known sh) (nflatten s)).
Proof.
  intros Hinfo. destruct info as [[s|]|]; [|split; [by intros [? ?]|by intros (_ & ? & ? & _)]|split; [by intros [? ?]|by intros (_ & ? & ? & _)]].
  destruct (Hinfo s eq_refl) as [HW HA]. destruct (truthy s) eqn:HT; [|unfold from_table_signature; rewrite HT; split; [by intros [? ?]|intros (_ & ? & [= <-] & ? & _); congruence]].
  destruct (from_result k o s HW HA HT) as [F1 F2]. split.
  - intros H. destruct (F1 H) as [? ?]. split; [done|]. by exists s.
  - intros (Ho & s0 & [= <-] & _ & HR). destruct (F2 Ho HR) as (d & Hd & _). by exists d.
Qed.
Lemma from_made k o s d : nwf s -> all_specs s -> from_table_signature dt sh k o (Some (Some s)) = Some d -> made k s d /\ py_args_ok o (pk_length k) = true /\ ranks_ok k s.
Proof.
  intros HW HA Hd. assert (HT : truthy s = true) by (unfold from_table_signature in Hd; by destruct (truthy s)). destruct (from_result k o s HW HA HT) as [F1 F2]. destruct F1 as [Ho HR]; [by exists d|]. destruct (F2 Ho HR) as (d' & E & M). rewrite Hd in E. injection E as <-. done.
Qed.

(** element_spec has, at every place of the signature (with tuples for lists), the type and
    shape of the signature's leaf, with sequence_length in front of the shape if sequences are
    emitted. *)
Theorem C88_element_spec k o s d : nwf s -> all_specs s -> from_table_signature dt sh k o (Some (Some s)) = Some d ->
  exists data, data_of (pd_spec d) = Some data /\
    tupled (fun l sp => sp_ty sp = leaf_dtype dt l /\ sp_shape sp = if is_batch k then dims ← leaf_shape sh l; Some ((Z.to_nat <$> pk_length k) :: dims) else leaf_shape sh l) s data.
Proof.
  intros HW HA Hd. destruct (from_made k o s d HW HA Hd) as [(_ & _ & _ & data & D1 & D2 & D3 & D4) _]. exists data. split; [done|]. apply tuples_rel.
  pose proof (C87_unflatten (lists_to_tuples s) data (tuples_wf s HW) D3) as (d' & E & Hsame).
  destruct (C87_places (fun l sp => sp_ty sp = leaf_dtype dt l /\ sp_shape sp = if is_batch k then dims ← leaf_shape sh l; Some ((Z.to_nat <$> pk_length k) :: dims) else leaf_shape sh l) (lists_to_tuples s) (lists_to_tuples s) (nflatten data) (tuples_wf s HW)) as (d2 & E2 & Hrel).
  - by apply nrel_refl.
  - rewrite D4, tuples_flat. clear. induction (nflatten s) as [|l ls IH]; cbn; constructor; [|done]. unfold leaf_spec. cbn. split; [done|]. destruct (is_batch k); [|done]. by destruct (leaf_shape sh l).
  - rewrite E2 in E. injection E as ->. eapply (nrel_trans _ (fun b a => a = b)); [|exact Hrel|]. { by intros a b c ? ->. } apply nrel_sym. exact Hsame.
Qed.

Lemma flat_leaves s es : all_specs s -> flat_signature_top (sv_of s) = Some es -> List.map (flat_spec dt sh) es = List.map (fun l => Chunker.mkTspec (leaf_dtype dt l) (leaf_shape sh l)) (nflatten s).
Proof.
  intros HA He. destruct (all_flat s "" HA) as (es' & E & H). unfold flat_signature_top in He. rewrite He in E. injection E as <-. revert HA H. unfold all_specs. clear. revert es. induction (nflatten s) as [|l ls IH]; intros [|e es] HA H; try done.
  cbn in HA, H. apply andb_true_iff in HA as [HA1 HA2]. injection H as He Hes. cbn. rewrite (IH es HA2 Hes). f_equal. unfold flat_spec. destruct e as [en et es0]. destruct l as [nm ty dims|nm ty dims|]; [| |done]; cbn in *; by injection He as -> ->.
Qed.
Lemma pdims_refl p : pdims_compatible p p = true.
Proof. induction p as [|[a|] p IH]; cbn; [done| |done]. by rewrite Nat.eqb_refl. Qed.
Lemma spec_fits_refl sp : spec_fits sp sp = true.
Proof. unfold spec_fits, pshape_compatible. rewrite bool_decide_eq_true_2 by done. destruct (sp_shape sp); [apply pdims_refl|done]. Qed.
Lemma zip_replicate (l : list sleaf) f g : zip_with Chunker.mkTspec (DT_UINT64 :: DT_DOUBLE :: DT_INT64 :: DT_DOUBLE :: List.map f l) (replicate 4 (Some []) ++ List.map g l) = info_specs ++ List.map (fun l => Chunker.mkTspec (f l) (g l)) l.
Proof. cbn. by rewrite zip_map. Qed.

(** The dataset passes the checks of the op, and when the iterator is made and the server
    answers with the same signature, that signature is what samples are checked against. *)
Theorem C88_initialize k o s d es info m table : nwf s -> all_specs s -> from_table_signature dt sh k o (Some (Some s)) = Some d ->
  flat_signature_top (sv_of s) = Some es -> info_sigs (si_tables info) ∅ = Some m -> m !! table = Some (Some (List.map (flat_spec dt sh) es)) ->
  dataset_op (pd_kind d) (pd_shapes d) = Ok /\ validate_sopts (op_options o) = Ok /\
  (initialize (pd_kind d) (mkCache None 0) table (pd_dtypes d) (pd_shapes d) (RInfo info)).1 = inr (Some (info_specs ++ List.map (flat_spec dt sh) es)).
Proof.
  intros HW HA Hd He Hm Ht. destruct (from_made k o s d HW HA Hd) as ((Hk & Hdt & Hsh & _) & Ho & HR). rewrite Hk, Hdt, Hsh.
  assert (Ho' : py_args_ok o None = true). { revert Ho. unfold py_args_ok. destruct (do_in_flight o <? 1); [done|]. destruct (_ && _); [done|]. destruct (_ && _); [done|]. destruct (match pk_length k with Some n => n <? 1 | None => false end); [done|]. done. }
  split; [|split; [by apply C88_arguments|]].
  - destruct k as [| |n [|]]; try done. cbn [op_kind dataset_op]. specialize (HR eq_refl). assert (Hn : forall ds, dim_size0 (Some (dim_of n :: ds)) = match n with Some 0 | None => -1 | Some n => n end).
    { intros ds. destruct n as [n|]; [|done]. cbn. unfold py_args_ok in Ho. cbn in Ho. destruct (do_in_flight o <? 1); [done|]. destruct (_ && _); [done|]. destruct (_ && _); [done|]. destruct (Z.ltb_spec n 1); [done|]. destruct n; lia. }
    assert (forallb (fun sh0 => negb (bool_decide (sh0 = Some [])) && (dim_size0 sh0 =? match n with Some 0 | None => -1 | Some n => n end)) (replicate 4 (info_shape (PReplay n false)) ++ List.map (fun l => sp_shape (leaf_spec (PReplay n false) l)) (nflatten s)) = true) as ->; [|done].
    apply forallb_forall. intros x Hx. apply elem_of_list_In in Hx. apply elem_of_app in Hx as [[-> _]%elem_of_replicate|Hx].
    + cbn [info_shape]. rewrite Hn, Z.eqb_refl. done.
    + apply elem_of_list_In, in_map_iff in Hx as (l & <- & Hl). apply elem_of_list_In in Hl. rewrite Forall_forall in HR. destruct (HR l Hl) as (nm & ty & dims & Hs & Hr). unfold leaf_spec. cbn [sp_shape is_batch pk_length].
      assert (leaf_shape sh l = sh dims) as -> by (by destruct Hs as [-> | ->]). destruct (sh dims) as [ds|]; [|done]. cbn [concatenate]. rewrite Hn, Z.eqb_refl. done.
  - set (SP := info_specs ++ List.map (flat_spec dt sh) es). assert (HV : zip_with Chunker.mkTspec (DT_UINT64 :: DT_DOUBLE :: DT_INT64 :: DT_DOUBLE :: List.map (leaf_dtype dt) (nflatten s)) (validation_shapes (op_kind k) (replicate 4 (info_shape k) ++ List.map (fun l => sp_shape (leaf_spec k l)) (nflatten s))) = SP).
    { unfold SP. rewrite (flat_leaves s es HA He), <- zip_replicate. f_equal. destruct k as [| |n [|]]; try done. cbn [op_kind validation_shapes]. rewrite fmap_app. f_equal. change (remove_dim0 <$> List.map (fun l => sp_shape (leaf_spec (PReplay n false) l)) (nflatten s)) with (List.map remove_dim0 (List.map (fun l => sp_shape (leaf_spec (PReplay n false) l)) (nflatten s))).
      rewrite List.map_map. apply List.map_ext. intros l. unfold leaf_spec. cbn. by destruct (leaf_shape sh l). }
    unfold initialize, new_sampler_user. rewrite HV. assert (HLen : length (validation_shapes (op_kind k) (replicate 4 (info_shape k) ++ List.map (fun l => sp_shape (leaf_spec k l)) (nflatten s))) = (4 + length (nflatten s))%nat).
    { destruct k as [| |n [|]]; cbn [op_kind validation_shapes]; rewrite ?fmap_length, app_length, replicate_length, List.map_length; done. }
    rewrite HLen. cbn [length]. rewrite List.map_length, Nat.eqb_refl. cbn [negb]. unfold get_dtypes_and_shapes, maybe_update. cbn [cc_sigs]. unfold locked_update. cbn [cc_sigs]. rewrite bool_decide_eq_true_2 by done. cbn [orb]. rewrite Hm. cbn [cc_sigs]. rewrite Ht.
    assert (length SP = (4 + length (nflatten s))%nat) as HLs. { unfold SP. rewrite (flat_leaves s es HA He), app_length, List.map_length. done. }
    fold SP. rewrite HLs, Nat.eqb_refl. cbn [andb]. assert (forallb (fun p => spec_fits p.1 p.2) (combine SP SP) = true) as ->; [|done].
    clear. induction SP as [|x l IH]; [done|]. cbn. by rewrite spec_fits_refl.
Qed.

Lemma step_fits spec a p d last a' : sampler_step spec a p = (LOk (EStep d) last, a') -> fits spec d.
Proof.
  unfold sampler_step. assert (G : forall s, match get_next_step spec s with GStep d last s => (LOk (EStep d) last, Some s) | GStepError s => (LFail InvalidArgument, Some s) | GStepInvalid => (LFail InvalidArgument, Some s) | GStepCrash => (LCrash, Some s) end = (LOk (EStep d) last, a') -> fits spec d).
  { intros s. unfold get_next_step. destruct (sampler_next_timestep s) as [d0 l0 s0| |]; try done. destruct (bool_decide_reflect (validate_output spec VTimestep d0.2 = Ok)) as [Hv|Hv]; [|done]. intros [= -> _ _]. unfold fits. destruct spec as [sp|]; [|done]. by apply (validate_iff sp VTimestep) in Hv. }
  destruct (match a with Some s => if is_end_of_sample s then None else Some s | None => None end) as [s|]; [apply G|]. destruct p as [s| |st]; [apply G|done|done].
Qed.

(** Every element that is emitted has the structure of the signature (with tuples for lists), and at
    each place a tensor that has the type and shape of the signature's leaf there (the rows of
    the tensor, if sequences are emitted). *)
Theorem C88_element k o s d es f it c e it' : nwf s -> all_specs s -> from_table_signature dt sh k o (Some (Some s)) = Some d -> flat_signature_top (sv_of s) = Some es ->
  get_next (pd_kind d) (Some (info_specs ++ List.map (flat_spec dt sh) es)) f it c = (OElem e, it') ->
  exists el, element d (elem_cols e) = Some el /\ tupled (leaf_conforms dt sh (is_batch k)) s el.
Proof.
  intros HW HA Hd He Hg. destruct (from_made k o s d HW HA Hd) as ((Hk & _ & _ & data & D1 & D2 & D3 & D4) & Ho & HR). rewrite Hk in Hg.
  assert (HF : Forall2 (if is_batch k then rows_conform else conforms) (List.map (flat_spec dt sh) es) (elem_cols e)).
  { destruct k as [| |n b]; cbn [op_kind is_batch] in *.
    - destruct (C71_items DTrajectory _ f it c e it' (fun x => x) Hg) as (sm & _ & _ & H). destruct e as [|?|d0]; try done. destruct H as [_ [_ H]]. exact H.
    - assert (exists d0, e = EStep d0) as [d0 ->]. { unfold get_next in Hg. destruct (sampler_step _ _ _) as [r a] eqn:Es. injection Hg as Hg _. destruct r as [e0 l0| | |]; cbn in Hg; destruct (k_cancel c); try done; try (by destruct f); injection Hg as ->; unfold sampler_step in Es; repeat case_match; by simplify_eq; try (by eexists). }
      destruct (get_next_elem DTimestep _ f it c d0 it' I Hg) as (last & a' & Hst & _). apply step_fits in Hst as [_ H]. exact H.
    - destruct b.
      + assert (exists d0, e = EStep d0) as [d0 ->]. { unfold get_next in Hg. destruct (sampler_step _ _ _) as [r a] eqn:Es. destruct r as [e0 l0| | |]; [|repeat case_match; simplify_eq; cbn in *; by repeat case_match..]. assert (exists d0, e0 = EStep d0) as [d0 ->] by (unfold sampler_step in Es; repeat case_match; simplify_eq; by eexists). exists d0. repeat case_match; simplify_eq; cbn in *; repeat case_match; by simplify_eq. }
        destruct (get_next_elem (DReverb _ true) _ f it c d0 it' I Hg) as (last & a' & Hst & _). apply step_fits in Hst as [_ H]. exact H.
      + destruct (C71_items (DReverb _ false) _ f it c e it' (fun x => x) Hg) as (sm & _ & _ & H). destruct e as [|d0|]; try done. destruct H as [_ [_ H]]. exact H. }
  rewrite (flat_leaves s es HA He) in HF. assert (HF2 : Forall2 (leaf_conforms dt sh (is_batch k)) (nflatten (lists_to_tuples s)) (elem_cols e)).
  { rewrite tuples_flat. unfold all_specs in HA. revert HF HA. generalize (elem_cols e). clear. induction (nflatten s) as [|l ls IH]; intros cols HF HA; [apply Forall2_nil_inv_l in HF as ->; constructor|]. cbn in HF, HA. apply andb_true_iff in HA as [HA1 HA2]. apply Forall2_cons_inv_l in HF as (t & ts & Ht & HF & ->).
    constructor; [|by apply IH]. destruct l as [nm ty dims|nm ty dims|]; [| |done]; exists nm, ty, dims; (split; [auto|exact Ht]). }
  destruct (C87_places (leaf_conforms dt sh (is_batch k)) data (lists_to_tuples s) (elem_cols e) D2) as (el & E & Hr); [by apply (nrel_sym (fun _ _ => True))|done|].
  exists el. split; [unfold element; by rewrite D1|]. by apply tuples_rel.
Qed.

(** The leaves of an item come to the places where they were when it was written: [t] is the
    structure that was appended or given to create_item, [R] tells what became of its leaves. *)
Theorem C88_places {A} k o s d (t : nest A) (R : A -> tensor -> Prop) cols : nwf s -> all_specs s -> from_table_signature dt sh k o (Some (Some s)) = Some d -> shaped s t -> Forall2 R (nflatten t) cols ->
  exists el, element d cols = Some el /\ tupled R t el.
Proof.
  intros HW HA Hd HS HR. destruct (from_made k o s d HW HA Hd) as ((_ & _ & _ & data & D1 & D2 & D3 & D4) & _).
  destruct (C87_places R data (lists_to_tuples t) cols D2) as (el & E & Hr).
  - eapply (nrel_trans (fun _ _ => True) (fun _ _ => True)); [done|apply (nrel_sym (fun _ _ => True)); exact D3|]. by apply tuples_shaped.
  - by rewrite tuples_flat.
  - exists el. split; [unfold element; by rewrite D1|]. by apply tuples_rel.
Qed.
End Sig.

(** ** Limits *)

(** If the server does not answer within 30 seconds when the iterator is made, nothing is checked,
    and elements may be of any type. *)
Definition sh1 (l : list Z) : pshape := Some (List.map (fun z => if z <? 0 then None else Some (Z.to_nat z)) l).
Definition dt1 (z : Z) : dty := TOther z.
Definition sg1 : nest sleaf := NList [NLeaf (LSpec "a" 1 []); NDict [("c"%string, NLeaf (LSpec "" 1 [-1])); ("b"%string, NLeaf (LBounded "" 1 [2]))]].
Definition opts1 : dopts := mkDopts 2 (-1) (-1) (-1) (-1).
Definition ds1 (k : pkind) : pdataset := default (mkPds DTrajectory [] [] (NList [])) (from_table_signature dt1 sh1 k opts1 (Some (Some sg1))).
Definition iv (l : list Z) : tensor := mkTensor (TOther 0) [length l] l.
Definition bad_sample : sample := default (mkSample (dx_meta 1) 0 [] [] false) (make_sample (dx_meta 1) [[mkTensor (TOther 9) [1]%nat [7]]; [iv [1]]; [iv [1]]] [false; false; false]).
Theorem C88_unchecked_refuted : ~ (forall dt sh k o s d c table r spec c' f it cl e it' el, nwf s -> all_specs s -> from_table_signature dt sh k o (Some (Some s)) = Some d ->
  initialize (pd_kind d) c table (pd_dtypes d) (pd_shapes d) r = (inr spec, c') -> get_next (pd_kind d) spec f it cl = (OElem e, it') -> element d (elem_cols e) = Some el -> tupled (leaf_conforms dt sh (is_batch k)) s el).
Proof.
  intros H. specialize (H dt1 sh1 PTrajectory opts1 sg1 (ds1 PTrajectory) (mkCache None 0) 8 (RFail DeadlineExceeded) None (mkCache None 0) true i_new (take_sample bad_sample)
    (ETraj (dx_meta 1, [mkTensor (TOther 9) [1]%nat [7]; iv [1]; iv [1]])) i_new (NTuple [NLeaf (mkTensor (TOther 9) [1]%nat [7]); NDict [("c"%string, NLeaf (iv [1])); ("b"%string, NLeaf (iv [1]))]])).
  assert (W : nwf sg1). { unfold sg1. repeat first [constructor|apply Forall_cons_2|apply Forall_nil_2]; cbn; try (by intros ?%elem_of_nil). by intros [[=]|?%elem_of_nil]%elem_of_cons. }
  specialize (H W ltac:(vm_compute; reflexivity) ltac:(vm_compute; reflexivity) ltac:(vm_compute; reflexivity) ltac:(vm_compute; reflexivity) ltac:(vm_compute; reflexivity)).
  inversion H as [|? ? Hl| | |]; subst. apply Forall2_cons_inv_l in Hl as (x & l & Hx & _ & [= <- _]). inversion Hx as [? ? Hc| | | |]; subst. destruct Hc as (nm & ty & dims & [[= <- <- <-]|[=]] & [Hty _]). discriminate Hty.
Qed.

(** ** Examples *)

Lemma sg1_wf : nwf sg1.
Proof. unfold sg1. repeat first [constructor|apply Forall_cons_2|apply Forall_nil_2]; cbn; try (by intros ?%elem_of_nil). by intros [[=]|?%elem_of_nil]%elem_of_cons. Qed.
(** The dataset of trajectories and the one of sequences of three steps. *)
Example C88_example : nwf sg1 /\ all_specs sg1 /\ truthy sg1 = true /\ py_args_ok opts1 (Some 3) = true /\
  pd_dtypes (ds1 PTrajectory) = [DT_UINT64; DT_DOUBLE; DT_INT64; DT_DOUBLE; TOther 1; TOther 1; TOther 1] /\
  pd_shapes (ds1 (PReplay (Some 3) false)) = [Some [Some 3%nat]; Some [Some 3%nat]; Some [Some 3%nat]; Some [Some 3%nat]; Some [Some 3%nat]; Some [Some 3%nat; Some 2%nat]; Some [Some 3%nat; None]] /\
  from_table_signature dt1 sh1 PTrajectory opts1 (Some (Some sg1)) = Some (ds1 PTrajectory) /\
  from_table_signature dt1 sh1 (PReplay (Some 3) false) opts1 (Some (Some sg1)) = Some (ds1 (PReplay (Some 3) false)) /\
  from_table_signature dt1 sh1 PTimestep (mkDopts 0 (-1) (-1) (-1) (-1)) (Some (Some sg1)) = None /\ from_table_signature dt1 sh1 PTimestep opts1 (Some None) = None /\
  from_table_signature dt1 (fun _ => None) (PReplay None false) opts1 (Some (Some sg1)) = None.
Proof. split; [apply sg1_wf|]. repeat split; vm_compute; reflexivity. Qed.
Definition sg1_flat : list Signature.tspec := default [] (flat_signature_top (sv_of sg1)).
Definition good_sample : sample := default (mkSample (dx_meta 1) 0 [] [] false) (make_sample (dx_meta 1) [[mkTensor (TOther 1) [1]%nat [7]]; [mkTensor (TOther 1) [1; 2]%nat [1; 2]]; [mkTensor (TOther 1) [1; 4]%nat [1; 2; 3; 4]]] [true; true; true]).
Example C88_initialize_example : let info := mkInfo 1 [(8, Some (Some (List.map (flat_spec dt1 sh1) sg1_flat)))] in
  flat_signature_top (sv_of sg1) = Some sg1_flat /\ info_sigs (si_tables info) ∅ = Some {[ 8 := Some (List.map (flat_spec dt1 sh1) sg1_flat) ]} /\ length sg1_flat = 3%nat.
Proof. split; [vm_compute; reflexivity|]. split; [reflexivity|vm_compute; reflexivity]. Qed.
(** A trajectory is emitted in the structure of the signature: b before c in the op, the list is a
    tuple. *)
Example C88_element_example : exists e it', get_next (pd_kind (ds1 PTrajectory)) (Some (info_specs ++ List.map (flat_spec dt1 sh1) sg1_flat)) true i_new (take_sample good_sample) = (OElem e, it') /\
  element (ds1 PTrajectory) (elem_cols e) = Some (NTuple [NLeaf (mkTensor (TOther 1) [] [7]); NDict [("c"%string, NLeaf (mkTensor (TOther 1) [4]%nat [1; 2; 3; 4])); ("b"%string, NLeaf (mkTensor (TOther 1) [2]%nat [1; 2]))]]).
Proof. eexists _, _. split; vm_compute; reflexivity. Qed.
Example C88_arguments_example : py_args_ok opts1 None = true /\ py_args_ok (mkDopts 1 0 (-1) (-1) (-1)) None = false /\ py_args_ok (mkDopts 1 1 1 (-2) 1) None = false /\ validate_sopts (op_options (mkDopts 1 1 1 (-2) 1)) = Ok.
Proof. repeat split; reflexivity. Qed.

Print Assumptions C88_arguments.
Print Assumptions C88_made.
Print Assumptions C88_element_spec.
Print Assumptions C88_initialize.
Print Assumptions C88_element.
Print Assumptions C88_places.
Print Assumptions C88_unchecked_refuted.
