(** C87: nested data comes back in the structure of the table's signature. *)
From stdpp Require Import strings pretty.
From Verif Require Import Base Trajectory Tensor TrajUtil ChunkerOptions Sample Stream Reactor PropTraj PropSample PropStream PropInsertStream
  Chunker PropChunker PropDelta TrajWriter TrajWriterProofs PropTrajWriter Writer WriterProofs WriterConf WriterData WriterPlace WriterOwn WriterTrace PropWriter PropClose PyClient PropInsert PropSigCheck
  PropClientSample Signature PropSignature PyTree.
Local Open Scope Z_scope.

(** ** Specification *)

(** The keys of every dictionary are distinct. *)
Inductive nwf {A} : nest A -> Prop :=
| wf_leaf a : nwf (NLeaf a)
| wf_list l : Forall nwf l -> nwf (NList l)
| wf_tuple l : Forall nwf l -> nwf (NTuple l)
| wf_dict fs : NoDup (fst <$> fs) -> Forall (fun kv => nwf (snd kv)) fs -> nwf (NDict fs)
| wf_named n fs : Forall (fun kv => nwf (snd kv)) fs -> nwf (NNamed n fs).

(** The same structure with other leaves; the same structure with the same leaves. *)
Definition shaped {A B} : nest A -> nest B -> Prop := nrel (fun _ _ => True).
Definition same {A} : nest A -> nest A -> Prop := nrel eq.

(** ** Induction over structures *)

Section NestInd.
Context {A : Type} (P : nest A -> Prop)
  (H1 : forall a, P (NLeaf a)) (H2 : forall l, Forall P l -> P (NList l)) (H3 : forall l, Forall P l -> P (NTuple l))
  (H4 : forall fs, Forall (fun kv => P (snd kv)) fs -> P (NDict fs)) (H5 : forall n fs, Forall (fun kv => P (snd kv)) fs -> P (NNamed n fs)).
Fixpoint nest_ind2 (d : nest A) : P d :=
  let go := fix go (l : list (nest A)) : Forall P l :=
    match l with [] => @Forall_nil_2 _ _ | x :: l => @Forall_cons_2 _ _ _ _ (nest_ind2 x) (go l) end in
  let go2 := fix go2 (l : list (string * nest A)) : Forall (fun kv => P (snd kv)) l :=
    match l with [] => @Forall_nil_2 _ _ | x :: l => @Forall_cons_2 _ (fun kv => P (snd kv)) _ _ (nest_ind2 (snd x)) (go2 l) end in
  match d with
  | NLeaf a => H1 a | NList l => H2 l (go l) | NTuple l => H3 l (go l)
  | NDict fs => H4 fs (go2 fs) | NNamed n fs => H5 n fs (go2 fs)
  end.
End NestInd.

(** ** Related structures *)

Definition frel {A B} (R : A -> B -> Prop) (a : string * nest A) (b : string * nest B) : Prop := fst a = fst b /\ nrel R (snd a) (snd b).

Lemma nrel_refl {A} (R : A -> A -> Prop) : (forall a, R a a) -> forall d, nrel R d d.
Proof.
  intros HR d. induction d as [a|l IH|l IH|fs IH|n fs IH] using nest_ind2.
  - by constructor.
  - constructor. induction IH; by constructor.
  - constructor. induction IH; by constructor.
  - apply (nr_dict R fs fs fs); [done|]. induction IH; by constructor.
  - constructor. induction IH; by constructor.
Qed.
Lemma nrel_sym {A B} (R : A -> B -> Prop) d : forall d', nrel R d d' -> nrel (fun b a => R a b) d' d.
Proof.
  induction d as [a|l IH|l IH|fs IH|n fs IH] using nest_ind2; intros d' H; inversion H as [? b Hb|? l' Hl|? l' Hl|? fs' fs'' HP Hl|? ? fs' Hl]; subst.
  - by constructor.
  - constructor. clear H. induction Hl; [constructor|]. apply Forall_cons in IH as [? IH]. constructor; auto.
  - constructor. clear H. induction Hl; [constructor|]. apply Forall_cons in IH as [? IH]. constructor; auto.
  - assert (HS : Forall2 (frel (fun b a => R a b)) fs'' fs). { clear H HP. induction Hl as [|x y ? ? [Hk Hr] _ IHl]; [constructor|]. apply Forall_cons in IH as [? IH]. constructor; [split; [done|auto]|auto]. }
    destruct (Forall2_perm_l _ _ fs' _ (Permutation_sym HP) HS) as (fs3 & HP3 & HF3). by apply (nr_dict _ fs' fs fs3).
  - constructor. clear H. induction Hl as [|x y ? ? [Hk Hr] _ IHl]; [constructor|]. apply Forall_cons in IH as [? IH]. constructor; [split; [done|auto]|auto].
Qed.
Lemma nrel_trans {A B C} (R : A -> B -> Prop) (S : B -> C -> Prop) (T : A -> C -> Prop) : (forall a b c, R a b -> S b c -> T a c) ->
  forall x y z, nrel R x y -> nrel S y z -> nrel T x z.
Proof.
  intros HT. assert (HL : forall l, Forall (fun x => forall y z, nrel R x y -> nrel S y z -> nrel T x z) l -> forall l' l'', Forall2 (nrel R) l l' -> Forall2 (nrel S) l' l'' -> Forall2 (nrel T) l l'').
  { intros l IH. induction IH as [|x l Hx IH IHl]; intros l' l'' H1 H2; [apply Forall2_nil_inv_l in H1 as ->; apply Forall2_nil_inv_l in H2 as ->; constructor|].
    apply Forall2_cons_inv_l in H1 as (y & l1 & Hy & H1 & ->). apply Forall2_cons_inv_l in H2 as (z & l2 & Hz & H2 & ->). constructor; [by eapply Hx|by eapply IHl]. }
  assert (HF : forall l, Forall (fun kv => forall y z, nrel R (snd kv) y -> nrel S y z -> nrel T (snd kv) z) l -> forall l' l'', Forall2 (frel R) l l' -> Forall2 (frel S) l' l'' -> Forall2 (frel T) l l'').
  { intros l IH. induction IH as [|x l Hx IH IHl]; intros l' l'' H1 H2; [apply Forall2_nil_inv_l in H1 as ->; apply Forall2_nil_inv_l in H2 as ->; constructor|].
    apply Forall2_cons_inv_l in H1 as (y & l1 & [Hy1 Hy2] & H1 & ->). apply Forall2_cons_inv_l in H2 as (z & l2 & [Hz1 Hz2] & H2 & ->). constructor; [split; [congruence|by eapply Hx]|by eapply IHl]. }
  intros x. induction x as [a|l IH|l IH|fs IH|n fs IH] using nest_ind2; intros y z H1 H2.
  - inversion H1; subst. inversion H2; subst. constructor. by eapply HT.
  - inversion H1; subst. inversion H2; subst. constructor. by eapply HL.
  - inversion H1; subst. inversion H2; subst. constructor. by eapply HL.
  - inversion H1 as [| | |? fy fy' HP Hl|]; subst. inversion H2 as [| | |? fz fz' HP2 Hl2|]; subst.
    destruct (Forall2_perm_l _ _ fy' _ HP Hl2) as (fz2 & HP3 & HF3). apply (nr_dict _ fs fz fz2); [by rewrite HP3|]. by eapply HF.
  - inversion H1; subst. inversion H2; subst. constructor. by eapply HF.
Qed.
Lemma nrel_impl {A B} (R S : A -> B -> Prop) : (forall a b, R a b -> S a b) -> forall x y, nrel R x y -> nrel S x y.
Proof. intros H x y Hxy. eapply (nrel_trans R eq); [|exact Hxy|by apply nrel_refl]. by intros a b ? Hab <-; auto. Qed.

Lemma frel_keys {A B} (R : A -> B -> Prop) l l' : Forall2 (frel R) l l' -> fst <$> l = fst <$> l'.
Proof. induction 1 as [|x y l l' [Hk _] _ IH]; cbn; [done|]. by rewrite Hk, IH. Qed.
Lemma nwf_rel {A B} (R : A -> B -> Prop) x : forall y, nrel R x y -> nwf x -> nwf y.
Proof.
  assert (HF : forall fs fs', Forall2 (frel R) fs fs' -> Forall (fun kv => forall y, nrel R (snd kv) y -> nwf (snd kv) -> nwf y) fs -> Forall (fun kv => nwf (snd kv)) fs -> Forall (fun kv => nwf (snd kv)) fs').
  { induction 1 as [|a b ? ? [_ Hr] _ IHl]; intros IH HW; [constructor|]. apply Forall_cons in IH as [? IH]. apply Forall_cons in HW as [? HW]. constructor; auto. }
  assert (HL : forall fs fs', Forall2 (nrel R) fs fs' -> Forall (fun x => forall y, nrel R x y -> nwf x -> nwf y) fs -> Forall nwf fs -> Forall nwf fs').
  { induction 1 as [|a b ? ? Hr _ IHl]; intros IH HW; [constructor|]. apply Forall_cons in IH as [? IH]. apply Forall_cons in HW as [? HW]. constructor; auto. }
  induction x as [a|l IH|l IH|fs IH|n fs IH] using nest_ind2; intros y H HW; inversion HW; subst; inversion H as [| | |? fy fy' HP Hl|]; subst; constructor; eauto.
  - rewrite <- HP. by rewrite <- (frel_keys _ _ _ Hl).
  - rewrite <- HP. eauto.
Qed.

(** ** Flattening *)

Lemma sorted_keys {A B} (R : A -> B -> Prop) fs fs' fs'' : NoDup (fst <$> fs) -> fs'' ≡ₚ fs' -> Forall2 (frel R) fs fs'' -> Forall2 (frel R) (sort_keys fs) (sort_keys fs').
Proof.
  intros ND HP HF. destruct (Forall2_perm_l _ _ (sort_keys fs) _ (sort_perm fs) HF) as (fs3 & HP3 & HF3).
  assert (sort_keys fs' = fs3) as ->; [|done]. apply sorted_unique; [by rewrite sort_perm, HP3, HP|apply sort_sorted|].
  assert (NDs : NoDup (fst <$> sort_keys fs)) by (by rewrite sort_perm). pose proof (sort_sorted fs) as HS. clear -HF3 NDs HS.
  induction HF3 as [|x y l l' [Hk _] H IH]; [constructor|]. apply StronglySorted_inv in HS as [HS Hf]. cbn in NDs. apply NoDup_cons in NDs as [Hx ND]. constructor; [by apply IH|].
  apply Forall_forall. intros z Hz. apply elem_of_list_lookup in Hz as [i Hi]. destruct (Forall2_lookup_r _ _ _ _ _ H Hi) as (w & Hw & [Hkw _]).
  rewrite Forall_lookup in Hf. rewrite <- Hk, <- Hkw. destruct (Hf i w Hw) as [E|E]; [|done]. exfalso. apply Hx. rewrite E. apply elem_of_list_fmap_1. by eapply elem_of_list_lookup_2.
Qed.
Lemma flatten_fields {A} (fs : list (string * nest A)) : concat (List.map snd (List.map (fun kv => (fst kv, nflatten (snd kv))) fs)) = concat (List.map (fun kv => nflatten (snd kv)) fs).
Proof. by rewrite List.map_map. Qed.
Lemma flatten_dict {A} (fs : list (string * nest A)) : nflatten (NDict fs) = concat (List.map (fun kv => nflatten (snd kv)) (sort_keys fs)).
Proof. cbn [nflatten]. rewrite sort_map. apply flatten_fields. Qed.
Lemma sort_in {A} (P : string * A -> Prop) fs : Forall P fs -> Forall P (sort_keys fs).
Proof. by rewrite sort_perm. Qed.

Lemma flatten_rel {A B} (R : A -> B -> Prop) x : forall y, nwf x -> nrel R x y -> Forall2 R (nflatten x) (nflatten y).
Proof.
  assert (HF : forall fs fs', Forall2 (frel R) fs fs' -> Forall (fun kv => forall y, nwf (snd kv) -> nrel R (snd kv) y -> Forall2 R (nflatten (snd kv)) (nflatten y)) fs -> Forall (fun kv => nwf (snd kv)) fs ->
    Forall2 R (concat (List.map (fun kv => nflatten (snd kv)) fs)) (concat (List.map (fun kv => nflatten (snd kv)) fs'))).
  { induction 1 as [|a b ? ? [_ Hr] _ IHl]; intros IH HW; [constructor|]. apply Forall_cons in IH as [? IH]. apply Forall_cons in HW as [? HW]. cbn. apply Forall2_app; auto. }
  assert (HL : forall fs fs', Forall2 (nrel R) fs fs' -> Forall (fun x => forall y, nwf x -> nrel R x y -> Forall2 R (nflatten x) (nflatten y)) fs -> Forall nwf fs ->
    Forall2 R (concat (List.map nflatten fs)) (concat (List.map nflatten fs'))).
  { induction 1 as [|a b ? ? Hr _ IHl]; intros IH HW; [constructor|]. apply Forall_cons in IH as [? IH]. apply Forall_cons in HW as [? HW]. cbn. apply Forall2_app; auto. }
  induction x as [a|l IH|l IH|fs IH|n fs IH] using nest_ind2; intros y HW H; inversion HW as [|? Hw|? Hw|? ND Hw|? ? Hw]; subst; inversion H as [? ? ?|? ? Hl|? ? Hl|? fy fy' HP Hl|? ? ? Hl]; subst.
  - by repeat constructor.
  - by apply HL.
  - by apply HL.
  - rewrite !flatten_dict. apply HF; [by eapply sorted_keys|by apply sort_in|by apply (sort_in (fun kv => nwf (snd kv)))].
  - by apply HF.
Qed.

(** ** Unflattening *)

Lemma assoc_zip {B} (l : list (string * B)) k b : NoDup (fst <$> l) -> (k, b) ∈ l -> assoc k l = Some b.
Proof.
  induction l as [|[k' b'] l IH]; cbn; [by intros _ ?%elem_of_nil|]. rewrite NoDup_cons. intros [Hn ND] [[= -> ->]|H]%elem_of_cons; [by rewrite String.eqb_refl|].
  destruct (String.eqb_spec k k') as [->|Hne]; [|by apply IH]. exfalso. apply Hn. by apply (elem_of_list_fmap_1 fst l (k', b)).
Qed.
Lemma reorder {B} (l : list (string * B)) ks : NoDup (fst <$> l) -> ks ≡ₚ List.map fst l -> exists l', mapM (fun k => d ← assoc k l; Some (k, d)) ks = Some l' /\ l' ≡ₚ l.
Proof.
  intros ND HP. destruct (Permutation_map_inv _ _ HP) as (l' & -> & HP'). exists l'. split; [|by symmetry].
  assert (HS : forall x, x ∈ l' -> x ∈ l) by (intros x; by rewrite <- HP'). clear HP HP'. induction l' as [|[k b] l' IH]; [done|]. cbn [List.map mapM fst]. rewrite (assoc_zip l k b ND) by (apply HS; left). cbn [mbind option_bind].
  rewrite IH by (intros x Hx; apply HS; by right). done.
Qed.
Lemma zip_fst {B C} (f : B -> string) (l : list B) (ds : list C) : length l = length ds -> List.map fst (zip (List.map f l) ds) = List.map f l.
Proof. revert ds. induction l as [|x l IH]; intros [|d ds]; cbn; try done. intros [= H]. by rewrite IH. Qed.

Section Build.
Context {A B C : Type} (R : B -> C -> Prop).
Definition builds (s : nest A) : Prop := forall d xs rest, nwf s -> shaped s d -> Forall2 R (nflatten d) xs -> exists d', nbuild s (xs ++ rest) = Some (d', rest) /\ nrel R d d'.

Lemma build_list l : Forall builds l -> Forall nwf l -> forall ds xs rest, Forall2 shaped l ds -> Forall2 R (concat (List.map nflatten ds)) xs ->
  exists ds', thread (List.map nbuild l) (xs ++ rest) = Some (ds', rest) /\ Forall2 (nrel R) ds ds'.
Proof.
  induction 1 as [|s l Hs _ IH]; intros HW ds xs rest HF HX.
  - apply Forall2_nil_inv_l in HF as ->. cbn in HX. apply Forall2_nil_inv_l in HX as ->. exists []. by split.
  - apply Forall_cons in HW as [Hw HW]. apply Forall2_cons_inv_l in HF as (d & ds1 & Hd & HF & ->). cbn in HX. apply Forall2_app_inv_l in HX as (xs1 & xs2 & H1 & H2 & ->).
    destruct (Hs d xs1 (xs2 ++ rest) Hw Hd H1) as (d' & E & Hr). destruct (IH HW ds1 xs2 rest HF H2) as (ds' & E2 & Hr2).
    exists (d' :: ds'). cbn [List.map thread]. rewrite <- app_assoc, E. cbn [mbind option_bind]. rewrite E2. cbn. split; [done|by constructor].
Qed.
Lemma build_fields fs : Forall (fun kv => builds (snd kv)) fs -> Forall (fun kv => nwf (snd kv)) fs -> forall fd xs rest, Forall2 (frel (fun _ _ => True)) fs fd -> Forall2 R (concat (List.map (fun kv => nflatten (snd kv)) fd)) xs ->
  exists ds', thread (List.map (fun kv => nbuild (snd kv)) fs) (xs ++ rest) = Some (ds', rest) /\ length ds' = length fs /\ Forall2 (frel R) fd (zip (List.map fst fs) ds').
Proof.
  induction 1 as [|s l Hs _ IH]; intros HW ds xs rest HF HX.
  - apply Forall2_nil_inv_l in HF as ->. cbn in HX. apply Forall2_nil_inv_l in HX as ->. exists []. split; [done|]. split; [done|constructor].
  - apply Forall_cons in HW as [Hw HW]. apply Forall2_cons_inv_l in HF as (d & ds1 & [Hk Hd] & HF & ->). cbn in HX. apply Forall2_app_inv_l in HX as (xs1 & xs2 & H1 & H2 & ->).
    destruct (Hs (snd d) xs1 (xs2 ++ rest) Hw Hd H1) as (d' & E & Hr). destruct (IH HW ds1 xs2 rest HF H2) as (ds' & E2 & HL & Hr2).
    exists (d' :: ds'). cbn [List.map thread]. rewrite <- app_assoc, E. cbn [mbind option_bind]. rewrite E2. cbn. split; [done|]. split; [by rewrite HL|]. constructor; [by split|done].
Qed.

Lemma build_ok s : builds s.
Proof.
  induction s as [a|l IH|l IH|fs IH|n fs IH] using nest_ind2; intros d xs rest HW HS HX; inversion HW as [|? Hw|? Hw|? ND Hw|? ? Hw]; subst; inversion HS as [? b ?|? ld Hl|? ld Hl|? fd fd' HP Hl|? ? fd Hl]; subst.
  - cbn in HX. apply Forall2_cons_inv_l in HX as (x & xs' & Hx & HX & ->). apply Forall2_nil_inv_l in HX as ->. exists (NLeaf x). split; [done|by constructor].
  - destruct (build_list l IH Hw ld xs rest Hl HX) as (ds' & E & Hr). exists (NList ds'). cbn [nbuild]. rewrite E. split; [done|by constructor].
  - destruct (build_list l IH Hw ld xs rest Hl HX) as (ds' & E & Hr). exists (NTuple ds'). cbn [nbuild]. rewrite E. split; [done|by constructor].
  - rewrite flatten_dict in HX. pose proof (sorted_keys _ _ _ _ ND HP Hl) as HSo.
    destruct (build_fields (sort_keys fs) (sort_in _ _ IH) (sort_in (fun kv => nwf (snd kv)) _ Hw) (sort_keys fd) xs rest HSo HX) as (ds' & E & HL & Hr).
    destruct (reorder (zip (List.map fst (sort_keys fs)) ds') (List.map fst fs)) as (fs' & E2 & HP2).
    { change (NoDup (List.map fst (zip (List.map fst (sort_keys fs)) ds'))). rewrite zip_fst by done. change (NoDup (fst <$> sort_keys fs)). by rewrite sort_perm. }
    { rewrite zip_fst by done. apply Permutation_map. by rewrite sort_perm. }
    exists (NDict fs'). split.
    + cbn [nbuild]. rewrite sort_map, !List.map_map. cbn [fst snd]. rewrite E. cbn [mbind option_bind]. change (List.map (fun x : string * nest A => x.1)) with (List.map (@fst string (nest A))). rewrite E2. done.
    + destruct (Forall2_perm_l _ _ fd _ (Permutation_sym (sort_perm fd)) Hr) as (fs3 & HP3 & HF3). apply (nr_dict _ fd fs' fs3); [by rewrite HP3, HP2|done].
  - destruct (build_fields fs IH Hw fd xs rest Hl HX) as (ds' & E & HL & Hr). exists (NNamed n (zip (List.map fst fs) ds')). cbn [nbuild]. rewrite E. split; [done|by constructor].
Qed.
End Build.

Section Undone.
Context {A C : Type}.
Definition back (s : nest A) : Prop := forall (xs rest : list C) d, nwf s -> nbuild s xs = Some (d, rest) -> xs = nflatten d ++ rest.
Lemma back_list l : Forall back l -> Forall nwf l -> forall (xs rest : list C) ds, thread (List.map nbuild l) xs = Some (ds, rest) -> xs = concat (List.map nflatten ds) ++ rest.
Proof.
  induction 1 as [|s l Hs _ IH]; intros HW xs rest ds; cbn [List.map thread]; [by intros [= <- <-]|]. apply Forall_cons in HW as [Hw HW].
  destruct (nbuild s xs) as [[d xs1]|] eqn:E1; [|done]. cbn [mbind option_bind]. destruct (thread _ xs1) as [[ds1 xs2]|] eqn:E2; [|done]. cbn [mbind option_bind]. intros [= <- <-].
  rewrite (Hs _ _ _ Hw E1), (IH HW _ _ _ E2). cbn. by rewrite app_assoc.
Qed.
Lemma back_fields (fs : list (string * nest A)) : Forall (fun kv => back (snd kv)) fs -> Forall (fun kv => nwf (snd kv)) fs -> forall (xs rest : list C) ds, thread (List.map (fun kv => nbuild (snd kv)) fs) xs = Some (ds, rest) ->
  xs = concat (List.map nflatten ds) ++ rest /\ length ds = length fs.
Proof.
  induction 1 as [|s l Hs _ IH]; intros HW xs rest ds; cbn [List.map thread]; [by intros [= <- <-]|]. apply Forall_cons in HW as [Hw HW].
  destruct (nbuild (snd s) xs) as [[d xs1]|] eqn:E1; [|done]. cbn [mbind option_bind]. destruct (thread _ xs1) as [[ds1 xs2]|] eqn:E2; [|done]. cbn [mbind option_bind]. intros [= <- <-].
  destruct (IH HW _ _ _ E2) as [-> HL]. rewrite (Hs _ _ _ Hw E1). cbn. rewrite HL. split; [by rewrite app_assoc|done].
Qed.
Lemma zip_flat (ks : list string) (ds : list (nest C)) : length ds = length ks -> List.map (fun kv => nflatten (snd kv)) (zip ks ds) = List.map nflatten ds.
Proof. revert ds. induction ks as [|k ks IH]; intros [|d ds]; cbn; try done. intros [= H]. by rewrite IH. Qed.
Lemma mapM_assoc_fst {B} (l : list (string * B)) ks l' : mapM (fun k => d ← assoc k l; Some (k, d)) ks = Some l' -> List.map fst l' = ks.
Proof.
  rewrite mapM_Some. induction 1 as [|k x ks l' Hx _ IH]; [done|]. cbn. rewrite IH. destruct (assoc k l); [|done]. by injection Hx as <-.
Qed.
Lemma strict_of_nodup {B} (l : list (string * B)) : NoDup (fst <$> l) -> StronglySorted le_key l -> StronglySorted (fun a b => key_lt (fst a) (fst b)) l.
Proof.
  intros ND HS. induction HS as [|x l HS IH Hf]; [constructor|]. cbn in ND. apply NoDup_cons in ND as [Hx ND]. constructor; [by apply IH|]. rewrite Forall_forall in Hf |- *. intros y Hy. destruct (Hf y Hy) as [E|E]; [|done].
  exfalso. apply Hx. rewrite E. by apply elem_of_list_fmap_1.
Qed.
Lemma keys_sorted {B D} (l : list (string * B)) (l' : list (string * D)) : List.map fst l = List.map fst l' -> StronglySorted le_key l -> StronglySorted le_key l'.
Proof.
  intros E HS. revert l' E. induction HS as [|x l HS IH Hf]; intros [|y l'] E; try done; [constructor|]. cbn in E. injection E as Ex E. constructor; [by apply IH|].
  rewrite Forall_lookup in Hf. apply Forall_lookup. intros i z Hz. assert (Hk : (List.map fst l) !! i = Some (fst z)) by (rewrite E; exact (eq_trans (list_lookup_fmap fst l' i) (f_equal (fmap fst) Hz))).
  change (List.map fst l) with (fst <$> l) in Hk. rewrite list_lookup_fmap in Hk. destruct (l !! i) as [w|] eqn:Hw; [|done]. injection Hk as Hk. unfold le_key in *. rewrite <- Ex, <- Hk. by apply (Hf i w).
Qed.
Lemma all_back s : back s.
Proof.
  induction s as [a|l IH|l IH|fs IH|n fs IH] using nest_ind2; intros xs rest d HW; inversion HW as [|? Hw|? Hw|? ND Hw|? ? Hw]; subst; cbn [nbuild].
  - destruct xs as [|x xs]; [done|]. by intros [= <- <-].
  - destruct (thread _ xs) as [[ds xs1]|] eqn:E; [|done]. cbn [mbind option_bind]. intros [= <- <-]. by apply (back_list l IH Hw).
  - destruct (thread _ xs) as [[ds xs1]|] eqn:E; [|done]. cbn [mbind option_bind]. intros [= <- <-]. by apply (back_list l IH Hw).
  - rewrite sort_map, !List.map_map. cbn [fst snd]. change (List.map (fun x : string * nest A => x.1)) with (List.map (@fst string (nest A))).
    destruct (thread _ xs) as [[ds xs1]|] eqn:E; [|done]. cbn [mbind option_bind]. destruct (mapM _ _) as [fs'|] eqn:E2; [|done]. cbn [mbind option_bind]. intros [= <- <-].
    destruct (back_fields (sort_keys fs) (sort_in _ _ IH) (sort_in (fun kv => nwf (snd kv)) _ Hw) _ _ _ E) as [-> HL]. rewrite flatten_dict. f_equal.
    assert (NDz : NoDup (fst <$> zip (List.map fst (sort_keys fs)) ds)). { change (NoDup (List.map fst (zip (List.map fst (sort_keys fs)) ds))). rewrite zip_fst by done. change (NoDup (fst <$> sort_keys fs)). by rewrite sort_perm. }
    destruct (reorder (zip (List.map fst (sort_keys fs)) ds) (List.map fst fs) NDz) as (l' & E3 & HP); [rewrite zip_fst by done; apply Permutation_map; by rewrite sort_perm|].
    rewrite E2 in E3. injection E3 as <-. assert (sort_keys fs' = zip (List.map fst (sort_keys fs)) ds) as ->.
    { apply sorted_unique; [by rewrite sort_perm|apply sort_sorted|]. apply strict_of_nodup; [done|]. eapply keys_sorted; [|apply (sort_sorted fs)]. by rewrite zip_fst. }
    rewrite zip_flat by (by rewrite List.map_length). done.
  - destruct (thread _ xs) as [[ds xs1]|] eqn:E; [|done]. cbn [mbind option_bind]. intros [= <- <-]. destruct (back_fields fs IH Hw _ _ _ E) as [-> HL]. cbn [nflatten]. rewrite zip_flat by (by rewrite List.map_length). done.
Qed.
End Undone.

(** ** Signatures *)

Definition spec_of (s : sleaf) : option (Z * list Z) := match s with LSpec _ t sh | LBounded _ t sh => Some (t, sh) | LOther => None end.
Definition entry_of (e : tspec) : option (Z * list Z) := Some (ts_dtype e, ts_shape e).
Definition flat_ok (p : nest sleaf) : Prop := forall ctx, forallb is_spec (nflatten p) = true -> exists es, flat_signature (sv_of p) ctx = Some es /\ List.map entry_of es = List.map spec_of (nflatten p).
Lemma flat_fields fs ctx : Forall (fun kv => flat_ok (snd kv)) fs -> forallb is_spec (concat (List.map (fun kv => nflatten (snd kv)) fs)) = true ->
  exists es, concat_opt (List.map (fun kf => snd kf (extend_context ctx (fst kf))) (List.map (fun kv => (fst kv, flat_signature (snd kv))) (List.map (fun kv => (fst kv, sv_of (snd kv))) fs))) = Some es /\
    List.map entry_of es = List.map spec_of (concat (List.map (fun kv => nflatten (snd kv)) fs)).
Proof.
  induction 1 as [|kv fs Hk _ IH]; cbn [List.map concat concat_opt fst snd]; [by exists []|]. rewrite forallb_app. intros [H1 H2]%andb_true_iff.
  destruct (Hk (extend_context ctx (fst kv)) H1) as (e1 & -> & E1). destruct (IH H2) as (e2 & E & E2). rewrite E. cbn. exists (e1 ++ e2). split; [done|]. by rewrite !List.map_app, E1, E2.
Qed.
Lemma flat_list l n ctx : Forall flat_ok l -> forallb is_spec (concat (List.map nflatten l)) = true ->
  exists es, concat_opt (imap (fun i f => f (extend_context ctx (pretty (n + i)%nat))) (List.map flat_signature (List.map sv_of l))) = Some es /\ List.map entry_of es = List.map spec_of (concat (List.map nflatten l)).
Proof.
  intros H. revert n. induction H as [|d l Hk _ IH]; intros n; [by exists []|]. cbn [List.map concat]. rewrite forallb_app. intros [H1 H2]%andb_true_iff.
  rewrite imap_cons. cbn [concat_opt]. destruct (Hk (extend_context ctx (pretty (n + 0)%nat)) H1) as (e1 & -> & E1). destruct (IH (S n) H2) as (e2 & E & E2). cbn [mbind option_bind].
  assert (imap ((fun (i : nat) (f : string -> option (list tspec)) => f (extend_context ctx (pretty (n + i)%nat))) ∘ S) (List.map flat_signature (List.map sv_of l)) =
          imap (fun (i : nat) (f : string -> option (list tspec)) => f (extend_context ctx (pretty (S n + i)%nat))) (List.map flat_signature (List.map sv_of l))) as ->.
  { apply imap_ext. intros i x _. cbn. by replace (n + S i)%nat with (S (n + i)) by lia. }
  rewrite E. cbn. exists (e1 ++ e2). split; [done|]. by rewrite !List.map_app, E1, E2.
Qed.
Lemma all_flat p : flat_ok p.
Proof.
  induction p as [a|l IH|l IH|fs IH|n fs IH] using nest_ind2; intros ctx H.
  - destruct a; [by eexists|by eexists|done].
  - exact (flat_list l 0%nat ctx IH H).
  - exact (flat_list l 0%nat ctx IH H).
  - rewrite flatten_dict in *. cbn [sv_of flat_signature]. rewrite sort_map, sort_map. apply flat_fields; [by apply sort_in|done].
  - exact (flat_fields fs ctx IH H).
Qed.

(** ** Rows *)

Lemma nsplit lv sig m cols l l' : sample_round true lv (inr (m, cols)) = inr (YTimesteps l) -> Forall2 (fun x y => y.1 = x.1 /\ unpack_as sig x.2 = Some y.2) l l' ->
  nsample_round true sig (inr (m, cols)) = inr (NYTimesteps l').
Proof.
  unfold sample_round, nsample_round, split_timesteps, nsplit_timesteps. destruct (mapM py_len cols) as [ls|]; [|done]. destruct (negb _); [done|].
  destruct (mapM _ (seq 0 (default 0%nat (head ls)))) as [l0|] eqn:E; [|done]. intros [= ->] HF. apply mapM_Some in E.
  assert (HG : Forall2 (fun i y => (row ← mapM (fun c => Sample.sub_slice c i) cols; d ← unpack_as sig row; Some (m, d)) = Some y) (seq 0 (default 0%nat (head ls))) l').
  { eapply Forall2_transitive; [|exact E|exact HF]. clear. cbn beta. intros i [xm xr] [ym y] H [H1 H2]. cbn in H1, H2. destruct (mapM _ cols) as [row|]; [|done]. cbn [mbind option_bind] in *. destruct (unflatten lv row) as [row'|] eqn:EU; [|done].
    assert (row' = row) as -> by (unfold unflatten in EU; destruct lv; [case_match; [by injection EU|done]|by injection EU]). cbn in H. injection H as -> ->. rewrite H2. cbn. by rewrite H1. }
  apply mapM_Some in HG. by rewrite HG.
Qed.

Lemma eq_Forall2 {A} (l l' : list A) : Forall2 eq l l' <-> l = l'.
Proof. split; [by induction 1; congruence|intros <-; induction l; by constructor]. Qed.

(** ** C87 *)

(** unflatten_as undoes flatten: for data in the structure of the signature, the result is
    the data. *)
Theorem C87_unflatten {A B} (s : nest B) (d : nest A) : nwf s -> shaped s d -> exists d', nunflatten s (nflatten d) = Some d' /\ same d d'.
Proof.
  intros HW HS. destruct (build_ok eq s d (nflatten d) [] HW HS) as (d' & E & Hr); [by apply eq_Forall2|]. rewrite app_nil_r in E. exists d'. split; [|done].
  unfold nunflatten. pose proof (Forall2_length _ _ _ (flatten_rel _ s d HW HS)) as ->. by rewrite Nat.eqb_refl, E.
Qed.
(** Every leaf goes to its place also if the leaves were changed on the way, as the
    columns of a trajectory are: [R] tells what became of a leaf. *)
Theorem C87_places {A B C} (R : A -> C -> Prop) (s : nest B) (d : nest A) (xs : list C) : nwf s -> shaped s d -> Forall2 R (nflatten d) xs -> exists d', nunflatten s xs = Some d' /\ nrel R d d'.
Proof.
  intros HW HS HX. destruct (build_ok R s d xs [] HW HS HX) as (d' & E & Hr). rewrite app_nil_r in E. exists d'. split; [|done].
  unfold nunflatten. rewrite (Forall2_length _ _ _ (flatten_rel _ s d HW HS)), (Forall2_length _ _ _ HX). by rewrite Nat.eqb_refl, E.
Qed.
(** The order in which the fields of dictionaries are listed does not matter for
    flatten. *)
Theorem C87_flatten {A} (d d' : nest A) : nwf d -> same d d' -> nflatten d = nflatten d'.
Proof. intros HW HS. apply eq_Forall2. by apply flatten_rel. Qed.
(** unflatten_as fails exactly if the number of leaves is wrong, and its result has the
    structure of the signature. *)
Theorem C87_count {A B} (s : nest B) (xs : list A) : nwf s -> (exists d, nunflatten s xs = Some d /\ shaped s d) <-> length xs = length (nflatten s).
Proof.
  intros HW. split.
  - intros (d & E & _). unfold nunflatten in E. by destruct (Nat.eqb_spec (length (nflatten s)) (length xs)).
  - intros HL. apply (C87_places (fun _ _ => True) s s xs HW); [by apply nrel_refl|]. clear HW. revert xs HL. induction (nflatten s) as [|a l IH]; intros [|x xs] HL; try done; constructor; [done|]. apply IH. by injection HL.
Qed.

(** flatten undoes unflatten_as. *)
Theorem C87_flatten_unflatten {A B} (s : nest B) (xs : list A) d : nwf s -> nunflatten s xs = Some d -> nflatten d = xs.
Proof.
  intros HW. unfold nunflatten. destruct (Nat.eqb_spec (length (nflatten s)) (length xs)) as [HL|]; [|done]. destruct (nbuild s xs) as [[d' rest]|] eqn:E; [|done]. cbn. intros [= ->]. pose proof (all_back s _ _ _ HW E) as HX.
  destruct (proj2 (C87_count s xs HW) (eq_sym HL)) as (d2 & E2 & HS). unfold nunflatten in E2. rewrite HL, Nat.eqb_refl, E in E2. cbn in E2. injection E2 as <-.
  pose proof (Forall2_length _ _ _ (flatten_rel _ s d HW HS)) as HL2. rewrite HX in HL. rewrite app_length in HL. assert (length rest = 0%nat) as Hr by lia. destruct rest; [|done]. by rewrite HX, app_nil_r.
Qed.

(** The flat signature the server computes has, in the order of the flattened signature, the type
    and shape of every spec; a signature the constructor of Table accepts is never refused later. *)
Theorem C87_signature order s p : (forall x, same x (order x)) -> nwf s -> table_signature order (Some s) = Some (Some p) ->
  exists es, flat_signature_top (sv_of p) = Some es /\ List.map (fun e => Some (ts_dtype e, ts_shape e)) es = List.map spec_of (nflatten s).
Proof.
  intros Ho HW. unfold table_signature. destruct (truthy s); [|done]. destruct (forallb is_spec (nflatten s)) eqn:E; [|done]. intros [= <-]. rewrite (C87_flatten s (order s) HW (Ho s)) in *. by apply all_flat.
Qed.
(** Specs only: anything else is refused. *)
Theorem C87_specs_only order s : truthy s = true -> (table_signature order (Some s) = None <-> LOther ∈ nflatten s).
Proof.
  intros HT. unfold table_signature. rewrite HT. destruct (forallb is_spec (nflatten s)) eqn:E.
  - split; [done|]. intros H. apply Is_true_true, forallb_True in E. rewrite Forall_forall in E. by specialize (E _ H).
  - split; [intros _|done]. clear HT. induction (nflatten s) as [|a l IH]; [done|]. cbn in E. destruct a; [right; by apply IH|right; by apply IH|left].
Qed.

Lemma unpack_signature {A} order s p (d : nest A) : (forall x, same x (order x)) -> nwf s -> table_signature order (Some s) = Some (Some p) -> shaped s d -> nwf p /\ shaped p d /\ truthy p = true.
Proof.
  intros Ho HW. unfold table_signature. destruct (truthy s) eqn:HT; [|done]. destruct (forallb _ _); [|done]. intros [= <-] HS. split; [|split].
  - exact (nwf_rel eq s _ (Ho s) HW).
  - eapply (nrel_trans (fun b a => eq a b)); [|by apply nrel_sym, Ho|exact HS]. done.
  - specialize (Ho s). destruct s; inversion Ho as [|? l' HL|? l' HL|? f1 f2 HP HL|? ? f1 HL]; subst; try done; cbn in *; apply Forall2_length in HL; try (by rewrite <- HL). rewrite <- HP. by rewrite <- HL.
Qed.

(** A sample of which the rows are the leaves of nested data in the structure of the table's
    signature is unpacked to that data, timestep by timestep. *)
Theorem C87_timesteps order s p m cols l ds : (forall x, same x (order x)) -> nwf s -> table_signature order (Some s) = Some (Some p) ->
  sample_round true None (inr (m, cols)) = inr (YTimesteps l) -> Forall2 (fun x d => x.2 = nflatten d /\ shaped s d) l ds ->
  exists l', nsample_round true (Some p) (inr (m, cols)) = inr (NYTimesteps l') /\ Forall2 (fun x y => y.1 = x.1) l l' /\ Forall2 (fun d y => same d y.2) ds l'.
Proof.
  intros Ho HW Ht Hs HF.
  assert (H : exists l', Forall2 (fun x y => y.1 = x.1 /\ unpack_as (Some p) x.2 = Some y.2) l l' /\ Forall2 (fun d y => same d y.2) ds l').
  { clear Hs. induction HF as [|x d l ds [Hx Hd] _ (l' & IH1 & IH2)]; [by exists []|]. destruct (unpack_signature order s p d Ho HW Ht Hd) as (Hp & Hpd & HT). destruct (C87_unflatten p d Hp Hpd) as (d' & E & Hsd).
    exists ((x.1, d') :: l'). split; constructor; try done. cbn. split; [done|]. by rewrite HT, Hx. }
  destruct H as (l' & H1 & H2). exists l'. split; [by eapply nsplit|]. split; [|done]. eapply Forall2_impl; [exact H1|]. by intros x y [? _].
Qed.
(** The same for whole trajectories: each column goes to the place at which create_item was
    given what it was made from. *)
Theorem C87_trajectory {A} order s p m (d : nest A) (R : A -> tensor -> Prop) cols : (forall x, same x (order x)) -> nwf s -> table_signature order (Some s) = Some (Some p) ->
  shaped s d -> Forall2 R (nflatten d) cols -> exists d', nsample_round false (Some p) (inr (m, cols)) = inr (NYTrajectory m d') /\ nrel R d d'.
Proof.
  intros Ho HW Ht HS HR. destruct (unpack_signature order s p d Ho HW Ht HS) as (Hp & Hpd & HT). destruct (C87_places R p d cols Hp Hpd HR) as (d' & E & Hr). exists d'. split; [|done]. unfold nsample_round, unpack_as. by rewrite HT, E.
Qed.

(** Data inserted by Client.insert and sampled by Client.sample, both with default arguments, is
    one timestep with the data as it was given. *)
Theorem C87_insert_sample order s p (d0 : nest tensor) prios sigs flight key tr w pre r suf chunks c ii d mt : (forall x, same x (order x)) -> nwf s -> table_signature order (Some s) = Some (Some p) -> shaped s d0 ->
  match flight with Some n => 1 <= n | None => True end ->
  lw_trace (insert_conf sigs flight) (lw_new (insert_conf sigs flight) key) tr w -> insert_run (nflatten d0) prios tr -> nflatten d0 <> [] -> Forall tensor_ok (nflatten d0) ->
  l_wire w = pre ++ r :: suf -> async_run (fun _ => true) ∅ pre = Some chunks -> async_insert_request (fun _ => true) chunks r = Some (IInsert c ii d) ->
  exists sm cols d', as_sample_local (Stream.mkSampled (mkSinfo mt (ii_traj ii) (replicate (length (nflatten d0)) false)) d) = AOk sm /\ as_trajectory sm = SROk cols /\
    nsample_round true (Some p) (inr cols) = inr (NYTimesteps [(mt, d')]) /\ same d0 d'.
Proof.
  intros Ho HW Ht HS Hfl H1 H2 H3 H4 H5 H6 H7. destruct (C77_insert_sample (nflatten d0) prios sigs flight key tr w pre r suf chunks c ii d mt Hfl H1 H2 H3 H4 H5 H6 H7) as (sm & [m cols] & E1 & E2 & E3).
  destruct (unpack_signature order s p d0 Ho HW Ht HS) as (Hp & Hpd & HT). destruct (C87_unflatten p d0 Hp Hpd) as (d' & E & Hr). exists sm, (m, cols), d'. split; [done|]. split; [done|]. split; [|done].
  eapply nsplit; [exact E3|]. constructor; [|constructor]. cbn. split; [done|]. by rewrite HT.
Qed.
(** Without a signature (or unpack_as_table_signature=False) the leaves come as a list. *)
Theorem C87_no_signature m cols l : sample_round true None (inr (m, cols)) = inr (YTimesteps l) ->
  nsample_round true None (inr (m, cols)) = inr (NYTimesteps (List.map (fun x => (x.1, NList (List.map NLeaf x.2))) l)).
Proof. intros H. eapply nsplit; [exact H|]. clear. induction l as [|x l IH]; constructor; done. Qed.

(** ** Limits *)

Definition spec0 : nest sleaf := NLeaf (LSpec "" 1 []).
(** The structure of the data is not checked, only the leaves: a dictionary inserted into a
    table the signature of which is a named tuple with the same fields (all of the same type) comes
    back with the values exchanged, because the fields of a dictionary are taken in the order of
    their names. *)
Theorem C87_structure_refuted : ~ (forall n (fs : list (string * nest sleaf)) (fd fd' : list (string * nest Z)) k x y, nwf (NNamed n fs) -> NoDup (fst <$> fd) -> (fst <$> fd) ≡ₚ (fst <$> fs) ->
  nunflatten (NNamed n fs) (nflatten (NDict fd)) = Some (NNamed n fd') -> (k, NLeaf x) ∈ fd -> (k, NLeaf y) ∈ fd' -> x = y).
Proof.
  intros H. specialize (H "S"%string [("obs"%string, spec0); ("act"%string, spec0)] [("obs"%string, NLeaf 1); ("act"%string, NLeaf 2)] [("obs"%string, NLeaf 2); ("act"%string, NLeaf 1)] "obs"%string 1 2).
  assert (1 = 2) as [=]. apply H.
  - by repeat constructor.
  - cbn. apply NoDup_cons. split; [by intros [[=]|?%elem_of_nil]%elem_of_cons|]. apply NoDup_singleton.
  - done.
  - vm_compute. reflexivity.
  - left.
  - left.
Qed.
(** An empty structure as a signature is no signature: data with leaves is accepted and comes back as a
    list. *)
Theorem C87_empty_refuted : ~ (forall order s m cols y, (forall x, same x (order x)) -> nwf s -> forall sig, table_signature order (Some s) = Some sig ->
  nsample_round false sig (inr (m, cols)) = inr y -> length cols = length (nflatten s)).
Proof. intros H. specialize (H id (NDict []) (ex_meta 9) [vec [1]] (NYTrajectory (ex_meta 9) (NList [NLeaf (vec [1])])) (fun x => nrel_refl eq (fun _ => eq_refl) x) ltac:(by repeat constructor) None eq_refl eq_refl). discriminate H. Qed.
(** With any other signature that holds. *)
Theorem C87_leaves_match order s p m cols y : (forall x, same x (order x)) -> nwf s -> table_signature order (Some s) = Some (Some p) -> nsample_round false (Some p) (inr (m, cols)) = inr y -> length cols = length (nflatten s).
Proof.
  intros Ho HW Ht Hy. destruct (unpack_signature order s p s Ho HW Ht) as (Hp & Hpd & HT); [by apply nrel_refl|]. unfold nsample_round, unpack_as in Hy. rewrite HT in Hy. unfold nunflatten in Hy.
  rewrite <- (Forall2_length _ _ _ (flatten_rel _ p s Hp Hpd)). by destruct (Nat.eqb_spec (length (nflatten p)) (length cols)).
Qed.

(** ** Examples *)

Definition ex_sig : nest sleaf := NDict [("b"%string, NTuple [NLeaf (LSpec "x" 1 []); NDict []]); ("a"%string, NNamed "P" [("z"%string, NLeaf (LBounded "" 2 [2])); ("y"%string, NList [spec0])])].
Definition ex_nest : nest Z := NDict [("a"%string, NNamed "P" [("z"%string, NLeaf 10); ("y"%string, NList [NLeaf 20])]); ("b"%string, NTuple [NLeaf 30; NDict []])].
Lemma ex_sig_wf : nwf ex_sig.
Proof.
  unfold ex_sig. repeat first [constructor|apply Forall_cons_2|apply Forall_nil_2]; cbn; try (by intros ?%elem_of_nil). by intros [[=]|?%elem_of_nil]%elem_of_cons.
Qed.
Lemma ex_nest_shaped : shaped ex_sig ex_nest.
Proof.
  eapply (nr_dict _ _ _ [("b"%string, NTuple [NLeaf 30; NDict []]); ("a"%string, NNamed "P" [("z"%string, NLeaf 10); ("y"%string, NList [NLeaf 20])])]); [apply perm_swap|].
  constructor; [|constructor; [|constructor]]; (split; [done|]); cbn [snd].
  - constructor. constructor; [by constructor|]. constructor; [|constructor]. by apply (nr_dict _ [] [] []).
  - constructor. constructor; [split; [done|by constructor]|]. constructor; [|constructor]. split; [done|]. constructor. by repeat constructor.
Qed.
Example C87_example : nwf ex_sig /\ shaped ex_sig ex_nest /\ nflatten ex_nest = [10; 20; 30] /\
  nunflatten ex_sig [10; 20; 30] = Some (NDict [("b"%string, NTuple [NLeaf 30; NDict []]); ("a"%string, NNamed "P" [("z"%string, NLeaf 10); ("y"%string, NList [NLeaf 20])])]) /\
  table_signature id (Some ex_sig) = Some (Some ex_sig) /\ truthy ex_sig = true /\ flat_signature_top (sv_of ex_sig) = Some [mkTspec "a/z" 2 [2]; mkTspec "a/y/0" 1 []; mkTspec "b/0/x" 1 []].
Proof. split; [apply ex_sig_wf|]. split; [apply ex_nest_shaped|]. repeat split; vm_compute; reflexivity. Qed.
Example C87_count_example : nunflatten ex_sig [10; 20] = None /\ nunflatten ex_sig [1; 2; 3; 4] = None.
Proof. split; reflexivity. Qed.
Example C87_specs_example : truthy (NTuple [spec0; NLeaf LOther]) = true /\ table_signature id (Some (NTuple [spec0; NLeaf LOther])) = None.
Proof. split; reflexivity. Qed.
(** Two timesteps of a table with a signature. *)
Example C87_timesteps_example : let s := NDict [("r"%string, NLeaf (LSpec "" 1 [2])); ("o"%string, spec0)] in
  nwf s /\ table_signature id (Some s) = Some (Some s) /\
  sample_round true None (inr (ex_meta 9, cex_cols)) = inr (YTimesteps [(ex_meta 9, [scalar 1; vec [1; 2]]); (ex_meta 9, [scalar 2; vec [2; 3]]); (ex_meta 9, [scalar 3; vec [3; 4]])]) /\
  nsample_round true (Some s) (inr (ex_meta 9, cex_cols)) = inr (NYTimesteps (List.map (fun x : tensor * tensor => (ex_meta 9, NDict [("r"%string, NLeaf x.2); ("o"%string, NLeaf x.1)])) [(scalar 1, vec [1; 2]); (scalar 2, vec [2; 3]); (scalar 3, vec [3; 4])])).
Proof.
  intros s. split; [|split; [|split]; vm_compute; reflexivity]. constructor; [|by repeat constructor]. cbn. apply NoDup_cons. split; [by intros [[=]|?%elem_of_nil]%elem_of_cons|]. apply NoDup_singleton.
Qed.
(** C87_insert_sample: the run of C77_insert_example, with the data in a tuple. *)
Definition iex_nest : nest tensor := NTuple (List.map NLeaf iex_data).
Example C87_insert_example : let s := NTuple (List.map (fun _ => spec0) iex_data) in
  nwf s /\ table_signature id (Some s) = Some (Some s) /\ shaped s iex_nest /\ nflatten iex_nest = iex_data /\ iex_data <> [].
Proof. intros s. split; [by repeat constructor|]. split; [reflexivity|]. split; [by repeat constructor|]. split; [reflexivity|discriminate]. Qed.

Print Assumptions C87_unflatten.
Print Assumptions C87_places.
Print Assumptions C87_flatten.
Print Assumptions C87_count.
Print Assumptions C87_flatten_unflatten.
Print Assumptions C87_signature.
Print Assumptions C87_specs_only.
Print Assumptions C87_timesteps.
Print Assumptions C87_trajectory.
Print Assumptions C87_insert_sample.
Print Assumptions C87_no_signature.
Print Assumptions C87_structure_refuted.
Print Assumptions C87_empty_refuted.
Print Assumptions C87_leaves_match.
