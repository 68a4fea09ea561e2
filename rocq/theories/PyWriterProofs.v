(** Facts about nested structures and the invariant of the Python writer. *)
From stdpp Require Import strings gmap.
From Verif Require Import Base Signature PropSignature PyWriter.

(** ** Specification of paths *)

(** What a user finds by following a path: t['a'][0].f ... *)
Fixpoint at_path {A} (t : ptree A) (p : ppath) : option A :=
  match p, t with
  | [], PLeaf a => Some a
  | PStr k :: p, PDict l | PStr k :: p, PNamed l => t ← dict_get k l; at_path t p
  | PInt i :: p, PSeq l => t ← l !! i; at_path t p
  | _, _ => None
  end.

(** Keys and fields are distinct. *)
Inductive wf_tree {A} : ptree A -> Prop :=
| wf_leaf a : wf_tree (PLeaf a)
| wf_dict l : NoDup (fst <$> l) -> Forall (fun kt => wf_tree (snd kt)) l -> wf_tree (PDict l)
| wf_named l : NoDup (fst <$> l) -> Forall (fun kt => wf_tree (snd kt)) l -> wf_tree (PNamed l)
| wf_seq l : Forall wf_tree l -> wf_tree (PSeq l).

Section Ind.
Context {A : Type} (P : ptree A -> Prop)
  (Hleaf : forall a, P (PLeaf a))
  (Hdict : forall l, Forall (fun kt => P (snd kt)) l -> P (PDict l))
  (Hnamed : forall l, Forall (fun kt => P (snd kt)) l -> P (PNamed l))
  (Hseq : forall l, Forall P l -> P (PSeq l)).
Fixpoint ptree_ind' (t : ptree A) : P t :=
  match t with
  | PLeaf a => Hleaf a
  | PDict l => Hdict l ((fix go l : Forall (fun kt => P (snd kt)) l :=
      match l with [] => List.Forall_nil _ | kt :: l => List.Forall_cons _ _ _ (ptree_ind' (snd kt)) (go l) end) l)
  | PNamed l => Hnamed l ((fix go l : Forall (fun kt => P (snd kt)) l :=
      match l with [] => List.Forall_nil _ | kt :: l => List.Forall_cons _ _ _ (ptree_ind' (snd kt)) (go l) end) l)
  | PSeq l => Hseq l ((fix go l : Forall P l :=
      match l with [] => List.Forall_nil _ | t :: l => List.Forall_cons _ _ _ (ptree_ind' t) (go l) end) l)
  end.
End Ind.

(** ** Flattening agrees with paths *)

Lemma dict_get_elem {A} k (l : list (string * A)) v : NoDup (fst <$> l) -> (dict_get k l = Some v <-> (k, v) ∈ l).
Proof.
  unfold dict_get. induction l as [|[k' v'] l IH]; cbn; intros Hd.
  - split; [done|]. intros H. by apply elem_of_nil in H.
  - apply NoDup_cons in Hd as [Hn Hd]. destruct (String.eqb_spec k' k) as [->|Hk]; cbn.
    + split; [intros [= ->]; apply elem_of_list_here|]. intros [H|H]%elem_of_cons; [congruence|].
      exfalso. apply Hn. apply (elem_of_list_fmap_1 fst) in H. done.
    + rewrite (IH Hd). split; [by apply elem_of_list_further|]. intros [H|H]%elem_of_cons; [congruence|done].
Qed.

Lemma elem_prefixed {A} k (l : list (ppath * A)) p a : (p, a) ∈ prefixed k l <-> exists q, p = k :: q /\ (q, a) ∈ l.
Proof.
  unfold prefixed. change (List.map ?f l) with (f <$> l). rewrite elem_of_list_fmap. split.
  - intros ([q b] & E & H). cbn in E. injection E as -> ->. by exists q.
  - intros (q & -> & H). by exists (q, a).
Qed.

Lemma elem_concat_map {A B} (f : A -> list B) l x : x ∈ List.concat (List.map f l) <-> exists y, y ∈ l /\ x ∈ f y.
Proof.
  induction l as [|y l IH]; cbn.
  - split; [intros H; by apply elem_of_nil in H|]. intros (y & H & _). by apply elem_of_nil in H.
  - rewrite elem_of_app, IH. split.
    + intros [H|(z & H1 & H2)]; [exists y; split; [apply elem_of_list_here|done]|exists z; split; [by apply elem_of_list_further|done]].
    + intros (z & [->|H1]%elem_of_cons & H2); [by left|right; by exists z].
Qed.
Lemma elem_concat_imap {A B} (f : nat -> A -> list B) l x : x ∈ List.concat (imap f l) <-> exists i y, l !! i = Some y /\ x ∈ f i y.
Proof.
  revert f. induction l as [|y l IH]; intros f; cbn.
  - split; [intros H; by apply elem_of_nil in H|]. intros (i & y & H & _). by destruct i.
  - rewrite elem_of_app, IH. split.
    + intros [H|(i & z & H1 & H2)]; [by exists 0%nat, y|by exists (S i), z].
    + intros ([|i] & z & H1 & H2); [injection H1 as <-; by left|right; by exists i, z].
Qed.

Lemma flat_spec {A} (t : ptree A) p a : wf_tree t -> ((p, a) ∈ flat t <-> at_path t p = Some a).
Proof.
  revert p a. induction t as [b|l IH|l IH|l IH] using ptree_ind'; intros p a Hw; inversion Hw; subst; cbn [flat].
  - rewrite elem_of_list_singleton. split.
    + intros [= -> ->]. done.
    + destruct p as [|[] p]; cbn; [|done|done]. by intros [= ->].
  - rewrite elem_concat_map. rewrite sort_map. split.
    + intros (y & Hy & Hx). change (List.map ?f (sort_keys l)) with (f <$> sort_keys l) in Hy.
      apply elem_of_list_fmap in Hy as ([k t] & -> & Hy). cbn in Hx. rewrite sort_perm in Hy.
      apply elem_prefixed in Hx as (q & -> & Hx). cbn. apply (dict_get_elem k l t) in Hy as E; [|done]. rewrite E. cbn.
      rewrite Forall_forall in IH, H1. apply (IH _ Hy); [by apply (H1 _ Hy)|done].
    + destruct p as [|[k|i] p]; [done| |done]. cbn. intros E. destruct (dict_get k l) as [t|] eqn:Et; [|done]. cbn in E.
      apply (dict_get_elem k l t) in Et; [|done]. exists (k, flat t). split.
      * apply (elem_of_list_fmap_1_alt _ _ (k, t)); [by rewrite sort_perm|done].
      * cbn. apply elem_prefixed. exists p. split; [done|]. rewrite Forall_forall in IH, H1. apply (IH _ Et); [by apply (H1 _ Et)|done].
  - rewrite elem_concat_map. split.
    + intros (y & Hy & Hx). change (List.map ?f l) with (f <$> l) in Hy.
      apply elem_of_list_fmap in Hy as ([k t] & -> & Hy). cbn in Hx.
      apply elem_prefixed in Hx as (q & -> & Hx). cbn. apply (dict_get_elem k l t) in Hy as E; [|done]. rewrite E. cbn.
      rewrite Forall_forall in IH, H1. apply (IH _ Hy); [by apply (H1 _ Hy)|done].
    + destruct p as [|[k|i] p]; [done| |done]. cbn. intros E. destruct (dict_get k l) as [t|] eqn:Et; [|done]. cbn in E.
      apply (dict_get_elem k l t) in Et; [|done]. exists (k, flat t). split.
      * apply (elem_of_list_fmap_1_alt _ _ (k, t)); [done|done].
      * cbn. apply elem_prefixed. exists p. split; [done|]. rewrite Forall_forall in IH, H1. apply (IH _ Et); [by apply (H1 _ Et)|done].
  - rewrite elem_concat_imap. split.
    + intros (i & y & Hy & Hx). change (List.map flat l) with (flat <$> l) in Hy. rewrite list_lookup_fmap in Hy.
      destruct (l !! i) as [t|] eqn:Et; [|done]. injection Hy as <-. apply elem_prefixed in Hx as (q & -> & Hx). cbn. rewrite Et. cbn.
      apply elem_of_list_lookup_2 in Et. rewrite Forall_forall in IH, H0. apply (IH _ Et); [by apply H0|done].
    + destruct p as [|[k|i] p]; [done|done|]. cbn. intros E. destruct (l !! i) as [t|] eqn:Et; [|done]. cbn in E.
      exists i, (flat t). split; [change (List.map flat l) with (flat <$> l); by rewrite list_lookup_fmap, Et|].
      apply elem_prefixed. exists p. split; [done|]. apply elem_of_list_lookup_2 in Et. rewrite Forall_forall in IH, H0. apply (IH _ Et); [by apply H0|done].
Qed.

Definition paths {A} (t : ptree A) : list ppath := List.map fst (flat t).

Lemma paths_spec {A} (t : ptree A) p : wf_tree t -> (p ∈ paths t <-> exists a, at_path t p = Some a).
Proof.
  intros Hw. unfold paths. change (List.map fst ?l) with (fst <$> l). rewrite elem_of_list_fmap. split.
  - intros ([q a] & -> & H). exists a. by apply flat_spec.
  - intros (a & H). exists (p, a). split; [done|]. by apply flat_spec.
Qed.

Lemma map_fst_prefixed {A} k (l : list (ppath * A)) : List.map fst (prefixed k l) = List.map (cons k) (List.map fst l).
Proof. unfold prefixed. rewrite !List.map_map. done. Qed.
Lemma map_fst_concat {A} (ll : list (list (ppath * A))) : List.map fst (List.concat ll) = List.concat (List.map (List.map fst) ll).
Proof. by rewrite concat_map. Qed.

Lemma NoDup_cons_map {A} (k : A) l : NoDup l -> NoDup (List.map (cons k) l).
Proof. intros H. change (List.map (cons k) l) with (cons k <$> l). apply NoDup_fmap_2; [|done]. by intros ?? [= ->]. Qed.

(** Distinct first elements. *)
Lemma NoDup_concat_heads {B} (h : B -> pkey) (g : B -> list ppath) l :
  NoDup (h <$> l) -> Forall (fun b => NoDup (g b)) l -> NoDup (List.concat (List.map (fun b => List.map (cons (h b)) (g b)) l)).
Proof.
  induction l as [|b l IH]; cbn; intros Hh Hf; [constructor|]. apply NoDup_cons in Hh as [Hn Hh]. apply Forall_cons in Hf as [Hb Hf].
  apply NoDup_app. split; [by apply NoDup_cons_map|]. split; [|by apply IH].
  intros p Hp Hp'. change (List.map ?f (g b)) with (f <$> g b) in Hp. apply elem_of_list_fmap in Hp as (q & -> & _).
  apply elem_concat_map in Hp' as (b' & Hb' & Hp'). change (List.map ?f (g b')) with (f <$> g b') in Hp'.
  apply elem_of_list_fmap in Hp' as (q' & [= E _] & _). apply Hn. rewrite E. by apply elem_of_list_fmap_1.
Qed.

Lemma imap_keys {B C} (f : nat -> B -> C) (l : list B) : imap f l = List.map (fun ib => f (fst ib) (snd ib)) (zip (seq 0 (length l)) l).
Proof.
  assert (H : forall n, imap (fun i => f (n + i)%nat) l = List.map (fun ib => f (fst ib) (snd ib)) (zip (seq n (length l)) l)).
  { induction l as [|x l IH]; intros n; [done|]. cbn. rewrite Nat.add_0_r. f_equal. rewrite <- (IH (S n)). apply imap_ext. intros i y _. cbn. by rewrite Nat.add_succ_r. }
  apply (H 0%nat).
Qed.

Lemma sort_nodup {A} (l : list (string * A)) : NoDup (fst <$> l) -> NoDup (fst <$> sort_keys l).
Proof. intros H. by rewrite sort_perm. Qed.

Lemma NoDup_paths {A} (t : ptree A) : wf_tree t -> NoDup (paths t).
Proof.
  unfold paths. induction t as [b|l IH|l IH|l IH] using ptree_ind'; intros Hw; inversion Hw; subst; cbn [flat].
  - apply NoDup_singleton.
  - rewrite map_fst_concat, List.map_map, sort_map, List.map_map. cbn.
    rewrite (List.map_ext _ (fun kt : string * ptree A => List.map (cons (PStr (fst kt))) (List.map fst (flat (snd kt))))) by (intros; apply map_fst_prefixed).
    apply (NoDup_concat_heads (fun kt => PStr (fst kt)) (fun kt => List.map fst (flat (snd kt)))).
    + change ((fun kt : string * ptree A => PStr (fst kt)) <$> ?l) with ((PStr ∘ fst) <$> l). rewrite (list_fmap_compose fst PStr). apply NoDup_fmap_2; [by intros ?? [= ->]|]. by apply sort_nodup.
    + rewrite Forall_forall in *. intros x Hx. rewrite sort_perm in Hx. apply IH; [done|]. by apply H1.
  - rewrite map_fst_concat, !List.map_map. cbn.
    rewrite (List.map_ext _ (fun kt : string * ptree A => List.map (cons (PStr (fst kt))) (List.map fst (flat (snd kt))))) by (intros; apply map_fst_prefixed).
    apply (NoDup_concat_heads (fun kt => PStr (fst kt)) (fun kt => List.map fst (flat (snd kt)))).
    + change ((fun kt : string * ptree A => PStr (fst kt)) <$> ?l) with ((PStr ∘ fst) <$> l). rewrite (list_fmap_compose fst PStr). by apply NoDup_fmap_2; [intros ?? [= ->]|].
    + rewrite Forall_forall in *. intros x Hx. apply IH; [done|]. by apply H1.
  - rewrite map_fst_concat, imap_keys, List.map_map.
    rewrite (List.map_ext _ (fun ib : nat * list (ppath * A) => List.map (cons (PInt (fst ib))) (List.map fst (snd ib)))) by (intros; apply map_fst_prefixed).
    apply (NoDup_concat_heads (fun ib => PInt (fst ib)) (fun ib => List.map fst (snd ib))).
    + change ((fun ib : nat * list (ppath * A) => PInt (fst ib)) <$> ?l) with ((PInt ∘ fst) <$> l). rewrite (list_fmap_compose fst PInt). apply NoDup_fmap_2; [by intros ?? [= ->]|]. rewrite fst_zip by (rewrite seq_length; done). apply NoDup_seq.
    + rewrite Forall_forall in IH, H0. rewrite Forall_forall. intros [i x] Hx. apply elem_of_zip_r in Hx. change (List.map flat l) with (flat <$> l) in Hx.
      apply elem_of_list_fmap in Hx as (t & -> & Ht). cbn. apply IH; [done|]. by apply H0.
Qed.

Lemma flat_tmap {A B} (f : A -> B) t : flat (tmap f t) = List.map (fun pa => (fst pa, f (snd pa))) (flat t).
Proof.
  assert (Hpre : forall k l, prefixed k (List.map (fun pa : ppath * A => (fst pa, f (snd pa))) l) = List.map (fun pa => (fst pa, f (snd pa))) (prefixed k l)).
  { intros k l. unfold prefixed. rewrite !List.map_map. done. }
  induction t as [b|l IH|l IH|l IH] using ptree_ind'; cbn [flat tmap].
  - done.
  - rewrite concat_map, !List.map_map. cbn.
    rewrite (List.map_ext_in _ (fun x => (fst x, List.map (fun pa => (fst pa, f (snd pa))) (flat (snd x)))) l).
    + rewrite (sort_map (fun t => List.map (fun pa => (fst pa, f (snd pa))) (flat t))), (sort_map flat), !List.map_map. cbn. f_equal. apply List.map_ext. intros; apply Hpre.
    + intros x Hx. rewrite Forall_forall in IH. by rewrite IH; [|apply elem_of_list_In].
  - rewrite concat_map, !List.map_map. cbn. f_equal. apply List.map_ext_in. intros x Hx. rewrite Forall_forall in IH.
    rewrite IH; [|by apply elem_of_list_In]. apply Hpre.
  - rewrite concat_map. f_equal. rewrite !imap_keys. rewrite !List.map_length. rewrite List.map_map.
    clear -IH Hpre. generalize (0%nat). induction IH as [|t l Ht IH IH2]; intros n; [done|]. cbn. rewrite Ht. f_equal; [apply Hpre|apply IH2].
Qed.
Lemma paths_tmap {A B} (f : A -> B) t : paths (tmap f t) = paths t.
Proof. unfold paths. rewrite flat_tmap, List.map_map. done. Qed.
Lemma wf_tmap {A B} (f : A -> B) t : wf_tree t -> wf_tree (tmap f t).
Proof.
  induction t as [b|l IH|l IH|l IH] using ptree_ind'; intros Hw; inversion Hw; subst; cbn [tmap]; constructor.
  - change (List.map ?g l) with (g <$> l). rewrite <- list_fmap_compose. done.
  - apply List.Forall_map. rewrite Forall_forall in *. cbn. intros x Hx. apply IH; [done|]. by apply H1.
  - change (List.map ?g l) with (g <$> l). rewrite <- list_fmap_compose. done.
  - apply List.Forall_map. rewrite Forall_forall in *. cbn. intros x Hx. apply IH; [done|]. by apply H1.
  - apply List.Forall_map. rewrite Forall_forall in *. cbn. intros x Hx. apply IH; [done|]. by apply H0.
Qed.

(** ** unflatten_as *)


Lemma zip_prefixed {B} k ps (xs : list B) : zip (List.map (cons k) ps) xs = prefixed k (zip ps xs).
Proof. revert xs. induction ps as [|p ps IH]; intros [|x xs]; cbn; try done. by rewrite IH. Qed.
Lemma zip_app_take {B C} (l1 l2 : list B) (xs : list C) : zip (l1 ++ l2) xs = zip l1 (take (length l1) xs) ++ zip l2 (drop (length l1) xs).
Proof. revert xs. induction l1 as [|b l1 IH]; intros xs; [done|]. destruct xs as [|x xs]; cbn; [by destruct l2|]. by rewrite IH. Qed.

(** A function that takes as many elements as there are paths and puts them there. *)
Definition takes {B} (ps : list ppath) (f : list B -> option (ptree B * list B)) : Prop :=
  forall xs, (length ps <= length xs)%nat -> exists t, f xs = Some (t, drop (length ps) xs) /\ wf_tree t /\ flat t = zip ps (take (length ps) xs).

Lemma fill_keyed_spec {B} (l : list (string * (list B -> option (ptree B * list B)))) (g : string * (list B -> option (ptree B * list B)) -> list ppath) :
  Forall (fun kf => takes (g kf) (snd kf)) l ->
  forall xs, let ps := List.concat (List.map (fun kf => List.map (cons (PStr (fst kf))) (g kf)) l) in
    (length ps <= length xs)%nat -> exists ts, fill_keyed l xs = Some (ts, drop (length ps) xs) /\
      fst <$> ts = fst <$> l /\ Forall (fun kt => wf_tree (snd kt)) ts /\
      List.concat (List.map (fun kt => prefixed (PStr (fst kt)) (flat (snd kt))) ts) = zip ps (take (length ps) xs).
Proof.
  induction 1 as [|[k f] l Hf _ IH]; intros xs ps Hl.
  - exists []. done.
  - cbn in ps. unfold ps in *. clear ps. set (n1 := length (g (k, f))). rewrite app_length, List.map_length in Hl. fold n1 in Hl.
    destruct (Hf xs) as (t & E1 & Hw & Ht); [unfold n1 in Hl; lia|]. fold n1 in E1, Ht. cbn in E1.
    set (ps2 := List.concat (List.map (fun kf => List.map (cons (PStr (fst kf))) (g kf)) l)) in *.
    destruct (IH (drop n1 xs)) as (ts & E2 & Hk & Hw2 & Hfl); [rewrite drop_length; fold ps2; lia|]. fold ps2 in E2, Hfl.
    exists ((k, t) :: ts). cbn. rewrite E1. cbn. rewrite E2. cbn. rewrite drop_drop. rewrite app_length, List.map_length. fold n1.
    split; [done|]. split; [by rewrite Hk|]. split; [by constructor|].
    rewrite Hfl, Ht, zip_app_take, List.map_length. fold n1. rewrite zip_prefixed. rewrite take_take. rewrite Nat.min_l by lia.
    rewrite skipn_firstn_comm. do 3 f_equal; lia.
Qed.

Lemma fill_seq_spec {B} (l : list (list ppath * (list B -> option (ptree B * list B)))) n :
  Forall (fun kf => takes (fst kf) (snd kf)) l ->
  forall xs, let ps := List.concat (imap (fun i kf => List.map (cons (PInt (n + i))) (fst kf)) l) in
    (length ps <= length xs)%nat -> exists ts, fill_seq (List.map snd l) xs = Some (ts, drop (length ps) xs) /\
      Forall wf_tree ts /\
      List.concat (imap (fun i t => prefixed (PInt (n + i)) t) (List.map flat ts)) = zip ps (take (length ps) xs).
Proof.
  intros H. revert n. induction H as [|[q f] l Hf _ IH]; intros n xs ps Hl.
  - exists []. done.
  - cbn in ps. unfold ps in *. clear ps. set (n1 := length q). rewrite app_length, List.map_length in Hl. fold n1 in Hl.
    destruct (Hf xs) as (t & E1 & Hw & Ht); [cbn; fold n1; lia|]. cbn in E1, Ht. fold n1 in E1, Ht.
    specialize (IH (S n) (drop n1 xs)). cbn in IH.
    assert (Ei : imap ((λ (i : nat) (kf : list ppath * (list B → option (ptree B * list B))), List.map (cons (PInt (n + i))) kf.1) ∘ S) l =
      imap (fun i kf => List.map (cons (PInt (S (n + i)))) (fst kf)) l).
    { apply imap_ext. intros i x _. cbn. by rewrite Nat.add_succ_r. }
    rewrite Ei in *. set (ps2 := List.concat (imap (fun i kf => List.map (cons (PInt (S (n + i)))) (fst kf)) l)) in *.
    destruct IH as (ts & E2 & Hw2 & Hfl); [rewrite drop_length; lia|].
    exists (t :: ts). cbn. rewrite E1. cbn. rewrite E2. cbn. rewrite drop_drop. rewrite app_length, List.map_length. fold n1.
    split; [done|]. split; [by constructor|].
    rewrite Nat.add_0_r.
    rewrite (imap_ext _ (fun i t => prefixed (PInt (S (n + i))) t)) by (intros i x _; cbn; by rewrite Nat.add_succ_r).
    rewrite Hfl, Ht, zip_app_take, List.map_length. fold n1. rewrite zip_prefixed. rewrite take_take. rewrite Nat.min_l by lia.
    rewrite skipn_firstn_comm. do 3 f_equal; lia.
Qed.

Lemma sort_sorted_id {A} (l : list (string * A)) : StronglySorted le_key l -> NoDup (fst <$> l) -> sort_keys l = l.
Proof.
  intros Hs Hd. apply sorted_unique; [apply sort_perm|apply sort_sorted|].
  induction Hs as [|x l Hs IH Hf]; [constructor|]. cbn in Hd. apply NoDup_cons in Hd as [Hx Hd].
  constructor; [by apply IH|]. rewrite Forall_forall in Hf |- *. intros y Hy. destruct (Hf y Hy) as [E|E]; [|done].
  exfalso. apply Hx. rewrite E. by apply elem_of_list_fmap_1.
Qed.
Lemma sorted_keys_eq {A B} (l : list (string * A)) (l' : list (string * B)) : fst <$> l = fst <$> l' -> StronglySorted le_key l -> StronglySorted le_key l'.
Proof.
  intros E Hs. revert l' E. induction Hs as [|x l Hs IH Hf]; intros [|y l'] E; try done; [constructor|].
  cbn in E. injection E as E1 E2. constructor; [by apply IH|]. rewrite Forall_forall in Hf. rewrite Forall_forall. intros z Hz.
  assert (Hk : fst z ∈ fst <$> l) by (rewrite E2; by apply elem_of_list_fmap_1).
  apply elem_of_list_fmap in Hk as (w & Ew & Hw). specialize (Hf w Hw). unfold le_key in *. by rewrite <- E1, Ew.
Qed.

Lemma fill_spec {A B} (t : ptree A) : wf_tree t -> takes (B := B) (paths t) (fill t).
Proof.
  induction t as [b|l IH|l IH|l IH] using ptree_ind'; intros Hw; inversion Hw; subst; intros xs Hl.
  - destruct xs as [|x xs]; [cbn in Hl; lia|]. exists (PLeaf x). split; [done|]. split; [constructor|done].
  - unfold paths in *. cbn [flat] in *. rewrite map_fst_concat, List.map_map, sort_map, List.map_map in *. cbn in *.
    rewrite (List.map_ext _ (fun kt : string * ptree A => List.map (cons (PStr (fst kt))) (List.map fst (flat (snd kt))))) in * by (intros; apply map_fst_prefixed).
    cbn [fill]. rewrite sort_map.
    set (fl := List.map (fun kv : string * ptree A => (fst kv, fill (B := B) (snd kv))) (sort_keys l)).
    assert (Hex : exists g, Forall (fun kf => takes (g kf) (snd kf)) fl /\
      List.map (fun kf => List.map (cons (PStr (fst kf))) (g kf)) fl = List.map (fun kt : string * ptree A => List.map (cons (PStr (fst kt))) (List.map fst (flat (snd kt)))) (sort_keys l)).
    { exists (fun kf => match dict_get (fst kf) l with Some t => paths t | None => [] end). unfold fl. split.
      - apply List.Forall_map. rewrite Forall_forall in *. intros [k t] Hx. cbn. rewrite sort_perm in Hx.
        rewrite (proj2 (dict_get_elem k l t H0) Hx). apply (IH _ Hx). by apply (H1 _ Hx).
      - rewrite List.map_map. cbn. apply List.map_ext_in. intros [k t] Hx. apply elem_of_list_In in Hx. rewrite sort_perm in Hx. cbn.
        by rewrite (proj2 (dict_get_elem k l t H0) Hx). }
    destruct Hex as (g & Hg & Eg). rewrite <- Eg in *.
    destruct (fill_keyed_spec fl g Hg xs Hl) as (ts & E & Hk & Hwt & Hfl). exists (PDict ts). rewrite E. split; [done|].
    assert (Hkey : fst <$> ts = fst <$> sort_keys l). { rewrite Hk. unfold fl. change (List.map ?f (sort_keys l)) with (f <$> sort_keys l). rewrite <- list_fmap_compose. done. }
    assert (Hnd : NoDup (fst <$> ts)) by (rewrite Hkey; by apply sort_nodup).
    split; [by constructor|]. cbn [flat]. rewrite sort_map, List.map_map. cbn.
    rewrite sort_sorted_id; [done| |done]. apply (sorted_keys_eq (sort_keys l)); [done|apply sort_sorted].
  - unfold paths in *. cbn [flat] in *. rewrite map_fst_concat, !List.map_map in *. cbn in *.
    rewrite (List.map_ext _ (fun kt : string * ptree A => List.map (cons (PStr (fst kt))) (List.map fst (flat (snd kt))))) in * by (intros; apply map_fst_prefixed).
    cbn [fill].
    set (fl := List.map (fun kv : string * ptree A => (fst kv, fill (B := B) (snd kv))) l).
    assert (Hex : exists g, Forall (fun kf => takes (g kf) (snd kf)) fl /\
      List.map (fun kf => List.map (cons (PStr (fst kf))) (g kf)) fl = List.map (fun kt : string * ptree A => List.map (cons (PStr (fst kt))) (List.map fst (flat (snd kt)))) l).
    { exists (fun kf => match dict_get (fst kf) l with Some t => paths t | None => [] end). unfold fl. split.
      - apply List.Forall_map. rewrite Forall_forall in *. intros [k t] Hx. cbn.
        rewrite (proj2 (dict_get_elem k l t H0) Hx). apply (IH _ Hx). by apply (H1 _ Hx).
      - rewrite List.map_map. cbn. apply List.map_ext_in. intros [k t] Hx. apply elem_of_list_In in Hx. cbn.
        by rewrite (proj2 (dict_get_elem k l t H0) Hx). }
    destruct Hex as (g & Hg & Eg). rewrite <- Eg in *.
    destruct (fill_keyed_spec fl g Hg xs Hl) as (ts & E & Hk & Hwt & Hfl). exists (PNamed ts). rewrite E. split; [done|].
    assert (Hkey : fst <$> ts = fst <$> l). { rewrite Hk. unfold fl. change (List.map ?f l) with (f <$> l). rewrite <- list_fmap_compose. done. }
    split; [constructor; [by rewrite Hkey|done]|]. cbn [flat]. rewrite List.map_map. done.
  - unfold paths in *. cbn [flat] in *. rewrite map_fst_concat in *. cbn [fill].
    assert (E0 : List.map (List.map fst) (imap (fun i f => prefixed (PInt i) f) (List.map flat l)) =
      imap (fun i kf => List.map (cons (PInt (0 + i))) (fst kf)) (List.map (fun t => (paths t, fill (B := B) t)) l)).
    { rewrite !imap_keys, !List.map_length, !List.map_map. clear.
      generalize (0%nat) at 1 3. intros n. revert n. induction l as [|t l IH]; intros n; [done|]. cbn. f_equal; [apply map_fst_prefixed|apply IH]. }
    rewrite E0 in *.
    destruct (fill_seq_spec (List.map (fun t => (paths t, fill (B := B) t)) l) 0) with (xs := xs) as (ts & E & Hwt & Hfl); [|done|].
    + apply List.Forall_map. rewrite Forall_forall in *. intros t Ht. cbn. apply IH; [done|]. by apply H0.
    + rewrite List.map_map in E. cbn in E. change (fun x : ptree A => fill (B := B) x) with (fill (A := A) (B := B)) in E. exists (PSeq ts).
      rewrite E. split; [done|]. split; [by constructor|]. cbn [flat]. done.
Qed.

Lemma unflatten_spec {A B} (t : ptree A) (xs : list B) : wf_tree t -> length xs = length (paths t) ->
  exists t', unflatten_as t xs = Some t' /\ wf_tree t' /\ flat t' = zip (paths t) xs.
Proof.
  intros Hw Hl. destruct (fill_spec (B := B) t Hw xs) as (t' & E & Hw' & Hf); [lia|]. exists t'. unfold unflatten_as. rewrite E. cbn.
  rewrite <- Hl, drop_all. split; [done|]. split; [done|]. rewrite Hf. by rewrite <- Hl, firstn_all.
Qed.

(** ** The union of structures *)

Lemma existsb_key {A} k (l : list (string * A)) : existsb (fun ka => String.eqb (fst ka) k) l = true <-> k ∈ fst <$> l.
Proof.
  rewrite existsb_exists. rewrite elem_of_list_fmap. split.
  - intros (x & H1 & H2). apply String.eqb_eq in H2. exists x. split; [done|]. by apply elem_of_list_In.
  - intros (x & -> & H). exists x. split; [by apply elem_of_list_In|]. apply String.eqb_refl.
Qed.

Definition covers (a c : ptree unit) : Prop := forall p, is_Some (at_path a p) -> is_Some (at_path c p).

Lemma merge_spec (la lb r : list (string * ptree unit)) :
  Forall (fun kt => forall b c, wf_tree (snd kt) -> wf_tree b -> tree_union (snd kt) b = Some c -> wf_tree c /\ covers (snd kt) c) la ->
  NoDup (fst <$> la) -> NoDup (fst <$> lb) -> Forall (fun kt => wf_tree (snd kt)) la -> Forall (fun kt => wf_tree (snd kt)) lb ->
  merge_dicts (List.map (fun kt => (fst kt, tree_union (snd kt))) la) la lb = Some r ->
  NoDup (fst <$> r) /\ Forall (fun kt => wf_tree (snd kt)) r /\
  (forall k t, (k, t) ∈ la -> exists t', (k, t') ∈ r /\ covers t t').
Proof.
  intros Hu Hna Hnb Hwa Hwb. unfold merge_dicts.
  destruct (merge_a _ _ _) as [r1|] eqn:E1; [|done]. cbn. intros [= <-].
  assert (H1 : fst <$> r1 = fst <$> la /\ Forall (fun kt => wf_tree (snd kt)) r1 /\ (forall k t, (k, t) ∈ la -> exists t', (k, t') ∈ r1 /\ covers t t')).
  { clear Hna. revert r1 E1. induction la as [|[k v] la IH]; intros r1; cbn.
    - intros [= <-]. split; [done|]. split; [constructor|]. intros k t H. by apply elem_of_nil in H.
    - apply Forall_cons in Hu as [Hu1 Hu]. apply Forall_cons in Hwa as [Hv Hwa]. specialize (IH Hu Hwa).
      destruct (match dict_get k lb with Some w => _ | None => _ end) as [v'|] eqn:Ev; [|done]. cbn.
      destruct (merge_a _ la lb) as [r2|] eqn:E2; [|done]. cbn. intros [= <-].
      destruct (IH _ eq_refl) as (Hk & Hw & Hc).
      assert (Hv' : wf_tree v' /\ covers v v').
      { destruct (dict_get k lb) as [w|] eqn:Ew.
        - apply (dict_get_elem k lb w Hnb) in Ew. apply (Hu1 w v'); [done| |done]. rewrite Forall_forall in Hwb. by apply (Hwb _ Ew).
        - injection Ev as <-. split; [done|]. by intros p. }
      destruct Hv' as [Hv1 Hv2]. split; [cbn; by rewrite Hk|]. split; [by constructor|].
      intros k' t' [H|H]%elem_of_cons.
      + injection H as -> ->. exists v'. split; [apply elem_of_list_here|done].
      + destruct (Hc _ _ H) as (t2 & H2 & H3). exists t2. split; [by apply elem_of_list_further|done]. }
  destruct H1 as (Hk & Hw & Hc). split.
  - rewrite fmap_app, Hk. apply NoDup_app. split; [done|]. split.
    + intros k Hk1 Hk2. apply elem_of_list_fmap in Hk2 as (x & -> & Hx). apply elem_of_list_In in Hx. apply filter_In in Hx as [_ Hx].
      apply existsb_key in Hk1. by rewrite Hk1 in Hx.
    + clear -Hnb. induction lb as [|x lb IH]; cbn; [constructor|]. cbn in Hnb. apply NoDup_cons in Hnb as [Hx Hnb].
      destruct (negb _); [|by apply IH]. cbn. constructor; [|by apply IH]. intros H. apply Hx. apply elem_of_list_fmap in H as (y & -> & Hy).
      apply elem_of_list_In, filter_In in Hy as [Hy _]. apply elem_of_list_fmap_1. by apply elem_of_list_In.
  - split.
    + apply Forall_app. split; [done|]. rewrite Forall_forall in *. intros x Hx. apply elem_of_list_In, filter_In in Hx as [Hx _]. apply Hwb. by apply elem_of_list_In.
    + intros k t H. destruct (Hc k t H) as (t' & H1 & H2). exists t'. split; [|done]. apply elem_of_app. by left.
Qed.

Lemma zip_union_spec (la lb r : list (ptree unit)) :
  Forall (fun t => forall b c, wf_tree t -> wf_tree b -> tree_union t b = Some c -> wf_tree c /\ covers t c) la ->
  Forall wf_tree la -> Forall wf_tree lb -> zip_union (List.map tree_union la) lb = Some r ->
  Forall wf_tree r /\ (forall i t, la !! i = Some t -> exists t', r !! i = Some t' /\ covers t t').
Proof.
  intros Hu. revert lb r. induction Hu as [|a la Ha _ IH]; intros lb r Hwa Hwb; cbn.
  - intros [= <-]. split; [|by intros [] ?]. apply List.Forall_map. rewrite Forall_forall. intros x _. constructor.
  - apply Forall_cons in Hwa as [Hwa1 Hwa]. destruct lb as [|b lb].
    + destruct (tree_union a PNone) as [t|] eqn:Et; [|done]. cbn. destruct (zip_union _ []) as [r2|] eqn:E2; [|done]. cbn. intros [= <-].
      destruct (Ha PNone t Hwa1 (wf_leaf _) Et) as [Hw Hc]. destruct (IH [] r2 Hwa Hwb E2) as [Hw2 Hc2].
      split; [by constructor|]. intros [|i] x Hx; cbn in Hx; [injection Hx as <-; by exists t|by apply Hc2].
    + apply Forall_cons in Hwb as [Hwb1 Hwb].
      destruct (tree_union a b) as [t|] eqn:Et; [|done]. cbn. destruct (zip_union _ lb) as [r2|] eqn:E2; [|done]. cbn. intros [= <-].
      destruct (Ha b t Hwa1 Hwb1 Et) as [Hw Hc]. destruct (IH lb r2 Hwa Hwb E2) as [Hw2 Hc2].
      split; [by constructor|]. intros [|i] x Hx; cbn in Hx; [injection Hx as <-; by exists t|by apply Hc2].
Qed.

Lemma covers_keyed (mk : list (string * ptree unit) -> ptree unit) (la r : list (string * ptree unit)) :
  (mk = PDict \/ mk = PNamed) ->
  NoDup (fst <$> la) -> NoDup (fst <$> r) -> (forall k t, (k, t) ∈ la -> exists t', (k, t') ∈ r /\ covers t t') -> covers (mk la) (mk r).
Proof.
  intros Hmk Hna Hnr Hc p Hp.
  assert (E : forall l, at_path (mk l) p = match p with PStr k :: p => t ← dict_get k l; at_path t p | _ => None end) by (intros l; by destruct Hmk as [-> | ->]; destruct p as [|[] p]).
  rewrite E in Hp |- *. destruct p as [|[k|i] p]; [by destruct Hp|idtac|by destruct Hp].
  destruct (dict_get k la) as [t|] eqn:Et; [|by destruct Hp]. cbn in Hp. apply (dict_get_elem k la t Hna) in Et.
  destruct (Hc k t Et) as (t' & H1 & H2). apply (dict_get_elem k r t' Hnr) in H1. rewrite H1. cbn. by apply H2.
Qed.

Lemma tree_union_spec a b c : wf_tree a -> wf_tree b -> tree_union a b = Some c -> wf_tree c /\ covers a c.
Proof.
  revert b c. induction a as [u|la IH|la IH|la IH] using ptree_ind'; intros b c Ha Hb; inversion Ha; subst; cbn [tree_union].
  - intros [= <-]. split; [done|]. by intros p.
  - destruct b as [|lb|lb|lb]; try done. inversion Hb; subst. destruct (merge_dicts _ _ _) as [r|] eqn:E; [|done]. cbn. intros [= <-].
    destruct (merge_spec la lb r) as (Hn & Hw & Hc); try done.
    split; [by constructor|]. by apply (covers_keyed PDict); [left| | |].
  - destruct b as [|lb|lb|lb]; try done. inversion Hb; subst. destruct (forallb _ _); [|done].
    destruct (merge_dicts _ _ _) as [r|] eqn:E; [|done]. cbn. intros [= <-].
    destruct (merge_spec la lb r) as (Hn & Hw & Hc); try done.
    split; [by constructor|]. by apply (covers_keyed PNamed); [right| | |].
  - assert (Hgo : forall lb r, Forall wf_tree lb -> zip_union (List.map tree_union la) lb = Some r -> wf_tree (PSeq r) /\ covers (PSeq la) (PSeq r)).
    { intros lb r Hlb E. destruct (zip_union_spec la lb r) as (Hw & Hc); try done.
      split; [by constructor|]. intros [|[k|i] p] Hp; cbn in *; [by destruct Hp|by destruct Hp|].
      destruct (la !! i) as [t|] eqn:Et; [|by destruct Hp]. cbn in Hp. destruct (Hc i t Et) as (t' & -> & H2). cbn. by apply H2. }
    destruct b as [|lb|lb|lb]; try done; inversion Hb; subst.
    + destruct (zip_union _ _) as [r|] eqn:E; [|done]. cbn. intros [= <-]. apply (Hgo (List.map snd lb) r); [|done].
      apply List.Forall_map. done.
    + destruct (zip_union _ _) as [r|] eqn:E; [|done]. cbn. intros [= <-]. by apply (Hgo lb r).
Qed.
