(** C48: flattening of structured signatures. *)
From stdpp Require Import strings pretty.
From Verif Require Import Base Signature.

(** ** Specification: nested data and tree.flatten *)

(** Leaves are numbers that stand for tensors. *)
Inductive data :=
| DLeaf (x : Z) | DList (l : list data) | DDict (fs : list (string * data)) | DNamed (fs : list (string * data)).

(** The order of dictionary keys. *)
Inductive key_lt : string -> string -> Prop :=
| key_lt_nil c s : key_lt "" (String c s)
| key_lt_head c d s t : (Ascii.N_of_ascii c < Ascii.N_of_ascii d)%N -> key_lt (String c s) (String d t)
| key_lt_tail c s t : key_lt s t -> key_lt (String c s) (String c t).

(** tree.flatten: depth first, dictionaries in the order of their keys. *)
Inductive flattens : data -> list Z -> Prop :=
| fl_leaf x : flattens (DLeaf x) [x]
| fl_list l xss : Forall2 flattens l xss -> flattens (DList l) (concat xss)
| fl_dict fs fs' xss : fs' ≡ₚ fs -> StronglySorted (fun a b => key_lt (fst a) (fst b)) fs' ->
    Forall2 (fun kd xs => flattens (snd kd) xs) fs' xss -> flattens (DDict fs) (concat xss)
| fl_named fs xss : Forall2 (fun kd xs => flattens (snd kd) xs) fs xss -> flattens (DNamed fs) (concat xss).

(** Name of a leaf: the steps to it, the empty ones left out, with slashes. *)
Definition path_name (p : list string) : string := String.concat "/" (filter (fun s => s <> ""%string) p).

(** The data has the structure of the signature; [ok] tells whether a tensor
    has the type and shape of a leaf with a given name. *)
Section Conforms.
Context (ok : tspec -> Z -> Prop).
Inductive conforms : list string -> sv -> data -> Prop :=
| co_spec p n t s x : ok (mkTspec (path_name (p ++ [n])) t s) x -> conforms p (SSpec n t s) (DLeaf x)
| co_bounded p n t s x : ok (mkTspec (path_name (p ++ [n])) t s) x -> conforms p (SBounded n t s) (DLeaf x)
| co_list p l l' : length l = length l' ->
    (forall i v d, l !! i = Some v -> l' !! i = Some d -> conforms (p ++ [pretty i]) v d) -> conforms p (SList l) (DList l')
| co_tuple p l l' : length l = length l' ->
    (forall i v d, l !! i = Some v -> l' !! i = Some d -> conforms (p ++ [pretty i]) v d) -> conforms p (STuple l) (DList l')
| co_dict p fs fs' fs'' : fs'' ≡ₚ fs' ->
    Forall2 (fun kv kd => fst kv = fst kd /\ conforms (p ++ [fst kv]) (snd kv) (snd kd)) fs fs'' -> conforms p (SDict fs) (DDict fs')
| co_named p fs fs' :
    Forall2 (fun kv kd => fst kv = fst kd /\ conforms (p ++ [fst kv]) (snd kv) (snd kd)) fs fs' -> conforms p (SNamed fs) (DNamed fs').
End Conforms.

Fixpoint supported (v : sv) : bool :=
  match v with
  | SSpec _ _ _ | SBounded _ _ _ => true
  | SList l | STuple l => forallb supported l
  | SDict fs | SNamed fs => forallb (fun kv => supported (snd kv)) fs
  | SOther => false
  end.
Fixpoint leaves (v : sv) : nat :=
  match v with
  | SSpec _ _ _ | SBounded _ _ _ => 1%nat
  | SList l | STuple l => list_sum (List.map leaves l)
  | SDict fs | SNamed fs => list_sum (List.map (fun kv => leaves (snd kv)) fs)
  | SOther => 0%nat
  end.

(** ** Strings and sorting *)

Lemma leb_refl a : str_leb a a = true.
Proof. induction a as [|x a IH]; cbn; [done|]. by rewrite N.ltb_irrefl. Qed.
Lemma leb_total a b : str_leb a b = false -> str_leb b a = true.
Proof.
  revert b. induction a as [|x a IH]; intros [|y b]; cbn; try done.
  destruct (N.ltb_spec (Ascii.N_of_ascii x) (Ascii.N_of_ascii y)), (N.ltb_spec (Ascii.N_of_ascii y) (Ascii.N_of_ascii x)); try done; try lia. apply IH.
Qed.
Lemma leb_key_lt a b : str_leb a b = true -> a = b \/ key_lt a b.
Proof.
  revert b. induction a as [|x a IH]; intros [|y b]; cbn; try done.
  - by left.
  - right. constructor.
  - destruct (N.ltb_spec (Ascii.N_of_ascii x) (Ascii.N_of_ascii y)); [right; by constructor|].
    destruct (N.ltb_spec (Ascii.N_of_ascii y) (Ascii.N_of_ascii x)); [done|]. intros H1.
    assert (E : Ascii.N_of_ascii x = Ascii.N_of_ascii y) by lia. assert (x = y) as -> by (by rewrite <- (Ascii.ascii_N_embedding x), E, Ascii.ascii_N_embedding).
    destruct (IH b H1) as [->|]; [by left|right; by constructor].
Qed.
Lemma key_lt_irrefl a b : key_lt a b -> a <> b.
Proof. induction 1 as [c s|c d s t Hc|c s t H IH]; intros E; [done|injection E as -> ->; lia|injection E as E; by apply IH]. Qed.
Lemma key_lt_trans a b c : key_lt a b -> key_lt b c -> key_lt a c.
Proof.
  intros H. revert c. induction H as [x s|x y s t Hxy|x s t H IH]; intros c Hc; inversion Hc; subst; try (by constructor).
  - constructor. lia.
  - apply key_lt_tail. by apply IH.
Qed.
Lemma key_lt_asym a b : key_lt a b -> key_lt b a -> False.
Proof. intros H1 H2. by apply (key_lt_irrefl a a (key_lt_trans _ _ _ H1 H2)). Qed.

Lemma insert_perm {A} (x : string * A) l : insert_key x l ≡ₚ x :: l.
Proof. induction l as [|y l IH]; cbn; [done|]. destruct (str_leb _ _); [done|]. rewrite IH. apply perm_swap. Qed.
Lemma sort_perm {A} (l : list (string * A)) : sort_keys l ≡ₚ l.
Proof. induction l as [|x l IH]; cbn; [done|]. unfold sort_keys in *. cbn. by rewrite insert_perm, IH. Qed.

Definition le_key {A} (a b : string * A) : Prop := fst a = fst b \/ key_lt (fst a) (fst b).
Lemma le_key_trans {A} (a b c : string * A) : le_key a b -> le_key b c -> le_key a c.
Proof. unfold le_key. intros [->|H1] [<-|H2]; auto. right. by apply (key_lt_trans _ (fst b)). Qed.

Lemma insert_sorted {A} (x : string * A) l : StronglySorted le_key l -> StronglySorted le_key (insert_key x l).
Proof.
  induction 1 as [|y l Hs IH Hf]; cbn; [repeat constructor|]. destruct (str_leb (fst x) (fst y)) eqn:E.
  - apply leb_key_lt in E. constructor; [by constructor|]. constructor; [done|]. apply (Forall_impl _ _ _ Hf).
    intros z Hz. by apply (le_key_trans _ y).
  - apply leb_total, leb_key_lt in E. constructor; [done|]. rewrite insert_perm. constructor; [|done].
    unfold le_key. done.
Qed.
Lemma sort_sorted {A} (l : list (string * A)) : StronglySorted le_key (sort_keys l).
Proof. unfold sort_keys. induction l as [|x l IH]; cbn; [constructor|]. by apply insert_sorted. Qed.

Lemma insert_map {A B} (g : A -> B) x l : insert_key (fst x, g (snd x)) (List.map (fun kv => (fst kv, g (snd kv))) l) =
  List.map (fun kv => (fst kv, g (snd kv))) (insert_key x l).
Proof. induction l as [|y l IH]; cbn; [done|]. destruct (str_leb _ _); cbn; [done|]. by rewrite IH. Qed.
Lemma sort_map {A B} (g : A -> B) (l : list (string * A)) :
  sort_keys (List.map (fun kv => (fst kv, g (snd kv))) l) = List.map (fun kv => (fst kv, g (snd kv))) (sort_keys l).
Proof. unfold sort_keys. induction l as [|x l IH]; cbn; [done|]. by rewrite IH, insert_map. Qed.

(** Sorted lists of pairs with distinct keys are equal when they have the same
    elements. *)
Lemma sorted_unique {A} (l1 l2 : list (string * A)) : l1 ≡ₚ l2 -> StronglySorted le_key l1 ->
  StronglySorted (fun a b => key_lt (fst a) (fst b)) l2 -> l1 = l2.
Proof.
  intros HP H1 H2.
  assert (Hd : NoDup (fst <$> l1)).
  { rewrite HP. clear -H2. induction H2 as [|x l Hs IH Hf]; cbn; [constructor|]. constructor; [|done].
    intros (y & E & Hy)%elem_of_list_fmap. rewrite Forall_forall in Hf. specialize (Hf y Hy). by apply key_lt_irrefl in Hf. }
  assert (H3 : StronglySorted (fun a b : string * A => key_lt (fst a) (fst b)) l1).
  { clear -H1 Hd. induction H1 as [|x l Hs IH Hf]; [constructor|]. cbn in Hd. apply NoDup_cons in Hd as [Hx Hd].
    constructor; [by apply IH|]. rewrite Forall_forall in Hf |- *. intros y Hy. destruct (Hf y Hy) as [E|E]; [|done].
    exfalso. apply Hx. rewrite E. by apply elem_of_list_fmap_1. }
  revert l2 HP H2. clear H1 Hd. induction H3 as [|x l1 Hs IH Hf]; intros l2 HP H2.
  - by apply Permutation_nil in HP.
  - destruct H2 as [|y l2 H2 Hf2]; [by apply Permutation_sym, Permutation_nil in HP|].
    assert (x = y) as ->.
    { assert (Hx : x ∈ y :: l2) by (rewrite <- HP; apply elem_of_list_here). apply elem_of_cons in Hx as [?|Hx]; [done|].
      assert (Hy : y ∈ x :: l1) by (rewrite HP; apply elem_of_list_here). apply elem_of_cons in Hy as [?|Hy]; [done|].
      rewrite Forall_forall in Hf, Hf2. specialize (Hf y Hy). specialize (Hf2 x Hx). exfalso. by apply (key_lt_asym (fst x) (fst y)). }
    f_equal. apply IH; [|done]. by apply Permutation_cons_inv in HP.
Qed.

Lemma app_nil_s (a : string) : (a +:+ "")%string = a.
Proof. induction a as [|x a IH]; [done|]. change ((String x a) +:+ "")%string with (String x (a +:+ "")%string). by rewrite IH. Qed.
Lemma app_assoc_s (a b c : string) : (a +:+ (b +:+ c))%string = ((a +:+ b) +:+ c)%string.
Proof.
  induction a as [|x a IH]; [done|]. change ((String x a) +:+ (b +:+ c))%string with (String x (a +:+ (b +:+ c)))%string.
  by rewrite IH.
Qed.
Lemma concat_snoc l v : l <> [] -> String.concat "/" (l ++ [v]) = (String.concat "/" l +:+ ("/" +:+ v))%string.
Proof.
  induction l as [|x l IH]; [done|]. intros _. destruct l as [|y l]; [done|].
  change (String.concat "/" ((x :: y :: l) ++ [v])) with (x +:+ ("/" +:+ String.concat "/" ((y :: l) ++ [v])))%string.
  change (String.concat "/" (x :: y :: l)) with (x +:+ ("/" +:+ String.concat "/" (y :: l)))%string.
  rewrite IH by done. by rewrite !app_assoc_s.
Qed.
Lemma concat_nonempty l : l <> [] -> Forall (fun s => s <> ""%string) l -> String.concat "/" l <> ""%string.
Proof.
  intros Hl Hf. destruct l as [|x l]; [done|]. apply Forall_cons in Hf as [Hx _]. destruct x as [|c x]; [done|].
  by destruct l.
Qed.

(** The names the code builds step by step are the names of the paths. *)
Lemma extend_path p v : extend_context (path_name p) v = path_name (p ++ [v]).
Proof.
  unfold path_name, extend_context. rewrite filter_app. set (q := filter _ p).
  assert (Hf : Forall (fun s => s <> ""%string) q) by (apply Forall_forall; intros s Hs; by apply elem_of_list_filter in Hs as [? _]).
  destruct (String.eqb_spec v "") as [->|Hv].
  - rewrite filter_cons_False by (intros H; by apply H). rewrite filter_nil, app_nil_r, andb_false_r. by rewrite !app_nil_s.
  - rewrite filter_cons_True, filter_nil by done. destruct (decide (q = [])) as [Hq|Hq].
    + rewrite Hq. done.
    + rewrite concat_snoc by done. destruct (String.eqb_spec (String.concat "/" q) "") as [E|E]; [|done].
      exfalso. by apply (concat_nonempty q).
Qed.

(** ** Induction over signatures *)

Section SvInd.
Context (P : sv -> Prop)
  (H1 : forall n t s, P (SSpec n t s)) (H2 : forall n t s, P (SBounded n t s))
  (H3 : forall l, Forall P l -> P (SList l)) (H4 : forall l, Forall P l -> P (STuple l))
  (H5 : forall fs, Forall (fun kv => P (snd kv)) fs -> P (SDict fs)) (H6 : forall fs, Forall (fun kv => P (snd kv)) fs -> P (SNamed fs))
  (H7 : P SOther).
Fixpoint sv_ind2 (v : sv) : P v :=
  let go := fix go (l : list sv) : Forall P l :=
    match l with [] => @Forall_nil_2 _ _ | x :: l => @Forall_cons_2 _ _ _ _ (sv_ind2 x) (go l) end in
  let go2 := fix go2 (l : list (string * sv)) : Forall (fun kv => P (snd kv)) l :=
    match l with [] => @Forall_nil_2 _ _ | x :: l => @Forall_cons_2 _ (fun kv => P (snd kv)) _ _ (sv_ind2 (snd x)) (go2 l) end in
  match v with
  | SSpec n t s => H1 n t s | SBounded n t s => H2 n t s
  | SList l => H3 l (go l) | STuple l => H4 l (go l)
  | SDict fs => H5 fs (go2 fs) | SNamed fs => H6 fs (go2 fs)
  | SOther => H7
  end.
End SvInd.

Lemma Forall2_perm_l {A B} (R : A -> B -> Prop) l1 l1' l2 : l1' ≡ₚ l1 -> Forall2 R l1 l2 -> exists l2', l2' ≡ₚ l2 /\ Forall2 R l1' l2'.
Proof.
  intros HP. symmetry in HP. revert l2. induction HP as [|x l l' HP IH|x y l|l l' l'' H1 IH1 H2 IH2]; intros l2 HF.
  - apply Forall2_nil_inv_l in HF as ->. exists []. by repeat constructor.
  - apply Forall2_cons_inv_l in HF as (b & l2' & Hb & HF & ->). destruct (IH _ HF) as (l3 & HP3 & HF3).
    exists (b :: l3). split; [by rewrite HP3|by constructor].
  - apply Forall2_cons_inv_l in HF as (b & l2' & Hb & HF & ->). apply Forall2_cons_inv_l in HF as (c & l3 & Hc & HF & ->).
    exists (c :: b :: l3). split; [apply perm_swap|by repeat constructor].
  - destruct (IH1 _ HF) as (l3 & HP3 & HF3). destruct (IH2 _ HF3) as (l4 & HP4 & HF4).
    exists l4. split; [by rewrite HP4|done].
Qed.

Section Main.
Context (ok : tspec -> Z -> Prop).
Definition good v : Prop := forall p d xs, conforms ok p v d -> flattens d xs ->
  exists es, flat_signature v (path_name p) = Some es /\ Forall2 ok es xs.

Lemma good_fields p fs fd xss :
  Forall (fun kv : string * sv => good (snd kv)) fs ->
  Forall2 (fun kv kd => fst kv = fst kd /\ conforms ok (p ++ [fst kv]) (snd kv) (snd kd)) fs fd ->
  Forall2 (fun (kd : string * data) xs => flattens (snd kd) xs) fd xss ->
  exists es, concat_opt (List.map (fun kf => snd kf (extend_context (path_name p) (fst kf)))
                          (List.map (fun kv => (fst kv, flat_signature (snd kv))) fs)) = Some es /\
             Forall2 ok es (concat xss).
Proof.
  intros HI H. revert xss. induction H as [|kv kd fs fd [Hk Hc] H IH]; intros xss Hx.
  - apply Forall2_nil_inv_l in Hx as ->. exists []. by repeat constructor.
  - apply Forall2_cons_inv_l in Hx as (xs & xss' & Hxs & Hx & ->). apply Forall_cons in HI as [Hg HI].
    destruct (IH HI _ Hx) as (es & He & Hok). destruct (Hg _ _ _ Hc Hxs) as (es1 & He1 & Hok1).
    exists (es1 ++ es). cbn [List.map concat_opt fst snd concat]. rewrite extend_path, He1. cbn [mbind option_bind].
    rewrite He. cbn. split; [done|]. by apply Forall2_app.
Qed.

Lemma good_list p l ld xss (n : nat) :
  Forall good l -> length l = length ld ->
  (forall i v d, l !! i = Some v -> ld !! i = Some d -> conforms ok (p ++ [pretty (n + i)%nat]) v d) ->
  Forall2 flattens ld xss ->
  exists es, concat_opt (imap (fun i f => f (extend_context (path_name p) (pretty (n + i)%nat))) (List.map flat_signature l)) = Some es /\
             Forall2 ok es (concat xss).
Proof.
  intros HI. revert n ld xss. induction HI as [|v l Hg HI IH]; intros n ld xss Hlen Hc Hx; destruct ld as [|d ld]; try done.
  - apply Forall2_nil_inv_l in Hx as ->. exists []. by repeat constructor.
  - apply Forall2_cons_inv_l in Hx as (xs & xss' & Hxs & Hx & ->). injection Hlen as Hlen.
    destruct (IH (S n) ld xss' Hlen) as (es & He & Hok); [|done|].
    { intros i v' d' Hv' Hd'. replace (S n + i)%nat with (n + S i)%nat by lia. by apply (Hc (S i)). }
    destruct (Hg _ _ _ (Hc 0%nat v d eq_refl eq_refl) Hxs) as (es1 & He1 & Hok1).
    exists (es1 ++ es). cbn [List.map]. rewrite imap_cons. cbn [concat_opt]. rewrite extend_path, He1. cbn [mbind option_bind].
    assert (E : imap ((fun (i : nat) (f : string -> option (list tspec)) => f (extend_context (path_name p) (pretty (n + i)%nat))) ∘ S) (List.map flat_signature l) =
                imap (fun (i : nat) (f : string -> option (list tspec)) => f (extend_context (path_name p) (pretty (S n + i)%nat))) (List.map flat_signature l)).
    { apply imap_ext. intros i x _. cbn. by replace (n + S i)%nat with (S (n + i)) by lia. }
    rewrite E, He. cbn. split; [done|]. by apply Forall2_app.
Qed.

Lemma all_good v : good v.
Proof.
  induction v as [n t s|n t s|l IH|l IH|fs IH|fs IH|] using sv_ind2; intros p d xs Hc Hf.
  - inversion Hc; subst. inversion Hf; subst. cbn. rewrite extend_path. eexists. split; [done|]. by repeat constructor.
  - inversion Hc; subst. inversion Hf; subst. cbn. rewrite extend_path. eexists. split; [done|]. by repeat constructor.
  - inversion Hc; subst. inversion Hf; subst. by apply (good_list p l l' xss 0%nat).
  - inversion Hc; subst. inversion Hf; subst. by apply (good_list p l l' xss 0%nat).
  - inversion Hc as [| | | |p' fs0 fd fd2 HP H2|]; subst. inversion Hf as [| |fd' fd3 xss HP3 HS3 HF3|]; subst.
    destruct (Forall2_perm_l _ _ (sort_keys fs) _ (sort_perm fs) H2) as (fd4 & HP4 & HF4).
    assert (fd4 = fd3) as ->.
    { apply sorted_unique; [by rewrite HP4, HP|  |done].
      assert (HS := sort_sorted fs). clear -HS HF4. induction HF4 as [|kv kd l l' [Hk _] H IH]; [constructor|].
      apply StronglySorted_inv in HS as [HS Hf]. constructor; [by apply IH|].
      clear -Hk Hf H. induction H as [|kv' kd' l l' [Hk' _] H IH]; [constructor|]. apply Forall_cons in Hf as [Ha Hf].
      constructor; [|by apply IH]. unfold le_key in *. by rewrite <- Hk, <- Hk'. }
    cbn [flat_signature]. rewrite sort_map. apply (good_fields p (sort_keys fs) fd3); try done. by rewrite sort_perm.
  - inversion Hc; subst. inversion Hf; subst. cbn [flat_signature]. by apply (good_fields p fs fs').
  - inversion Hc.
Qed.
End Main.

(** ** C48 *)

(** For every tensor predicate [ok] about names, types and shapes: if the data
    has the structure of the signature, with [ok] at every leaf, then the flat
    signature is computed and its i-th entry is the one of the i-th tensor of
    the flattened data.  (Dictionary fields may be listed in any order.) *)
Theorem C48_order ok v d xs : conforms ok [] v d -> flattens d xs ->
  exists es, flat_signature_top v = Some es /\ Forall2 ok es xs.
Proof. intros H1 H2. by apply (all_good ok v [] d xs). Qed.

Lemma concat_opt_some {A} (l : list (option (list A))) es : concat_opt l = Some es ->
  length es = list_sum (List.map (fun o => match o with Some x => length x | None => 0%nat end) l).
Proof.
  revert es. induction l as [|[x|] l IH]; intros es; cbn; [by intros [= <-]| |done].
  destruct (concat_opt l) as [y|]; cbn; [|done]. intros [= <-]. rewrite app_length. by rewrite (IH y eq_refl).
Qed.
Lemma concat_opt_is_some {A} (l : list (option (list A))) : is_Some (concat_opt l) <-> Forall is_Some l.
Proof.
  induction l as [|[x|] l IH]; cbn; [split; [constructor|by eexists]| |].
  - destruct (concat_opt l) as [y|]; cbn.
    + split; [|by eexists]. intros _. constructor; [by eexists|]. by apply IH.
    + split; [by intros []|]. intros H. apply Forall_cons in H as [_ H]. by apply IH in H as [].
  - split; [by intros []|]. intros H. apply Forall_cons in H as [[] _]. done.
Qed.

Lemma forallb_Forall' {A} (f : A -> bool) l : forallb f l = true <-> Forall (fun x => f x = true) l.
Proof. rewrite forallb_forall, Forall_forall. by setoid_rewrite elem_of_list_In. Qed.
Lemma list_supported_from l n ctx : Forall (fun v => forall ctx, is_Some (flat_signature v ctx) <-> supported v = true) l ->
  Forall is_Some (imap (fun i f => f (extend_context ctx (pretty (n + i)%nat))) (List.map flat_signature l)) <-> forallb supported l = true.
Proof.
  intros H. revert n. induction H as [|v l Hv H IH]; intros n; cbn [List.map forallb]; [by split; [|constructor]|].
  rewrite imap_cons, Forall_cons, andb_true_iff, Hv, <- (IH (S n)).
  enough (E : imap ((fun (i : nat) (f : string -> option (list tspec)) => f (extend_context ctx (pretty (n + i)%nat))) ∘ S) (List.map flat_signature l) =
              imap (fun (i : nat) (f : string -> option (list tspec)) => f (extend_context ctx (pretty (S n + i)%nat))) (List.map flat_signature l)) by (by rewrite E).
  apply imap_ext. intros i x _. cbn. by replace (n + S i)%nat with (S (n + i)) by lia.
Qed.
Lemma list_supported l : Forall (fun v => forall ctx, is_Some (flat_signature v ctx) <-> supported v = true) l -> forall ctx,
  Forall is_Some (imap (fun i f => f (extend_context ctx (pretty i))) (List.map flat_signature l)) <-> forallb supported l = true.
Proof. intros H ctx. by apply (list_supported_from l 0%nat ctx). Qed.
Lemma fields_supported (fs : list (string * sv)) ctx :
  Forall (fun kv => forall ctx, is_Some (flat_signature (snd kv) ctx) <-> supported (snd kv) = true) fs ->
  Forall is_Some (List.map (fun kf => snd kf (extend_context ctx (fst kf))) (List.map (fun kv => (fst kv, flat_signature (snd kv))) fs)) <->
  forallb (fun kv => supported (snd kv)) fs = true.
Proof.
  induction 1 as [|kv fs Hv H IH]; cbn [List.map forallb fst snd]; [by split; [|constructor]|].
  by rewrite Forall_cons, andb_true_iff, Hv, IH.
Qed.

Lemma list_count l : Forall (fun v => forall es ctx, flat_signature v ctx = Some es -> length es = leaves v) l -> forall es n ctx,
  concat_opt (imap (fun i f => f (extend_context ctx (pretty (n + i)%nat))) (List.map flat_signature l)) = Some es ->
  length es = list_sum (List.map leaves l).
Proof.
  induction 1 as [|v l Hv H IH]; intros es n ctx; cbn [List.map]; [by intros [= <-]|]. rewrite imap_cons. cbn [concat_opt].
  destruct (flat_signature v _) as [x|] eqn:Ex; cbn [mbind option_bind]; [|done].
  assert (E : imap ((fun (i : nat) (f : string -> option (list tspec)) => f (extend_context ctx (pretty (n + i)%nat))) ∘ S) (List.map flat_signature l) =
              imap (fun (i : nat) (f : string -> option (list tspec)) => f (extend_context ctx (pretty (S n + i)%nat))) (List.map flat_signature l)).
  { apply imap_ext. intros i y _. cbn. by replace (n + S i)%nat with (S (n + i)) by lia. }
  rewrite E. clear E. destruct (concat_opt _) as [y|] eqn:Ey; cbn [mbind option_bind]; [|done]. intros [= <-].
  rewrite app_length. cbn [list_sum foldr]. apply Hv in Ex. apply IH in Ey. unfold list_sum in *. cbn [foldr]. lia.
Qed.
Lemma fields_count fs : Forall (fun kv : string * sv => forall es ctx, flat_signature (snd kv) ctx = Some es -> length es = leaves (snd kv)) fs ->
  forall es ctx,
  concat_opt (List.map (fun kf => snd kf (extend_context ctx (fst kf))) (List.map (fun kv => (fst kv, flat_signature (snd kv))) fs)) = Some es ->
  length es = list_sum (List.map (fun kv => leaves (snd kv)) fs).
Proof.
  induction 1 as [|v l Hv H IH]; intros es ctx; cbn [List.map]; [by intros [= <-]|]. cbn [concat_opt fst snd].
  destruct (flat_signature (snd v) _) as [x|] eqn:Ex; cbn [mbind option_bind]; [|done].
  destruct (concat_opt _) as [y|] eqn:Ey; cbn [mbind option_bind]; [|done]. intros [= <-].
  rewrite app_length. apply Hv in Ex. apply IH in Ey. unfold list_sum in *. cbn [foldr]. lia.
Qed.
Lemma list_sum_perm' (l1 l2 : list (string * sv)) : l1 ≡ₚ l2 ->
  list_sum (List.map (fun kv => leaves (snd kv)) l1) = list_sum (List.map (fun kv => leaves (snd kv)) l2).
Proof. induction 1; unfold list_sum in *; cbn in *; lia. Qed.

(** Whether the call succeeds depends only on the kinds of nodes: it fails if
    and only if some node is not a tensor spec, list, tuple or dictionary. *)
Theorem C48_error v ctx : is_Some (flat_signature v ctx) <-> supported v = true.
Proof.
  revert ctx. induction v as [n t s|n t s|l IH|l IH|fs IH|fs IH|] using sv_ind2; intros ctx; cbn [flat_signature supported].
  - split; [done|by eexists].
  - split; [done|by eexists].
  - rewrite concat_opt_is_some. apply (list_supported l IH).
  - rewrite concat_opt_is_some. apply (list_supported l IH).
  - rewrite concat_opt_is_some, sort_map. rewrite fields_supported by (by rewrite sort_perm).
    by rewrite !forallb_Forall', sort_perm.
  - rewrite concat_opt_is_some. by apply fields_supported.
  - by split; [intros []|].
Qed.

(** One entry for each tensor spec in the signature. *)
Theorem C48_count v es : flat_signature_top v = Some es -> length es = leaves v.
Proof.
  unfold flat_signature_top. generalize ""%string as ctx. revert es.
  induction v as [n t s|n t s|l IH|l IH|fs IH|fs IH|] using sv_ind2; intros es ctx; cbn [flat_signature leaves].
  - by intros [= <-].
  - by intros [= <-].
  - intros H. by apply (list_count l IH _ 0%nat ctx).
  - intros H. by apply (list_count l IH _ 0%nat ctx).
  - rewrite sort_map. intros H. rewrite (fields_count (sort_keys fs) ltac:(by rewrite sort_perm) _ _ H).
    apply list_sum_perm'. by rewrite sort_perm.
  - apply (fields_count fs IH).
  - done.
Qed.

(** ** A concrete case *)

Definition sig1 : sv :=
  SDict [("z", SSpec "reward" 1 []); ("a", SList [SSpec "" 2 [3; 4]; SDict [("y", SBounded "lim" 1 [7]); ("b", SSpec "" 9 [-1])]])]%string%Z.
Definition data1 : data :=
  DDict [("a", DList [DLeaf 20; DDict [("b", DLeaf 90); ("y", DLeaf 17)]]); ("z", DLeaf 10)]%string.

Example C48_example_flat : flat_signature_top sig1 =
  Some [mkTspec "a/0" 2 [3; 4]; mkTspec "a/1/b" 9 [-1]; mkTspec "a/1/y/lim" 1 [7]; mkTspec "z/reward" 1 []]%string%Z.
Proof. vm_compute. reflexivity. Qed.

(** The type and the shape of the tensors in [data1]. *)
Definition ok1 (e : tspec) (x : Z) : Prop := ts_dtype e = (x / 10)%Z.
Example C48_example : conforms ok1 [] sig1 data1 /\ flattens data1 [20; 90; 17; 10]%Z.
Proof.
  split.
  - eapply co_dict; [apply perm_swap|]. constructor; [|constructor; [|constructor]].
    + split; [done|]. by constructor.
    + split; [done|]. apply co_list; [done|]. intros [|[|i]] v d; cbn; try done.
      * intros [= <-] [= <-]. by constructor.
      * intros [= <-] [= <-]. eapply co_dict; [apply perm_swap|]. repeat constructor.
  - change [20; 90; 17; 10]%Z with (concat [[20; 90; 17]; [10]]%Z). eapply fl_dict; [done| |].
    + repeat constructor.
    + constructor; [|constructor; [constructor|constructor]].
      change [20; 90; 17]%Z with (concat [[20]; [90; 17]]%Z). constructor. constructor; [constructor|]. constructor; [|constructor].
      change [90; 17]%Z with (concat [[90]; [17]]%Z). eapply fl_dict; [done| |]; repeat constructor.
Qed.

Example C48_error_example : flat_signature_top (SList [sig1; SOther]) = None.
Proof. vm_compute. reflexivity. Qed.

Print Assumptions C48_order.
Print Assumptions C48_error.
Print Assumptions C48_count.
