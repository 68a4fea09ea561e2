(** Exact arithmetic: the sum tree and the distribution of the prioritized
    selector. *)
From Verif Require Import Base SelPrio SelPrioProofs.

Section Exact.
Context {fp : FP} {laws : FPLaws fp} {exact : FPExact fp}.

(** Equation of node [j], off by [d]. *)
Definition node_eq (sz : nat) (t : gmap nat pnode) (j : nat) (d : Q) : Prop :=
  (p_sum (pnode_at t j) + d == pval t j + psum sz t (2 * j + 1) + psum sz t (2 * j + 2))%Q.

Definition sums_ok (sz : nat) (t : gmap nat pnode) : Prop :=
  (forall j, (j < sz)%nat -> node_eq sz t j 0) /\
  (forall j, (sz <= j)%nat -> (p_sum (pnode_at t j) == 0)%Q).

Lemma update_sum_exact sz t p d :
  nonneg t -> node_eq sz t p d ->
  let r := update_sum sz t p d in
  (r.2 == 0)%Q /\
  (p_sum (pnode_at r.1 p) == p_sum (pnode_at t p) + d)%Q /\
  (forall j, j <> p -> pnode_at r.1 j = pnode_at t j).
Proof.
  intros Hn He. unfold update_sum.
  set (s1 := rnd (p_sum (pnode_at t p) + d)).
  assert (Hs1 : (s1 == p_sum (pnode_at t p) + d)%Q) by apply rnd_exact.
  pose proof (psum_nonneg sz t (2 * p + 1) Hn). pose proof (psum_nonneg sz t (2 * p + 2) Hn).
  destruct (Hn p) as [Hv _]. fold (pval t p) in Hv. unfold node_eq in He.
  assert (Hb : Qle_bool 0 s1 = true) by (apply Qle_bool_iff; lra).
  rewrite Hb. cbn [fst snd].
  assert (Hps : forall j, j <> p -> pnode_at (set_sum t p s1) j = pnode_at t j).
  { intros j Hj. unfold set_sum. rewrite pnode_at_insert. by case_decide. }
  assert (Hp : pnode_at (set_sum t p s1) p = mkPnode (p_key (pnode_at t p)) (p_value (pnode_at t p)) s1).
  { unfold set_sum. rewrite pnode_at_insert. by case_decide. }
  assert (Hpv : pval (set_sum t p s1) p = pval t p) by (unfold pval; by rewrite Hp).
  assert (Hc : forall j, j <> p -> psum sz (set_sum t p s1) j = psum sz t j).
  { intros j Hj. unfold psum. by rewrite Hps. }
  rewrite Hpv, !Hc by lia. split; [|split; [|done]].
  - assert (Hz : (rnd (rnd (rnd (s1 - psum sz t (2 * p + 1)) - psum sz t (2 * p + 2)) - pval t p) == 0)%Q).
    { rewrite !rnd_exact. lra. }
    rewrite Hz. reflexivity.
  - rewrite Hp. done.
Qed.

Lemma small_err e : (e == 0)%Q -> Qle_bool e max_error = true.
Proof. intros H. apply Qle_bool_iff. rewrite H. unfold max_error. lra. Qed.

Lemma half_lt i : i <> 0%nat -> ((i - 1) / 2 < i)%nat.
Proof. intros H. pose proof (Nat.div_le_upper_bound (i-1) 2 (i-1)). lia. Qed.

(** Only the parent of [i] sees [i] as a child. *)
Lemma kid_parent i j : i <> 0%nat -> (i = 2 * j + 1 \/ i = 2 * j + 2)%nat <-> j = ((i - 1) / 2)%nat.
Proof.
  intros Hi. pose proof (Nat.div_mod (i - 1) 2). pose proof (Nat.mod_upper_bound (i-1) 2). lia.
Qed.

Lemma node_eq_other sz t t' p j d :
  (forall x, x <> p -> pnode_at t' x = pnode_at t x) ->
  (pval t' p = pval t p) ->
  j <> p -> (2 * j + 1 <> p)%nat -> (2 * j + 2 <> p)%nat ->
  node_eq sz t j d -> node_eq sz t' j d.
Proof.
  intros H Hv Hj H1 H2 He. unfold node_eq, pval, psum in *.
  rewrite !H by lia. exact He.
Qed.

Lemma update_parents_exact f : forall sz t i d e,
  (i < f)%nat -> (i < sz)%nat -> nonneg t -> (e == 0)%Q ->
  (forall j, (j < sz)%nat -> (i <> 0%nat -> j <> ((i - 1) / 2)%nat) -> node_eq sz t j 0) ->
  (i <> 0%nat -> node_eq sz t ((i - 1) / 2)%nat d) ->
  (forall j, (sz <= j)%nat -> (p_sum (pnode_at t j) == 0)%Q) ->
  let r := update_parents f sz t i d e in
  (r.2 == 0)%Q /\ sums_ok sz r.1.
Proof.
  induction f as [|f IH]; intros sz t i d e Hf Hi Hn He Hj Hp Hout; [lia|].
  cbn [update_parents]. case_decide as Hi0; cbn [fst snd].
  { split; [done|]. split; [|done]. intros j Hlt. apply Hj; [done|lia]. }
  rewrite small_err by done.
  set (p := ((i - 1) / 2)%nat) in *.
  assert (Hpi : (p < i)%nat) by (by apply half_lt). clearbody p.
  destruct (update_sum_exact sz t p d Hn (Hp Hi0)) as (E1 & E2 & E3).
  pose proof (update_sum_nonneg sz t p d Hn) as Hn'.
  pose proof (update_sum_kv sz t p d) as Hkv.
  destruct (update_sum sz t p d) as [t' e'] eqn:E. cbn [fst snd] in *.
  assert (Hv : forall j, pval t' j = pval t j) by (intros j; unfold pval; by destruct (Hkv j)).
  apply IH; try done; try lia.
  - intros j Hjs Hjp. destruct (decide (j = p)) as [->|Hjne].
    + unfold node_eq. rewrite Hv. unfold psum. rewrite (E3 (2*p+1)%nat), (E3 (2*p+2)%nat) by lia. fold (psum sz t (2*p+1)) (psum sz t (2*p+2)).
      specialize (Hp Hi0). unfold node_eq in Hp. lra.
    + apply (node_eq_other sz t t' p j 0); try done.
      * intros Heq. destruct (decide (p = 0%nat)); [lia|]. apply Hjp; [done|]. apply kid_parent; [done|lia].
      * intros Heq. destruct (decide (p = 0%nat)); [lia|]. apply Hjp; [done|]. apply kid_parent; [done|lia].
      * apply Hj; [done|]. intros _. done.
  - intros Hp0. set (g := ((p - 1) / 2)%nat).
    assert (Hg : (g < p)%nat) by (by apply half_lt).
    assert (Hk : (p = 2 * g + 1 \/ p = 2 * g + 2)%nat) by (by apply kid_parent).
    assert (Hge : node_eq sz t g 0) by (apply Hj; [lia|intros _; lia]).
    assert (Hpp : (psum sz t' p == psum sz t p + d)%Q).
    { unfold psum. rewrite !decide_True by lia. done. }
    unfold node_eq in *. rewrite Hv. rewrite (E3 g) by lia.
    destruct Hk as [Hk|Hk].
    + rewrite <- Hk in *. assert (Ho : psum sz t' (2 * g + 2) = psum sz t (2 * g + 2)) by (unfold psum; by rewrite E3 by lia).
      rewrite Ho. lra.
    + rewrite <- Hk in *. assert (Ho : psum sz t' (2 * g + 1) = psum sz t (2 * g + 1)) by (unfold psum; by rewrite E3 by lia).
      rewrite Ho. lra.
  - intros j Hjs. rewrite E3 by lia. by apply Hout.
Qed.

Lemma set_node_exact cap sz t i v :
  (i < sz)%nat -> nonneg t -> (0 <= v)%Q -> sums_ok sz t -> sums_ok sz (set_node cap sz t i v).
Proof.
  intros Hi Hn Hv [Hs Hout]. unfold set_node.
  set (d := rnd (v - pval t i)). set (t1 := set_value t i v).
  assert (Hd : (d == v - pval t i)%Q) by apply rnd_exact.
  assert (Hn1 : nonneg t1).
  { intros j. unfold t1, set_value. rewrite pnode_at_insert. case_decide; [subst; simpl; split; [done|apply Hn]|apply Hn]. }
  assert (Hsum1 : forall j, p_sum (pnode_at t1 j) = p_sum (pnode_at t j)).
  { intros j. unfold t1, set_value. rewrite pnode_at_insert. case_decide; by subst. }
  assert (Hps1 : forall j, psum sz t1 j = psum sz t j) by (intros j; unfold psum; by rewrite Hsum1).
  assert (Hv1 : pval t1 i = v).
  { unfold pval, t1, set_value. rewrite pnode_at_insert. by case_decide. }
  assert (Hv1' : forall j, j <> i -> pval t1 j = pval t j).
  { intros j Hj. unfold pval, t1, set_value. rewrite pnode_at_insert. by case_decide. }
  assert (He1 : node_eq sz t1 i d).
  { specialize (Hs i Hi). unfold node_eq in *. rewrite Hsum1, !Hps1, Hv1. lra. }
  destruct (update_sum_exact sz t1 i d Hn1 He1) as (E1 & E2 & E3).
  pose proof (update_sum_nonneg sz t1 i d Hn1) as Hn2.
  pose proof (update_sum_kv sz t1 i d) as Hkv.
  destruct (update_sum sz t1 i d) as [t2 e2] eqn:E. cbn [fst snd] in *.
  assert (Hv2 : forall j, pval t2 j = pval t1 j) by (intros j; unfold pval; by destruct (Hkv j)).
  destruct (update_parents_exact (S i) sz t2 i d e2) as [A B]; try done; try lia.
  - intros j Hjs Hjp. destruct (decide (j = i)) as [->|Hji].
    + unfold node_eq. rewrite Hv2. unfold psum. rewrite (E3 (2*i+1)%nat), (E3 (2*i+2)%nat) by lia. fold (psum sz t1 (2*i+1)) (psum sz t1 (2*i+2)).
      unfold node_eq in He1. lra.
    + apply (node_eq_other sz t1 t2 i j 0); try done.
      * intros Heq. destruct (decide (i = 0%nat)); [lia|]. apply Hjp; [done|]. apply kid_parent; [done|lia].
      * intros Heq. destruct (decide (i = 0%nat)); [lia|]. apply Hjp; [done|]. apply kid_parent; [done|lia].
      * specialize (Hs j Hjs). unfold node_eq in *. rewrite Hsum1, !Hps1, Hv1' by done. exact Hs.
  - intros Hi0. set (g := ((i - 1) / 2)%nat).
    assert (Hg : (g < i)%nat) by (by apply half_lt).
    assert (Hk : (i = 2 * g + 1 \/ i = 2 * g + 2)%nat) by (by apply kid_parent).
    specialize (Hs g ltac:(lia)).
    assert (Hpp : (psum sz t2 i == psum sz t i + d)%Q).
    { unfold psum. rewrite !decide_True by lia. rewrite E2, Hsum1. reflexivity. }
    unfold node_eq in *. rewrite Hv2, Hv1' by lia. rewrite (E3 g), Hsum1 by lia.
    destruct Hk as [Hk|Hk].
    + rewrite <- Hk in *.
      assert (Ho : psum sz t2 (2 * g + 2) = psum sz t (2 * g + 2)) by (unfold psum; rewrite E3 by lia; by rewrite Hsum1).
      rewrite Ho. lra.
    + rewrite <- Hk in *.
      assert (Ho : psum sz t2 (2 * g + 1) = psum sz t (2 * g + 1)) by (unfold psum; rewrite E3 by lia; by rewrite Hsum1).
      rewrite Ho. lra.
  - intros j Hj. rewrite E3 by lia. rewrite Hsum1. by apply Hout.
  - destruct (update_parents (S i) sz t2 i d e2) as [t3 e3]. cbn [fst snd] in *.
    by rewrite small_err.
Qed.

Definition prio_exact (s : prio) : Prop := sums_ok (psize s) (p_tree s).

Lemma prio_empty_exact e : prio_exact (prio_empty e).
Proof.
  split; intros j; unfold prio_empty, psize; cbn; rewrite map_size_empty; [lia|].
  intros _. unfold pnode_at. by rewrite lookup_empty.
Qed.

(** Keys do not matter. *)
Lemma sums_ok_key sz t i k : sums_ok sz t -> sums_ok sz (set_key t i k).
Proof.
  assert (H : forall j, p_sum (pnode_at (set_key t i k) j) = p_sum (pnode_at t j) /\
                        p_value (pnode_at (set_key t i k) j) = p_value (pnode_at t j)).
  { intros j. unfold set_key. rewrite pnode_at_insert. case_decide; by subst. }
  intros [A B]. split.
  - intros j Hj. specialize (A j Hj). unfold node_eq, psum, pval in *.
    rewrite !(proj1 (H _)), (proj2 (H _)). exact A.
  - intros j Hj. rewrite (proj1 (H j)). by apply B.
Qed.

Lemma sums_ok_grow n t : sums_ok n t -> pval t n = 0%Q -> sums_ok (S n) t.
Proof.
  intros [A B] Hv.
  assert (Hps : forall j, (psum (S n) t j == psum n t j)%Q).
  { intros j. unfold psum. repeat case_decide; try reflexivity; try lia. apply B. lia. }
  split.
  - intros j Hj. destruct (decide (j = n)) as [->|Hne].
    + unfold node_eq. rewrite Hv, !Hps. unfold psum. rewrite !decide_False by lia.
      rewrite B by lia. lra.
    + specialize (A j ltac:(lia)). unfold node_eq in *. rewrite !Hps. exact A.
  - intros j Hj. apply B. lia.
Qed.

Lemma sums_ok_shrink n t : sums_ok (S n) t -> pval t n = 0%Q -> sums_ok n t.
Proof.
  intros [A B] Hv.
  assert (Hn : (p_sum (pnode_at t n) == 0)%Q).
  { specialize (A n ltac:(lia)). unfold node_eq in A. rewrite Hv in A.
    unfold psum in A. rewrite !decide_False in A by lia. lra. }
  assert (Hps : forall j, (psum (S n) t j == psum n t j)%Q).
  { intros j. unfold psum. repeat case_decide; try reflexivity; try lia.
    assert (j = n) by lia. by subst. }
  split.
  - intros j Hj. specialize (A j ltac:(lia)). unfold node_eq in *. rewrite <- !Hps. exact A.
  - intros j Hj. destruct (decide (j = n)) as [->|]; [done|]. apply B. lia.
Qed.

Lemma prio_insert_exact s k p :
  prio_wf s -> prio_exact s -> prio_exact (prio_insert s k p).2.
Proof.
  intros Hw He. pose proof Hw as [Hexp Hi Hn Ho]. unfold prio_insert.
  destruct (check_valid_priority p) as [q|] eqn:Ep; [|done].
  apply check_valid_nonneg in Ep as [-> Hq].
  destruct (p_index s !! k) as [i|] eqn:E; cbn [fst snd]; [done|].
  unfold prio_exact. rewrite psize_mk, map_size_insert_None by done. cbn [p_tree].
  apply set_node_exact.
  - unfold psize. lia.
  - intros j. unfold set_key. rewrite pnode_at_insert. case_decide; [subst; simpl|]; apply Hn.
  - by apply power_nonneg.
  - apply sums_ok_key. apply sums_ok_grow; [exact He|]. apply Ho. unfold psize. lia.
Qed.

Lemma prio_update_exact s k p :
  prio_wf s -> prio_exact s -> prio_exact (prio_update s k p).2.
Proof.
  intros Hw He. pose proof Hw as [Hexp Hi Hn Ho]. unfold prio_update.
  destruct (check_valid_priority p) as [q|] eqn:Ep; [|done].
  apply check_valid_nonneg in Ep as [-> Hq].
  destruct (p_index s !! k) as [i|] eqn:E; cbn [fst snd]; [|done].
  unfold prio_exact. rewrite psize_mk. cbn [p_tree]. apply set_node_exact; try done.
  - apply Hi in E as [? _]. done.
  - by apply power_nonneg.
Qed.

Lemma prio_delete_exact s k :
  prio_wf s -> prio_exact s -> prio_exact (prio_delete s k).2.
Proof.
  intros Hw He. 
  destruct (prio_delete_spec s k Hw) as (Hw' & _ & _ & Hsome).
  pose proof Hw as [Hexp Hi Hn Ho].
  destruct (p_index s !! k) as [i|] eqn:E.
  2:{ unfold prio_delete. by rewrite E. }
  destruct (Hsome ltac:(eauto)) as (_ & Hsz & _).
  unfold prio_exact in *.
  apply sums_ok_shrink; [|apply (pw_out _ Hw'); lia].
  rewrite <- Hsz. clear Hsz Hsome Hw'.
  unfold prio_delete. rewrite E.
  pose proof (proj1 (Hi k i) E) as [Hilt Hik].
  set (n := psize s) in *. set (l := (n - 1)%nat).
  case_decide as Hc; cbn [fst snd p_tree].
  - apply set_node_exact; [unfold l; lia|done|lra|done].
  - destruct (set_node_kv (p_cap s) n (p_tree s) i (pval (p_tree s) l)) as (_ & _ & N1).
    assert (Hn1 : nonneg (set_node (p_cap s) n (p_tree s) i (pval (p_tree s) l))) by (apply N1; [done|apply Hn]).
    apply set_node_exact; [unfold l; lia| |lra|].
    + intros j. unfold set_key. rewrite pnode_at_insert. case_decide; [subst; simpl|]; apply Hn1.
    + apply sums_ok_key. apply set_node_exact; try done. apply Hn.
Qed.

Lemma prio_clear_exact s : prio_wf s -> prio_exact s -> prio_exact (prio_clear s).
Proof.
  intros Hw [A B]. unfold prio_exact, prio_clear. rewrite psize_mk, map_size_empty. cbn [p_tree].
  split; [lia|]. intros j _. rewrite clear_nodes_at. case_decide; [simpl; lra|]. apply B. lia.
Qed.

(** * The distribution *)

Fixpoint qsum {A} (f : A -> Q) (l : list A) : Q :=
  match l with [] => 0 | x :: l => f x + qsum f l end%Q.

Lemma qsum_app {A} (f : A -> Q) l1 l2 : (qsum f (l1 ++ l2) == qsum f l1 + qsum f l2)%Q.
Proof. induction l1; simpl; [lra|]. rewrite IHl1. lra. Qed.

Lemma qsum_perm {A} (f : A -> Q) l1 l2 : l1 ≡ₚ l2 -> (qsum f l1 == qsum f l2)%Q.
Proof. induction 1; simpl; lra. Qed.

Lemma qsum_ext {A} (f g : A -> Q) l : (forall x, x ∈ l -> (f x == g x)%Q) -> (qsum f l == qsum g l)%Q.
Proof.
  induction l as [|a l IH]; simpl; intros H; [lra|].
  rewrite IH by (intros; apply H; by right). rewrite (H a) by left. reflexivity.
Qed.

Lemma qsum_fmap {A B} (f : B -> Q) (g : A -> B) l : qsum f (g <$> l) = qsum (fun x => f (g x)) l.
Proof. induction l as [|a l IH]; [done|]. rewrite fmap_cons. simpl. by rewrite IH. Qed.

(** Post-order of the subtree of [i] in the complete binary tree with nodes
    0..n-1. *)
Fixpoint post (f n i : nat) : list nat :=
  match f with
  | O => []
  | S f => if decide (i < n)%nat then post f n (2 * i + 1) ++ post f n (2 * i + 2) ++ [i] else []
  end.

Lemma post_sum sz t : sums_ok sz t -> forall f i, (sz <= f + i)%nat ->
  (qsum (pval t) (post f sz i) == psum sz t i)%Q.
Proof.
  intros [A _]. induction f as [|f IH]; intros i Hf; cbn [post].
  - unfold psum. rewrite decide_False by lia. simpl. lra.
  - case_decide as Hi.
    + rewrite !qsum_app, !IH by lia. cbn [qsum]. specialize (A i Hi). unfold node_eq in A.
      assert (Hpi : psum sz t i = p_sum (pnode_at t i)) by (unfold psum; by rewrite decide_True).
      rewrite Hpi. lra.
    + unfold psum. rewrite decide_False by done. simpl. lra.
Qed.

Inductive desc : nat -> nat -> Prop :=
| desc_refl i : desc i i
| desc_step i j : j <> 0%nat -> desc i ((j - 1) / 2)%nat -> desc i j.

Lemma desc_le i j : desc i j -> (i <= j)%nat.
Proof. induction 1; [lia|]. pose proof (half_lt j H). lia. Qed.

Lemma desc_chain a b j : desc a j -> desc b j -> desc a b \/ desc b a.
Proof.
  intros Ha. revert b. induction Ha as [i|i j Hj Ha IH]; intros b Hb; [auto|].
  inversion Hb; subst; [left; by constructor|]. auto.
Qed.

Lemma desc_kid a i j : j <> 0%nat -> ((j - 1) / 2)%nat = i -> desc a j -> a = j \/ desc a i.
Proof. intros Hj <- H. inversion H; subst; auto. Qed.

Lemma desc_up i j : desc i j -> i <> 0%nat -> desc ((i - 1) / 2)%nat j.
Proof.
  induction 1 as [i|i j Hj H IH]; intros Hi.
  - apply desc_step; [done|]. constructor.
  - apply desc_step; auto.
Qed.

Lemma desc_split i j : desc i j -> j = i \/ desc (2 * i + 1) j \/ desc (2 * i + 2) j.
Proof.
  induction 1 as [i|i j Hj H IH]; [auto|].
  destruct IH as [IH|[IH|IH]].
  - symmetry in IH. apply kid_parent in IH; [|done]. destruct IH as [->| ->]; right; [left|right]; constructor.
  - right; left. by apply desc_step.
  - right; right. by apply desc_step.
Qed.

Lemma post_elem n : forall f i, (n <= f + i)%nat -> forall j, j ∈ post f n i <-> (j < n)%nat /\ desc i j.
Proof.
  induction f as [|f IH]; intros i Hf j; cbn [post].
  - rewrite elem_of_nil. split; [done|]. intros [? H]. apply desc_le in H. lia.
  - case_decide as Hi.
    + rewrite !elem_of_app, elem_of_list_singleton, !IH by lia. split.
      * intros [[? H]|[[? H]| ->]].
        -- split; [done|]. replace i with ((2 * i + 1 - 1) / 2)%nat; [apply desc_up; [done|lia]|].
           symmetry. apply kid_parent; lia.
        -- split; [done|]. replace i with ((2 * i + 2 - 1) / 2)%nat; [apply desc_up; [done|lia]|].
           symmetry. apply kid_parent; lia.
        -- split; [done|constructor].
      * intros [? H]. apply desc_split in H as [->|[H|H]]; auto.
    + rewrite elem_of_nil. split; [done|]. intros [? H]. apply desc_le in H. lia.
Qed.

Lemma desc_kids_disjoint i j : desc (2 * i + 1) j -> desc (2 * i + 2) j -> False.
Proof.
  intros H1 H2. destruct (desc_chain _ _ _ H1 H2) as [H|H].
  - apply (desc_kid _ i) in H; [|lia|symmetry; apply kid_parent; lia].
    destruct H as [?|H]; [lia|]. apply desc_le in H. lia.
  - apply desc_le in H. lia.
Qed.

Lemma post_nodup n : forall f i, (n <= f + i)%nat -> NoDup (post f n i).
Proof.
  induction f as [|f IH]; intros i Hf; cbn [post]; [constructor|].
  case_decide as Hi; [|constructor].
  apply NoDup_app. split; [apply IH; lia|]. split.
  - intros j Hj. rewrite elem_of_app, elem_of_list_singleton. rewrite post_elem in Hj by lia.
    destruct Hj as [Hj Hd]. intros [Hj'| ->].
    + rewrite post_elem in Hj' by lia. destruct Hj' as [_ Hd']. by eapply desc_kids_disjoint.
    + apply desc_le in Hd. lia.
  - apply NoDup_app. split; [apply IH; lia|]. split; [|apply NoDup_singleton].
    intros j Hj. rewrite elem_of_list_singleton. intros ->. rewrite post_elem in Hj by lia.
    destruct Hj as [_ Hd]. apply desc_le in Hd. lia.
Qed.

Lemma desc_root j : desc 0 j.
Proof.
  induction (lt_wf j) as [j _ IH]. destruct (decide (j = 0%nat)) as [->|Hj]; [constructor|].
  apply desc_step; [done|]. apply IH. by apply half_lt.
Qed.

Lemma post_perm n : post n n 0 ≡ₚ seq 0 n.
Proof.
  apply NoDup_Permutation.
  - apply post_nodup. lia.
  - apply NoDup_seq.
  - intros j. rewrite post_elem by lia. rewrite elem_of_seq. split; [lia|]. intros ?. split; [lia|apply desc_root].
Qed.

(** The descent returns the node of the post-order whose interval holds the
    target. *)
Lemma descend_exact sz t : sums_ok sz t -> nonneg t -> forall f g i tw,
  (sz < f + i)%nat -> (sz <= g + i)%nat -> (0 <= tw)%Q -> (tw < psum sz t i)%Q ->
  exists j l1 l2, descend f sz t i tw = Some j /\ post g sz i = l1 ++ j :: l2 /\
    (qsum (pval t) l1 <= tw)%Q /\ (tw < qsum (pval t) l1 + pval t j)%Q.
Proof.
  intros Hs Hn. induction f as [|f IH]; intros g i tw Hf Hg H0 H1.
  { unfold psum in H1. rewrite decide_False in H1 by lia. lra. }
  assert (Hi : (i < sz)%nat).
  { unfold psum in H1. case_decide; [done|lra]. }
  destruct g as [|g]; [lia|].
  cbn [descend post]. rewrite decide_True by done.
  destruct (Qle_bool (psum sz t (2 * i + 1)) tw) eqn:E1; cbn [negb].
  - apply Qle_bool_iff in E1.
    set (tw' := rnd (tw - psum sz t (2 * i + 1))).
    assert (Htw' : (tw' == tw - psum sz t (2 * i + 1))%Q) by apply rnd_exact.
    destruct (Qle_bool (psum sz t (2 * i + 2)) tw') eqn:E2; cbn [negb].
    + apply Qle_bool_iff in E2.
      exists i, (post g sz (2 * i + 1) ++ post g sz (2 * i + 2)), [].
      split; [done|]. split; [by rewrite <- app_assoc|].
      rewrite qsum_app, !post_sum by (done || lia).
      destruct Hs as [A _]. specialize (A i Hi). unfold node_eq in A.
      unfold psum at 1 in H1. rewrite decide_True in H1 by done.
      split; lra.
    + apply Qle_bool_false in E2.
      destruct (IH g (2 * i + 2)%nat tw') as (j & l1 & l2 & D & P & B1 & B2); try lia; try lra.
      exists j, (post g sz (2 * i + 1) ++ l1), (l2 ++ [i]).
      split; [done|]. split; [rewrite P; by rewrite <- !app_assoc|].
      rewrite qsum_app, post_sum by (done || lia). split; lra.
  - apply Qle_bool_false in E1.
    destruct (IH g (2 * i + 1)%nat tw) as (j & l1 & l2 & D & P & B1 & B2); try lia; try lra.
    exists j, l1, (l2 ++ post g sz (2 * i + 2) ++ [i]).
    split; [done|]. split; [rewrite P; by rewrite <- !app_assoc|]. split; lra.
Qed.

(** ** The distribution theorem on states *)

(** The keys of the selector in the order in which they partition [0,W). *)
Definition prio_order (s : prio) : list Z :=
  (fun i => p_key (pnode_at (p_tree s) i)) <$> post (psize s) (psize s) 0.

Definition wt (s : prio) (k : Z) : Q := default 0%Q (weight s k).

Lemma prio_order_elem s : prio_wf s -> forall k, k ∈ prio_order s <-> is_Some (p_index s !! k).
Proof.
  intros [_ Hi _ _] k. unfold prio_order. rewrite elem_of_list_fmap. split.
  - intros (i & -> & H). apply post_elem in H; [|lia]. destruct H as [H _]. exists i. by apply Hi.
  - intros [i H]. apply Hi in H as [H <-]. exists i. split; [done|].
    apply post_elem; [lia|]. split; [done|apply desc_root].
Qed.

Lemma prio_order_nodup s : prio_wf s -> NoDup (prio_order s).
Proof.
  intros [_ Hi _ _]. unfold prio_order. apply NoDup_fmap_2_strong; [|apply post_nodup; lia].
  intros x y Hx Hy Heq. apply post_elem in Hx, Hy; [|lia..].
  destruct Hx as [Hx _], Hy as [Hy _].
  assert (H1 : p_index s !! p_key (pnode_at (p_tree s) x) = Some x) by (by apply Hi).
  assert (H2 : p_index s !! p_key (pnode_at (p_tree s) y) = Some y) by (by apply Hi).
  rewrite Heq in H1. congruence.
Qed.

Lemma wt_node s i : prio_wf s -> (i < psize s)%nat ->
  wt s (p_key (pnode_at (p_tree s) i)) = pval (p_tree s) i.
Proof.
  intros [_ Hi _ _] H. unfold wt, weight.
  assert (H1 : p_index s !! p_key (pnode_at (p_tree s) i) = Some i) by (by apply Hi).
  by rewrite H1.
Qed.

Lemma qsum_order s l : prio_wf s -> (forall i, i ∈ l -> (i < psize s)%nat) ->
  (qsum (wt s) ((fun i => p_key (pnode_at (p_tree s) i)) <$> l) == qsum (pval (p_tree s)) l)%Q.
Proof.
  intros Hw H. rewrite qsum_fmap. apply qsum_ext. intros i Hi. rewrite wt_node by auto. reflexivity.
Qed.

Lemma prio_total s : prio_wf s -> prio_exact s -> psize s <> 0%nat ->
  (p_sum (pnode_at (p_tree s) 0) == qsum (wt s) (prio_order s))%Q.
Proof.
  intros Hw He Hn. unfold prio_order. rewrite qsum_order; [|done|].
  - rewrite post_sum; [|exact He|lia]. unfold psum. rewrite decide_True by lia. reflexivity.
  - intros i Hi. apply post_elem in Hi; [|lia]. by destruct Hi.
Qed.

Lemma prio_sample_distribution s d :
  prio_wf s -> prio_exact s -> draw_ok d ->
  let W := qsum (wt s) (prio_order s) in
  (0 < W)%Q ->
  exists k q l1 l2, prio_sample s d = Some (k, q) /\ prio_order s = l1 ++ k :: l2 /\
    (q == wt s k / W)%Q /\
    (qsum (wt s) l1 <= d_unit d * W)%Q /\ (d_unit d * W < qsum (wt s) l1 + wt s k)%Q.
Proof.
  intros Hw He (Hd0 & Hd1 & _) W HW.
  assert (Hsz : psize s <> 0%nat).
  { intros H0. unfold W, prio_order in HW. rewrite H0 in HW. simpl in HW. lra. }
  pose proof (prio_total s Hw He Hsz) as Htot. fold W in Htot.
  unfold prio_sample. rewrite decide_False by done.
  set (tot := p_sum (pnode_at (p_tree s) 0)) in *.
  assert (Hz : Qeq_bool tot 0 = false).
  { destruct (Qeq_bool tot 0) eqn:E; [|done]. apply Qeq_bool_iff in E. lra. }
  rewrite Hz.
  set (tw := rnd (d_unit d * tot)).
  assert (Htw : (tw == d_unit d * W)%Q) by (unfold tw; rewrite rnd_exact, Htot; reflexivity).
  destruct (descend_exact (psize s) (p_tree s) He (pw_nn _ Hw) (S (psize s)) (psize s) 0 tw)
    as (j & l1 & l2 & D & P & B1 & B2); try lia.
  { rewrite Htw. apply Qmult_le_0_compat; lra. }
  { rewrite Htw. unfold psum. rewrite decide_True by lia. fold tot. rewrite Htot.
    assert (Hlt : (d_unit d * W < 1 * W)%Q) by (apply Qmult_lt_compat_r; lra). lra. }
  assert (Hj : (j < psize s)%nat).
  { assert (Hin : j ∈ post (psize s) (psize s) 0) by (rewrite P; set_solver).
    apply post_elem in Hin; [|lia]. by destruct Hin. }
  assert (Hl1 : forall i, i ∈ l1 -> (i < psize s)%nat).
  { intros i Hi. assert (Hin : i ∈ post (psize s) (psize s) 0) by (rewrite P; set_solver).
    apply post_elem in Hin; [|lia]. by destruct Hin. }
  rewrite D, decide_True by done.
  set (key := fun i => p_key (pnode_at (p_tree s) i)).
  exists (key j), (rnd (pval (p_tree s) j / tot)), (key <$> l1), (key <$> l2).
  split; [done|]. split.
  { unfold prio_order. rewrite P. by rewrite fmap_app, fmap_cons. }
  unfold key. rewrite wt_node by done. rewrite qsum_order by done.
  split; [rewrite rnd_exact, Htot; reflexivity|]. split; lra.
Qed.

(** All weights zero: the uniform fallback. *)
Lemma prio_sample_zero s d :
  prio_wf s -> prio_exact s -> draw_ok d -> psize s <> 0%nat ->
  (qsum (wt s) (prio_order s) == 0)%Q ->
  let n := psize s in
  let pos := Z.to_nat (Qfloor (d_unit d * inject_Z (Z.of_nat n))) in
  (pos < n)%nat /\
  exists k q, prio_sample s d = Some (k, q) /\ p_index s !! k = Some pos /\
    (q == 1 / inject_Z (Z.of_nat n))%Q.
Proof.
  intros Hw He (Hd0 & Hd1 & _) Hsz HW n pos.
  pose proof (prio_total s Hw He Hsz) as Htot. rewrite HW in Htot.
  assert (Hn0 : (0 < inject_Z (Z.of_nat n))%Q).
  { unfold Qlt; simpl. unfold n. lia. }
  assert (Hpos : (pos < n)%nat).
  { unfold pos. apply Nat2Z.inj_lt. rewrite Z2Nat.id.
    - assert (Hfl : (inject_Z (Qfloor (d_unit d * inject_Z (Z.of_nat n))) < inject_Z (Z.of_nat n))%Q).
      { eapply Qle_lt_trans; [apply Qfloor_le|].
        assert (Hlt : (d_unit d * inject_Z (Z.of_nat n) < 1 * inject_Z (Z.of_nat n))%Q) by (by apply Qmult_lt_compat_r).
        lra. }
      by rewrite <- Zlt_Qlt in Hfl.
    - assert (Hz : (0 <= d_unit d * inject_Z (Z.of_nat n))%Q) by (apply Qmult_le_0_compat; lra).
      apply Qfloor_resp_le in Hz. exact Hz. }
  split; [done|].
  assert (Hfl : Qfloor (rnd (d_unit d * inject_Z (Z.of_nat n))) = Qfloor (d_unit d * inject_Z (Z.of_nat n))).
  { apply Qfloor_comp. apply rnd_exact. }
  unfold prio_sample. rewrite decide_False by done.
  rewrite (proj2 (Qeq_bool_iff _ _)) by (rewrite Htot; reflexivity).
  fold n. rewrite Hfl. fold pos. rewrite decide_True by done.
  eexists _, _. split; [done|]. split; [|apply rnd_exact].
  apply (pw_index _ Hw). done.
Qed.

End Exact.
