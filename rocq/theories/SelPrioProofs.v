(** Invariants of the prioritized selector. *)
From Verif Require Import Base SelPrio.

Lemma pnode_at_insert t i n j :
  pnode_at (<[i := n]> t) j = if decide (j = i) then n else pnode_at t j.
Proof.
  unfold pnode_at. case_decide; [subst; by rewrite lookup_insert|by rewrite lookup_insert_ne].
Qed.

Lemma Qle_bool_false x y : Qle_bool x y = false <-> (y < x)%Q.
Proof.
  split.
  - intros H. apply Qnot_le_lt. intros Hle. apply Qle_bool_iff in Hle. congruence.
  - intros H. destruct (Qle_bool x y) eqn:E; [|done]. apply Qle_bool_iff in E. lra.
Qed.

(** * Structure, for any rounding *)
Section Structure.
Context {fp : FP} {laws : FPLaws fp}.

Lemma rnd_nonneg x : (0 <= x -> 0 <= rnd x)%Q.
Proof. intros H. pose proof (rnd_mono 0 x H). pose proof rnd_zero. lra. Qed.

Lemma power_nonneg b e : (0 <= b -> 0 <= e -> 0 <= power b e)%Q.
Proof. intros Hb He. unfold power. destruct (Qeq_bool b 0); [lra|]. by apply pw_nonneg. Qed.

(** Keys and values untouched, sums stay non negative. *)
Definition same_kv (t t' : gmap nat pnode) : Prop :=
  forall j, p_key (pnode_at t' j) = p_key (pnode_at t j) /\ p_value (pnode_at t' j) = p_value (pnode_at t j).
Definition nonneg (t : gmap nat pnode) : Prop :=
  forall j, (0 <= p_value (pnode_at t j) /\ 0 <= p_sum (pnode_at t j))%Q.

Lemma same_kv_refl t : same_kv t t. Proof. by intros j. Qed.
Lemma same_kv_trans t1 t2 t3 : same_kv t1 t2 -> same_kv t2 t3 -> same_kv t1 t3.
Proof. intros H1 H2 j. destruct (H1 j), (H2 j). split; congruence. Qed.

Lemma set_sum_kv t i v : same_kv t (set_sum t i v).
Proof. intros j. unfold set_sum. rewrite pnode_at_insert. case_decide; by subst. Qed.
Lemma set_sum_nonneg t i v : nonneg t -> (0 <= v)%Q -> nonneg (set_sum t i v).
Proof.
  intros H Hv j. unfold set_sum. rewrite pnode_at_insert. case_decide; [subst; simpl|apply H].
  split; [apply H|done].
Qed.

Lemma update_sum_kv sz t i d : same_kv t (update_sum sz t i d).1.
Proof. unfold update_sum; simpl. apply set_sum_kv. Qed.
Lemma update_sum_nonneg sz t i d : nonneg t -> nonneg (update_sum sz t i d).1.
Proof.
  intros H. unfold update_sum; simpl. apply set_sum_nonneg; [done|].
  destruct (Qle_bool 0 _) eqn:E; [by apply Qle_bool_iff|lra].
Qed.

Lemma update_parents_kv f : forall sz t i d e,
  same_kv t (update_parents f sz t i d e).1 /\
  (nonneg t -> nonneg (update_parents f sz t i d e).1).
Proof.
  induction f as [|f IH]; intros sz t i d e; cbn [update_parents]; [split; [apply same_kv_refl|done]|].
  case_decide; [split; [apply same_kv_refl|done]|].
  destruct (Qle_bool e max_error); [|split; [apply same_kv_refl|done]].
  destruct (update_sum sz t ((i-1)/2) d) as [t' e'] eqn:E.
  pose proof (update_sum_kv sz t ((i-1)/2) d) as H1. pose proof (update_sum_nonneg sz t ((i-1)/2) d) as H2.
  rewrite E in H1, H2. simpl in H1, H2.
  destruct (IH sz t' ((i-1)/2)%nat d e') as [I1 I2].
  split; [by eapply same_kv_trans|]. auto.
Qed.

Lemma psum_nonneg sz t i : nonneg t -> (0 <= psum sz t i)%Q.
Proof. intros H. unfold psum. case_decide; [apply H|lra]. Qed.

Lemma reinit_kv n : forall sz t,
  same_kv t (reinit n sz t) /\ (nonneg t -> nonneg (reinit n sz t)).
Proof.
  induction n as [|i IH]; intros sz t; cbn [reinit]; [split; [apply same_kv_refl|done]|].
  match goal with |- context [set_sum t i ?x] => set (v := x) end.
  destruct (IH sz (set_sum t i v)) as [I1 I2]. split.
  - eapply same_kv_trans; [apply set_sum_kv|exact I1].
  - intros H. apply I2, set_sum_nonneg; [done|]. unfold v.
    pose proof (psum_nonneg sz t (2 * i + 1) H). pose proof (psum_nonneg sz t (2 * i + 2) H).
    destruct (H i) as [Hv _]. apply rnd_nonneg.
    assert (0 <= rnd (pval t i + psum sz t (2 * i + 1)))%Q; [|lra].
    apply rnd_nonneg. unfold pval. lra.
Qed.

Lemma set_node_kv cap sz t i v :
  (forall j, p_key (pnode_at (set_node cap sz t i v) j) = p_key (pnode_at t j)) /\
  (forall j, pval (set_node cap sz t i v) j = if decide (j = i) then v else pval t j) /\
  (nonneg t -> (0 <= v)%Q -> nonneg (set_node cap sz t i v)).
Proof.
  unfold set_node.
  set (d := rnd (v - pval t i)). set (t1 := set_value t i v).
  destruct (update_sum sz t1 i d) as [t2 e2] eqn:E2.
  pose proof (update_sum_kv sz t1 i d) as K2. pose proof (update_sum_nonneg sz t1 i d) as N2.
  rewrite E2 in K2, N2. simpl in K2, N2.
  destruct (update_parents (S i) sz t2 i d e2) as [t3 e3] eqn:E3.
  destruct (update_parents_kv (S i) sz t2 i d e2) as [K3 N3]. rewrite E3 in K3, N3. simpl in K3, N3.
  assert (K : same_kv t1 (if Qle_bool e3 max_error then t3 else reinit (N.to_nat cap) sz t3) /\
          (nonneg t1 -> nonneg (if Qle_bool e3 max_error then t3 else reinit (N.to_nat cap) sz t3))).
  { destruct (reinit_kv (N.to_nat cap) sz t3) as [K4 N4]. destruct (Qle_bool e3 max_error).
    - split; [by eapply same_kv_trans|auto].
    - split; [eapply same_kv_trans; [|exact K4]; by eapply same_kv_trans|auto]. }
  destruct K as [K N]. 
  assert (K1 : forall j, p_key (pnode_at t1 j) = p_key (pnode_at t j)).
  { intros j. unfold t1, set_value. rewrite pnode_at_insert. case_decide; by subst. }
  assert (V1 : forall j, pval t1 j = if decide (j = i) then v else pval t j).
  { intros j. unfold pval, t1, set_value. rewrite pnode_at_insert. case_decide; by subst. }
  split; [|split].
  - intros j. destruct (K j) as [-> _]. apply K1.
  - intros j. unfold pval at 1. destruct (K j) as [_ ->]. apply V1.
  - intros Hn Hv. apply N. intros j. unfold t1, set_value. rewrite pnode_at_insert.
    case_decide; [subst; simpl; split; [done|apply Hn]|apply Hn].
Qed.

Lemma psize_mk e c t i : psize (mkPrio e c t i) = size i.
Proof. done. Qed.

(** The representation invariant that holds for every rounding. *)
Record prio_wf (s : prio) : Prop := {
  pw_exp : (0 <= p_exp s)%Q;
  pw_index : forall k i, p_index s !! k = Some i <->
     (i < psize s)%nat /\ p_key (pnode_at (p_tree s) i) = k;
  pw_nn : nonneg (p_tree s);
  pw_out : forall i, (psize s <= i)%nat -> pval (p_tree s) i = 0%Q }.

(** Weight of a key: the value stored for it. *)
Definition weight (s : prio) (k : Z) : option Q :=
  pval (p_tree s) <$> p_index s !! k.

Lemma prio_empty_wf e : (0 <= e)%Q -> prio_wf (prio_empty e).
Proof.
  intros He. split; cbn.
  - done.
  - intros k i. rewrite lookup_empty. unfold psize; cbn. rewrite map_size_empty. split; [done|lia].
  - intros j. unfold pnode_at. rewrite lookup_empty. simpl. lra.
  - intros i _. unfold pval, pnode_at. by rewrite lookup_empty.
Qed.

Lemma check_valid_nonneg p q : check_valid_priority p = Some q -> p = Fin q /\ (0 <= q)%Q.
Proof.
  destruct p as [x|]; simpl; [|done]. destruct (Qle_bool 0 x) eqn:E; [|done].
  intros [= <-]. split; [done|]. by apply Qle_bool_iff.
Qed.

Lemma prio_insert_spec s k p :
  prio_wf s ->
  let r := prio_insert s k p in
  prio_wf r.2 /\ p_exp r.2 = p_exp s /\
  match check_valid_priority p with
  | None => r = (InvalidArgument, s)
  | Some q =>
      (is_Some (p_index s !! k) -> r.1 = InvalidArgument /\ p_index r.2 = p_index s /\ p_tree r.2 = p_tree s) /\
      (p_index s !! k = None -> r.1 = Ok /\ psize r.2 = S (psize s) /\
         (forall x, weight r.2 x = if decide (x = k) then Some (power q (p_exp s)) else weight s x))
  end.
Proof.
  intros [He Hi Hn Ho]. unfold prio_insert.
  destruct (check_valid_priority p) as [q|] eqn:Ep; [|by split; [split|]].
  apply check_valid_nonneg in Ep as [-> Hq].
  set (cap := if decide _ then _ else _).
  destruct (p_index s !! k) as [i|] eqn:E; cbn [fst snd].
  { split; [by split|]. split; [done|]. split; [done|]. by intros. }
  set (t1 := set_key (p_tree s) (psize s) k).
  assert (Hn1 : nonneg t1).
  { intros j. unfold t1, set_key. rewrite pnode_at_insert. case_decide; [subst; simpl|]; apply Hn. }
  destruct (set_node_kv cap (S (psize s)) t1 (psize s) (power q (p_exp s))) as (K & V & N).
  assert (Hsz : size (<[k := psize s]> (p_index s)) = S (psize s)) by (by apply map_size_insert_None).
  assert (V1 : forall j, pval t1 j = pval (p_tree s) j).
  { intros j. unfold pval, t1, set_key. rewrite pnode_at_insert. case_decide; by subst. }
  assert (Kt : forall j, p_key (pnode_at t1 j) = if decide (j = psize s) then k else p_key (pnode_at (p_tree s) j)).
  { intros j. unfold t1, set_key. rewrite pnode_at_insert. by case_decide. }
  split; [split; cbn|split; [done|split]].
  - done.
  - intros x i. rewrite ?psize_mk, Hsz, K, Kt.
    destruct (decide (x = k)) as [->|Hx].
    + rewrite lookup_insert. split.
      * intros [= <-]. rewrite decide_True by done. split; [lia|done].
      * intros [Hlt Hk]. case_decide as Hd; [by subst|].
        exfalso. assert (p_index s !! k = Some i); [|congruence]. apply Hi. split; [lia|done].
    + rewrite lookup_insert_ne by done. rewrite Hi. split.
      * intros [Hlt Hk]. rewrite decide_False by lia. split; [lia|done].
      * intros [Hlt Hk]. case_decide as Hd; [by subst|]. split; [lia|done].
  - apply N; [done|]. by apply power_nonneg.
  - intros i. rewrite ?psize_mk, Hsz. intros Hge. rewrite V, decide_False by lia.
    rewrite V1. apply Ho. lia.
  - intros [? ?]. congruence.
  - intros _. split; [done|]. split; [done|]. intros x. unfold weight; cbn [p_index p_tree].
    destruct (decide (x = k)) as [->|Hx].
    + rewrite lookup_insert. simpl. rewrite V. by rewrite decide_True.
    + rewrite lookup_insert_ne by done. destruct (p_index s !! x) as [i|] eqn:Ex; [|done]. simpl.
      rewrite V, V1. apply Hi in Ex as [? _]. rewrite decide_False by lia. done.
Qed.

Lemma prio_update_spec s k p :
  prio_wf s ->
  let r := prio_update s k p in
  prio_wf r.2 /\ p_exp r.2 = p_exp s /\ p_index r.2 = p_index s /\
  match check_valid_priority p with
  | None => r = (InvalidArgument, s)
  | Some q =>
      (p_index s !! k = None -> r = (InvalidArgument, s)) /\
      (is_Some (p_index s !! k) -> r.1 = Ok /\
         (forall x, weight r.2 x = if decide (x = k) then Some (power q (p_exp s)) else weight s x))
  end.
Proof.
  intros [He Hi Hn Ho]. unfold prio_update.
  destruct (check_valid_priority p) as [q|] eqn:Ep; [|by split; [split|]].
  apply check_valid_nonneg in Ep as [-> Hq].
  destruct (p_index s !! k) as [i|] eqn:E; cbn [fst snd].
  2:{ split; [by split|]. split; [done|]. split; [done|]. split; [done|]. by intros [? ?]. }
  destruct (set_node_kv (p_cap s) (psize s) (p_tree s) i (power q (p_exp s))) as (K & V & N).
  split; [split; cbn|split; [done|split; [done|split]]].
  - done.
  - intros x j. rewrite ?psize_mk. rewrite K. apply Hi.
  - apply N; [done|]. by apply power_nonneg.
  - intros j. rewrite ?psize_mk. intros Hj. rewrite V. apply Hi in E as [? _].
    rewrite decide_False by (unfold psize in *; lia). apply Ho. done.
  - done.
  - intros _. split; [done|]. intros x. unfold weight; cbn [p_index p_tree].
    destruct (decide (x = k)) as [->|Hx].
    + rewrite E. simpl. rewrite V. by rewrite decide_True.
    + destruct (p_index s !! x) as [j|] eqn:Ex; [|done]. simpl. rewrite V.
      rewrite decide_False; [done|]. intros ->. apply Hi in E as [_ E], Ex as [_ Ex]. congruence.
Qed.

Lemma prio_delete_spec s k :
  prio_wf s ->
  let r := prio_delete s k in
  prio_wf r.2 /\ p_exp r.2 = p_exp s /\
  (p_index s !! k = None -> r = (InvalidArgument, s)) /\
  (is_Some (p_index s !! k) -> r.1 = Ok /\ psize s = S (psize r.2) /\
     (forall x, weight r.2 x = if decide (x = k) then None else weight s x)).
Proof.
  intros [He Hi Hn Ho]. unfold prio_delete.
  destruct (p_index s !! k) as [i|] eqn:E; cbn [fst snd].
  2:{ split; [by split|]. split; [done|]. split; [done|]. by intros [? ?]. }
  pose proof (proj1 (Hi k i) E) as [Hilt Hik].
  set (n := psize s) in *. set (l := (n - 1)%nat).
  case_decide as Hc; cbn [fst snd].
  - subst i.
    destruct (set_node_kv (p_cap s) n (p_tree s) l 0) as (K & V & N).
    assert (Hsz : size (delete k (p_index s)) = l).
    { rewrite map_size_delete_Some by eauto. unfold l, n, psize. lia. }
    split; [split; cbn|split; [done|split; [done|]]].
    + done.
    + intros x j. rewrite ?psize_mk, Hsz, K.
      destruct (decide (x = k)) as [->|Hx].
      * rewrite lookup_delete. split; [done|]. intros [Hj Hk].
        assert (p_index s !! k = Some j) by (apply Hi; split; [lia|done]). rewrite E in H. injection H. lia.
      * rewrite lookup_delete_ne by done. rewrite Hi. split; intros [Hj Hk]; split; try done; try lia.
        destruct (decide (j = l)) as [->|]; [|unfold l in *; lia]. congruence.
    + apply N; [done|lra].
    + intros j. rewrite ?psize_mk, Hsz. intros Hj. rewrite V. case_decide; [done|].
      apply Ho. fold n. unfold l in *. lia.
    + intros _. split; [done|]. rewrite ?psize_mk, Hsz. split; [fold n; unfold l; lia|].
      intros x. unfold weight; cbn [p_index p_tree]. case_decide as Hx.
      * subst. by rewrite lookup_delete.
      * rewrite lookup_delete_ne by done. destruct (p_index s !! x) as [j|] eqn:Ex; [|done]. simpl.
        rewrite V. apply Hi in Ex as [? Ex]. rewrite decide_False; [done|]. intros ->. congruence.
  - set (t1 := set_node (p_cap s) n (p_tree s) i (pval (p_tree s) l)).
    destruct (set_node_kv (p_cap s) n (p_tree s) i (pval (p_tree s) l)) as (K1 & V1 & N1). fold t1 in K1, V1, N1.
    set (lk := p_key (pnode_at t1 l)).
    assert (Hlk : lk = p_key (pnode_at (p_tree s) l)) by (unfold lk; apply K1).
    set (t2 := set_key t1 i lk).
    destruct (set_node_kv (p_cap s) n t2 l 0) as (K & V & N).
    assert (Hl : p_index s !! lk = Some l).
    { apply Hi. split; [unfold l in *; lia|done]. }
    assert (Hlkk : lk <> k) by (intros Heq; rewrite Heq in Hl; congruence).
    assert (Hsz : size (delete k (<[lk := i]> (p_index s))) = l).
    { rewrite map_size_delete_Some by (rewrite lookup_insert_ne by done; eauto).
      rewrite map_size_insert_Some by eauto. unfold l, n, psize. lia. }
    assert (V2 : forall j, pval t2 j = if decide (j = i) then pval (p_tree s) l else pval (p_tree s) j).
    { intros j. rewrite <- V1. unfold pval, t2, set_key. rewrite pnode_at_insert. case_decide; by subst. }
    assert (K2 : forall j, p_key (pnode_at t2 j) = if decide (j = i) then lk else p_key (pnode_at (p_tree s) j)).
    { intros j. unfold t2, set_key. rewrite pnode_at_insert. case_decide; [done|]. by rewrite K1. }
    split; [split; cbn|split; [done|split; [done|]]].
    + done.
    + intros x j. rewrite ?psize_mk, Hsz, K, K2.
      destruct (decide (x = k)) as [->|Hx].
      * rewrite lookup_delete. split; [done|]. intros [Hj Hk]. case_decide; [done|].
        exfalso. assert (p_index s !! k = Some j) by (apply Hi; split; [unfold l in *; lia|done]). congruence.
      * rewrite lookup_delete_ne by done. destruct (decide (x = lk)) as [->|Hxl].
        -- rewrite lookup_insert. split.
           ++ intros [= <-]. rewrite decide_True by done. split; [unfold l in *; lia|done].
           ++ intros [Hj Hk]. case_decide; [by subst|]. exfalso.
              assert (p_index s !! lk = Some j) by (apply Hi; split; [unfold l in *; lia|done]).
              rewrite Hl in H0. injection H0. lia.
        -- rewrite lookup_insert_ne by done. rewrite Hi. split; intros [Hj Hk].
           ++ rewrite decide_False by (intros ->; congruence). split; [|done].
              destruct (decide (j = l)) as [->|]; [congruence|unfold l in *; lia].
           ++ case_decide; [congruence|]. split; [unfold l in *; lia|done].
    + apply N; [|lra]. intros j. unfold t2, set_key. rewrite pnode_at_insert.
      assert (nonneg t1) by (apply N1; [done|apply Hn]).
      case_decide; [subst; simpl|]; apply H.
    + intros j. rewrite ?psize_mk, Hsz. intros Hj. rewrite V. case_decide; [done|].
      rewrite V2, decide_False by (unfold l in *; lia). apply Ho. fold n. unfold l in *. lia.
    + intros _. split; [done|]. rewrite ?psize_mk, Hsz. split; [fold n; unfold l; lia|].
      intros x. unfold weight; cbn [p_index p_tree]. case_decide as Hx.
      * subst. by rewrite lookup_delete.
      * rewrite lookup_delete_ne by done. destruct (decide (x = lk)) as [->|Hxl].
        -- rewrite lookup_insert, Hl. simpl. rewrite V, V2. rewrite decide_False by done. by rewrite decide_True.
        -- rewrite lookup_insert_ne by done. destruct (p_index s !! x) as [j|] eqn:Ex; [|done]. simpl.
           apply Hi in Ex as [? Ex].
           rewrite V, V2. rewrite decide_False by (intros ->; congruence).
           rewrite decide_False by (intros ->; congruence). done.
Qed.

Lemma clear_nodes_at n : forall t j,
  pnode_at (clear_nodes n t) j =
  if decide (j < n)%nat then mkPnode (p_key (pnode_at t j)) 0 0 else pnode_at t j.
Proof.
  induction n as [|n IH]; intros t j; cbn [clear_nodes]; [done|].
  rewrite IH, pnode_at_insert. repeat case_decide; subst; try lia; done.
Qed.

Lemma prio_clear_wf s : prio_wf s -> prio_wf (prio_clear s).
Proof.
  intros [He Hi Hn Ho]. unfold prio_clear. split; cbn.
  - done.
  - intros k i. rewrite lookup_empty. unfold psize; cbn. rewrite map_size_empty. split; [done|lia].
  - intros j. rewrite clear_nodes_at. case_decide; [simpl; lra|apply Hn].
  - intros i _. unfold pval. rewrite clear_nodes_at. case_decide; [done|]. apply Ho. lia.
Qed.

(** The descent only visits present nodes, whatever the rounding. *)
Lemma descend_safe f : forall n t i tw,
  (i < n)%nat -> (n < f + i)%nat -> (0 <= tw)%Q ->
  exists j, descend f n t i tw = Some j /\ (j < n)%nat.
Proof.
  induction f as [|f IH]; intros n t i tw Hi Hf Htw; [lia|].
  cbn [descend].
  destruct (Qle_bool (psum n t (2 * i + 1)) tw) eqn:E1; cbn [negb].
  - destruct (Qle_bool (psum n t (2 * i + 2)) (rnd (tw - psum n t (2 * i + 1)))) eqn:E2; cbn [negb].
    + eauto.
    + apply Qle_bool_iff in E1. apply Qle_bool_false in E2.
      assert (0 <= rnd (tw - psum n t (2 * i + 1)))%Q by (apply rnd_nonneg; lra).
      apply IH; [|lia|done].
      unfold psum in E2 at 2. case_decide; [done|lra].
  - apply Qle_bool_false in E1. apply IH; [|lia|done].
    unfold psum in E1. case_decide; [done|lra].
Qed.

(** C14: for every rounding, sampling a non empty selector returns a key that
    is present; the side condition only concerns the all-zero case, where
    the scaled draw must not be rounded up to [size]. *)
Lemma prio_sample_safe s d :
  prio_wf s -> psize s <> 0%nat -> draw_ok d ->
  exists k q, prio_sample s d = Some (k, q) /\ is_Some (p_index s !! k).
Proof.
  intros [He Hi Hn Ho] Hsz (Hd0 & Hd1 & Hr0). unfold prio_sample.
  assert (Hr : (rnd (d_unit d * inject_Z (Z.of_nat (psize s))) < inject_Z (Z.of_nat (psize s)))%Q) by (apply Hr0; lia).
  rewrite decide_False by done.
  set (n := psize s) in *.
  assert (Hin : forall i, (i < n)%nat -> is_Some (p_index s !! p_key (pnode_at (p_tree s) i))).
  { intros i Hlt. exists i. by apply Hi. }
  destruct (Qeq_bool _ 0) eqn:E.
  - rewrite decide_True.
    + eexists _, _. split; [done|]. apply Hin.
      apply Nat2Z.inj_lt. rewrite Z2Nat.id.
      * assert (Hfl : (inject_Z (Qfloor (rnd (d_unit d * inject_Z (Z.of_nat n)))) < inject_Z (Z.of_nat n))%Q).
        { eapply Qle_lt_trans; [apply Qfloor_le|exact Hr]. }
        by rewrite <- Zlt_Qlt in Hfl.
      * assert (Hz : (0 <= rnd (d_unit d * inject_Z (Z.of_nat n)))%Q).
        { apply rnd_nonneg. apply Qmult_le_0_compat; [done|]. rewrite <- (Zle_Qle 0). lia. }
        apply Qfloor_resp_le in Hz. exact Hz.
    + apply Nat2Z.inj_lt. rewrite Z2Nat.id.
      * assert (Hfl : (inject_Z (Qfloor (rnd (d_unit d * inject_Z (Z.of_nat n)))) < inject_Z (Z.of_nat n))%Q).
        { eapply Qle_lt_trans; [apply Qfloor_le|exact Hr]. }
        by rewrite <- Zlt_Qlt in Hfl.
      * assert (Hz : (0 <= rnd (d_unit d * inject_Z (Z.of_nat n)))%Q).
        { apply rnd_nonneg. apply Qmult_le_0_compat; [done|]. rewrite <- (Zle_Qle 0). lia. }
        apply Qfloor_resp_le in Hz. exact Hz.
  - destruct (descend_safe (S n) n (p_tree s) 0 (rnd (d_unit d * p_sum (pnode_at (p_tree s) 0)))) as (j & -> & Hj).
    + lia. + lia.
    + apply rnd_nonneg. apply Qmult_le_0_compat; [done|]. apply Hn.
    + rewrite decide_True by done. eexists _, _. split; [done|]. by apply Hin.
Qed.

End Structure.
