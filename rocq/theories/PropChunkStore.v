(** C35: the chunk store. *)
From Verif Require Import Base ChunkStore.

(** ** Specification: what the callers know *)

(** How many pointers to the chunk [i] there are after a step, given how many
    there were before: results are pointers, [CDrop] drops one. *)
Definition held_step (n : nat) (i : nat) (o : csop) (r : csres) : nat :=
  match o, r with
  | CDrop j, _ => if decide (j = i) then pred n else n
  | _, CChunk j => if decide (j = i) then S n else n
  | _, CChunks _ l => (n + length (filter (eq i) l))%nat
  | _, _ => n
  end.
Fixpoint held_from (n : nat) (i : nat) (os : list csop) (rs : list csres) : nat :=
  match os, rs with
  | o :: os, r :: rs => held_from (held_step n i o r) i os rs
  | _, _ => n
  end.
Definition held := held_from 0.

(** The chunk [i] was returned by an Insert of the key [k]. *)
Definition has_key (os : list csop) (rs : list csres) (i : nat) (k : Z) : Prop :=
  exists n, os !! n = Some (CInsert k) /\ rs !! n = Some (CChunk i).

(** Somebody holds a chunk with the key [k]. *)
Definition key_held os rs k := exists i, has_key os rs i k /\ (0 < held i os rs)%nat.

(** No key is inserted again after its chunk has died. *)
Definition keys_not_reused (os : list csop) : Prop :=
  forall os1 k os2, os = os1 ++ CInsert k :: os2 -> CInsert k ∈ os1 ->
    key_held os1 (cs_run cs_new os1).1 k.

(** ** Invariants *)

Definition pending (s : cstore) (k : Z) : Prop :=
  (exists i, cs_dying s !! i = Some k) \/ k ∈ cs_queue s \/ exists ks, ks ∈ cs_popped s /\ k ∈ ks.

Record cs_inv (s : cstore) : Prop := {
  ci_refs : forall i o, cs_objs s !! i = Some o -> (0 < co_refs o)%nat /\ (i < cs_next s)%nat;
  ci_map : forall k i, cs_map s !! k = Some i -> (i < cs_next s)%nat /\
             (forall o, cs_objs s !! i = Some o -> co_key o = k) /\ (cs_objs s !! i = None -> pending s k);
  ci_dying : forall i k, cs_dying s !! i = Some k -> (i < cs_next s)%nat /\ cs_objs s !! i = None }.

(** What holds as long as no key is reused too early. *)
Record cs_good (s : cstore) : Prop := {
  cg_map : forall i o, cs_objs s !! i = Some o -> cs_map s !! co_key o = Some i;
  cg_pend : forall i o, cs_objs s !! i = Some o -> ~ pending s (co_key o) }.

Lemma inv_new : cs_inv cs_new.
Proof. split; cbn; intros ? ?; rewrite lookup_empty; done. Qed.
Lemma good_new : cs_good cs_new.
Proof. split; cbn; intros ? ?; rewrite lookup_empty; done. Qed.

Lemma lock_Some s w i : cs_lock s w = Some i <-> w = Some i /\ exists o, cs_objs s !! i = Some o.
Proof.
  unfold cs_lock. destruct w as [j|]; cbn; [|by split; [|intros [? _]]].
  destruct (cs_objs s !! j) as [o|] eqn:E; cbn.
  - split; [intros [= <-]; eauto|]. by intros [[= <-] _].
  - split; [done|]. intros [[= <-] [o H]]. congruence.
Qed.
Lemma lock_None s w : cs_lock s w = None <-> forall i, w = Some i -> cs_objs s !! i = None.
Proof.
  unfold cs_lock. destruct w as [j|]; cbn; [|by split].
  destruct (cs_objs s !! j) as [o|] eqn:E; cbn.
  - split; [done|]. intros H. rewrite (H j) in E by done. done.
  - split; [|done]. intros _ i [= <-]. done.
Qed.

Lemma addref_pending s i k : pending (cs_addref s i) k <-> pending s k.
Proof. done. Qed.
Lemma addref_lookup s i j : cs_objs (cs_addref s i) !! j =
  if decide (i = j) then (fun o => mkCobj (co_key o) (S (co_refs o))) <$> cs_objs s !! j else cs_objs s !! j.
Proof. unfold cs_addref. cbn [cs_objs]. rewrite lookup_alter_if || (destruct (decide (i = j)) as [<-|?]; [apply lookup_alter|by apply lookup_alter_ne]). Qed.

Lemma addref_inv s i : cs_inv s -> cs_inv (cs_addref s i).
Proof.
  intros [H1 H2 H3]. split.
  - intros j o. rewrite addref_lookup. destruct (decide (i = j)) as [->|Hn]; [|apply H1].
    intros (o' & Ho & ->)%fmap_Some. cbn. split; [lia|]. by apply (H1 _ _ Ho).
  - intros k j Hj. destruct (H2 k j Hj) as (L & K & P). split; [done|]. split.
    + intros o. rewrite addref_lookup. destruct (decide (i = j)) as [->|Hn]; [|apply K].
      intros (o' & Ho & ->)%fmap_Some. exact (K _ Ho).
    + rewrite addref_lookup. destruct (decide (i = j)); [|apply P]. intros Hf%fmap_None. by apply P.
  - intros j k Hj. destruct (H3 j k Hj) as (L & N). split; [done|]. rewrite addref_lookup, N. by destruct (decide (i = j)).
Qed.
Lemma addref_good s i : cs_good s -> cs_good (cs_addref s i).
Proof.
  intros [H1 H2]. split; intros j o; rewrite addref_lookup; (destruct (decide (i = j)) as [->|Hn]; [|by eauto]);
    intros (o' & Ho & ->)%fmap_Some; cbn [co_key].
  - by apply H1.
  - by apply (H2 j o').
Qed.

Lemma get_cases s ks : forall st l s', cs_get s ks = (st, l, s') -> s' = foldl cs_addref s l.
Proof.
  revert s. induction ks as [|k ks IH]; intros s st l s' H; cbn in H; [by injection H as <- <- <-|].
  destruct (cs_get_item s k) as [i|]; [|by injection H as <- <- <-].
  destruct (cs_get (cs_addref s i) ks) as [[st1 l1] s1] eqn:E. injection H as <- <- <-. cbn. by apply (IH _ st1).
Qed.

Lemma pop_pending s n k : pending (cs_pop s n) k <-> pending s k.
Proof.
  unfold cs_pop. destruct (n <=? _)%nat; [|done]. unfold pending. cbn [cs_dying cs_queue cs_popped].
  rewrite <- (take_drop n (cs_queue s)) at 2. rewrite elem_of_app. setoid_rewrite elem_of_app. setoid_rewrite elem_of_list_singleton.
  split.
  - intros [H|[H|(ks & [H| ->] & Hk)]]; eauto 8.
  - intros [H|[[H|H]|(ks & H & Hk)]]; eauto 10.
Qed.
Lemma deleter_pending s i k : pending (cs_deleter s i) k <-> pending s k.
Proof.
  unfold cs_deleter. destruct (cs_dying s !! i) as [k0|] eqn:E; [|done]. unfold pending. cbn [cs_dying cs_queue cs_popped].
  rewrite elem_of_app, elem_of_list_singleton. split.
  - intros [(j & H)|[[H| ->]|H]]; eauto. apply lookup_delete_Some in H as [_ H]. eauto.
  - intros [(j & H)|[H|H]]; eauto. destruct (decide (i = j)) as [<-|Hn]; [rewrite H in E; injection E as ->; eauto|].
    left. exists j. by rewrite lookup_delete_ne.
Qed.

Lemma foldr_delete_lookup (m : gmap Z nat) ks k : foldr delete m ks !! k = if decide (k ∈ ks) then None else m !! k.
Proof.
  induction ks as [|x ks IH]; cbn [foldr]; [by rewrite decide_False by apply not_elem_of_nil|].
  destruct (decide (x = k)) as [->|Hn].
  - rewrite lookup_delete, decide_True by apply elem_of_list_here. done.
  - rewrite lookup_delete_ne, IH by done. destruct (decide (k ∈ ks)); [rewrite decide_True by (by apply elem_of_list_further); done|].
    rewrite decide_False; [done|]. rewrite elem_of_cons. naive_solver.
Qed.

Lemma next_fresh s : cs_inv s -> cs_objs s !! cs_next s = None.
Proof.
  intros I. destruct (cs_objs s !! cs_next s) as [o|] eqn:E; [|done]. destruct (ci_refs _ I _ _ E). lia.
Qed.

Lemma insert_cases s k i s' : cs_insert s k = (i, s') ->
  (exists o, cs_map s !! k = Some i /\ cs_objs s !! i = Some o /\ s' = cs_addref s i) \/
  (i = cs_next s /\ (forall j, cs_map s !! k = Some j -> cs_objs s !! j = None) /\
   s' = mkCstore (<[i := mkCobj k 1]> (cs_objs s)) (S i) (<[k := i]> (cs_map s)) (cs_dying s) (cs_queue s) (cs_popped s)).
Proof.
  unfold cs_insert. destruct (cs_lock s (cs_map s !! k)) as [j|] eqn:E; intros [= <- <-].
  - apply lock_Some in E as [E [o Ho]]. left. eauto.
  - right. by rewrite lock_None in E.
Qed.

Lemma insert_inv s k i s' : cs_inv s -> cs_insert s k = (i, s') -> cs_inv s'.
Proof.
  intros I H. destruct (insert_cases _ _ _ _ H) as [(o & _ & _ & ->)|(-> & Hn & ->)]; [by apply addref_inv|].
  pose proof (next_fresh s I) as Hf. destruct I as [H1 H2 H3].
  split; cbn [cs_objs cs_next cs_map cs_dying].
  - intros j o. destruct (decide (cs_next s = j)) as [<-|Hne].
    + rewrite lookup_insert. intros [= <-]. cbn. lia.
    + rewrite lookup_insert_ne by done. intros Hj. destruct (H1 _ _ Hj). split; [done|lia].
  - intros k' j. destruct (decide (k = k')) as [<-|Hk].
    + rewrite lookup_insert. intros [= <-]. split; [lia|]. rewrite lookup_insert. split; [by intros o [= <-]|done].
    + rewrite lookup_insert_ne by done. intros Hj. destruct (H2 _ _ Hj) as (L & K & P). split; [lia|].
      rewrite lookup_insert_ne by lia. done.
  - intros j k' Hj. destruct (H3 _ _ Hj) as [L N]. split; [lia|]. by rewrite lookup_insert_ne by lia.
Qed.

Lemma drop_cases s i : (cs_objs s !! i = None /\ cs_drop s i = s) \/
  (exists k n, cs_objs s !! i = Some (mkCobj k (S (S n))) /\
    cs_drop s i = mkCstore (<[i := mkCobj k (S n)]> (cs_objs s)) (cs_next s) (cs_map s) (cs_dying s) (cs_queue s) (cs_popped s)) \/
  (exists k n, cs_objs s !! i = Some (mkCobj k n) /\ (n <= 1)%nat /\
    cs_drop s i = mkCstore (delete i (cs_objs s)) (cs_next s) (cs_map s) (<[i := k]> (cs_dying s)) (cs_queue s) (cs_popped s)).
Proof.
  unfold cs_drop. destruct (cs_objs s !! i) as [[k [|[|n]]]|]; [right; right|right; right|right; left|by left].
  - exists k, 0%nat. split; [done|]. split; [lia|done].
  - exists k, 1%nat. split; [done|]. split; [lia|done].
  - by exists k, n.
Qed.

Lemma drop_inv s i : cs_inv s -> cs_inv (cs_drop s i).
Proof.
  intros I. destruct (drop_cases s i) as [[_ ->]|[(k & n & E & ->)|(k & n & E & Hn & ->)]]; [done| |]; destruct I as [H1 H2 H3].
  - split; cbn [cs_objs cs_next cs_map cs_dying].
    + intros j o. destruct (decide (i = j)) as [<-|Hne]; [rewrite lookup_insert; intros [= <-]; cbn; split; [lia|by apply (H1 _ _ E)]|].
      rewrite lookup_insert_ne by done. apply H1.
    + intros k' j Hj. destruct (H2 _ _ Hj) as (L & K & P). split; [done|]. destruct (decide (i = j)) as [<-|Hne].
      * rewrite lookup_insert. split; [|done]. intros o [= <-]. exact (K _ E).
      * rewrite lookup_insert_ne by done. done.
    + intros j k' Hj. destruct (H3 _ _ Hj) as [L N]. split; [done|]. rewrite lookup_insert_ne; [done|]. intros ->. congruence.
  - split; cbn [cs_objs cs_next cs_map cs_dying].
    + intros j o Hj. apply lookup_delete_Some in Hj as [_ Hj]. by apply H1.
    + intros k' j Hj. destruct (H2 _ _ Hj) as (L & K & P). split; [done|]. split.
      * intros o Ho. apply lookup_delete_Some in Ho as [_ Ho]. by apply K.
      * destruct (decide (i = j)) as [<-|Hne].
        -- intros _. left. exists i. cbn. rewrite lookup_insert. f_equal. exact (K _ E).
        -- rewrite lookup_delete_ne by done. intros Hd. destruct (P Hd) as [(j' & H)|H]; [|by right].
           left. exists j'. cbn. rewrite lookup_insert_ne; [done|]. intros ->. destruct (H3 _ _ H). congruence.
    + intros j k' Hj. destruct (decide (i = j)) as [<-|Hne].
      * rewrite lookup_delete. split; [|done]. by apply (H1 _ _ E).
      * rewrite lookup_insert_ne in Hj by done. rewrite lookup_delete_ne by done. by apply (H3 _ k').
Qed.

Lemma same_inv s s' : cs_inv s -> cs_objs s' = cs_objs s -> cs_next s' = cs_next s ->
  (forall k i, cs_map s' !! k = Some i -> cs_map s !! k = Some i /\ (pending s k -> pending s' k)) ->
  (forall i k, cs_dying s' !! i = Some k -> cs_dying s !! i = Some k) -> cs_inv s'.
Proof.
  intros [H1 H2 H3] Eo En Em Ed. split; rewrite ?Eo, ?En.
  - done.
  - intros k i Hk. destruct (Em k i Hk) as [Hk' Hp]. destruct (H2 k i Hk') as (L & K & P). auto.
  - eauto.
Qed.

Lemma erase_pending s j k : cs_map (cs_erase s j) !! k = None \/ (pending s k <-> pending (cs_erase s j) k).
Proof.
  unfold cs_erase. destruct (cs_popped s !! j) as [ks|] eqn:E; [|by right]. cbn [cs_map]. rewrite foldr_delete_lookup.
  destruct (decide (k ∈ ks)) as [|Hk]; [by left|right]. unfold pending. cbn [cs_dying cs_queue cs_popped].
  pose proof (delete_Permutation _ _ _ E) as HP. setoid_rewrite HP at 1. setoid_rewrite elem_of_cons. naive_solver.
Qed.
Lemma erase_map s j k : cs_map (cs_erase s j) !! k = cs_map s !! k \/ pending s k.
Proof.
  unfold cs_erase. destruct (cs_popped s !! j) as [ks|] eqn:E; [|by left]. cbn [cs_map]. rewrite foldr_delete_lookup.
  destruct (decide (k ∈ ks)) as [Hk|Hk]; [right|by left]. right. right. exists ks. split; [|done]. by apply elem_of_list_lookup_2 in E.
Qed.
Lemma erase_sub s j k i : cs_map (cs_erase s j) !! k = Some i -> cs_map s !! k = Some i.
Proof.
  unfold cs_erase. destruct (cs_popped s !! j) as [ks|] eqn:E; [|done]. cbn [cs_map]. rewrite foldr_delete_lookup. by case_decide.
Qed.
Lemma erase_pending_sub s j k : pending (cs_erase s j) k -> pending s k.
Proof.
  unfold cs_erase. destruct (cs_popped s !! j) as [ks|] eqn:E; [|done]. unfold pending. cbn [cs_dying cs_queue cs_popped].
  pose proof (delete_Permutation _ _ _ E) as HP. setoid_rewrite HP at 2. setoid_rewrite elem_of_cons. naive_solver.
Qed.

Lemma pop_same s n : let s' := cs_pop s n in cs_objs s' = cs_objs s /\ cs_next s' = cs_next s /\ cs_map s' = cs_map s /\ cs_dying s' = cs_dying s.
Proof. unfold cs_pop. by destruct (n <=? _)%nat. Qed.
Lemma deleter_same s i : let s' := cs_deleter s i in cs_objs s' = cs_objs s /\ cs_next s' = cs_next s /\ cs_map s' = cs_map s /\
  forall j k, cs_dying s' !! j = Some k -> cs_dying s !! j = Some k.
Proof.
  unfold cs_deleter. destruct (cs_dying s !! i); [|done]. cbn. repeat split; try done. intros j k H.
  by apply lookup_delete_Some in H as [_ H].
Qed.
Lemma erase_same s j : let s' := cs_erase s j in cs_objs s' = cs_objs s /\ cs_next s' = cs_next s /\ cs_dying s' = cs_dying s.
Proof. unfold cs_erase. by destruct (cs_popped s !! j). Qed.

Lemma foldl_addref_inv l : forall s, cs_inv s -> cs_inv (foldl cs_addref s l).
Proof. induction l as [|i l IH]; intros s I; cbn; [done|]. by apply IH, addref_inv. Qed.
Lemma foldl_addref_good l : forall s, cs_good s -> cs_good (foldl cs_addref s l).
Proof. induction l as [|i l IH]; intros s I; cbn; [done|]. by apply IH, addref_good. Qed.
Lemma foldl_addref_lookup l : forall s i o', cs_objs (foldl cs_addref s l) !! i = Some o' ->
  exists o, cs_objs s !! i = Some o /\ co_key o = co_key o'.
Proof.
  induction l as [|j l IH]; intros s i o' H; cbn in H; [eauto|]. destruct (IH _ _ _ H) as (o & Ho & <-).
  rewrite addref_lookup in Ho. destruct (decide (j = i)) as [->|Hn]; [|eauto].
  apply fmap_Some in Ho as (o1 & Ho & ->). eauto.
Qed.
Lemma foldl_addref_rest l : forall s, let s' := foldl cs_addref s l in
  cs_next s' = cs_next s /\ cs_map s' = cs_map s /\ cs_dying s' = cs_dying s /\ cs_queue s' = cs_queue s /\ cs_popped s' = cs_popped s.
Proof. induction l as [|j l IH]; intros s; cbn; [done|]. destruct (IH (cs_addref s j)) as (-> & -> & -> & -> & ->). done. Qed.

Lemma step_inv s o : cs_inv s -> cs_inv (cs_step s o).2.
Proof.
  intros I. destruct o as [k|ks|i|i|n|j]; cbn [cs_step].
  - destruct (cs_insert s k) as [i s'] eqn:E. cbn. by apply (insert_inv s k i).
  - destruct (cs_get s ks) as [[st l] s'] eqn:E. cbn. rewrite (get_cases _ _ _ _ _ E). by apply foldl_addref_inv.
  - by apply drop_inv.
  - destruct (deleter_same s i) as (E1 & E2 & E3 & E4). apply (same_inv s); try done. cbn. rewrite E3.
    intros k i' H. split; [done|]. by rewrite deleter_pending.
  - destruct (pop_same s n) as (E1 & E2 & E3 & E4). apply (same_inv s); try done; cbn; [|by rewrite E4]. rewrite E3.
    intros k i' H. split; [done|]. by rewrite pop_pending.
  - destruct (erase_same s j) as (E1 & E2 & E3). apply (same_inv s); try done; cbn; [|by rewrite E3].
    intros k i H. split; [by apply erase_sub in H|]. destruct (erase_pending s j k) as [Hk|<-]; [congruence|done].
Qed.

Definition live (s : cstore) (k : Z) : Prop := exists i o, cs_objs s !! i = Some o /\ co_key o = k.

Lemma step_good s o : cs_inv s -> cs_good s ->
  (forall k, o = CInsert k -> ~ live s k -> ~ pending s k) -> cs_good (cs_step s o).2.
Proof.
  intros I G Hf. destruct o as [k|ks|i|i|n|j]; cbn [cs_step].
  - destruct (cs_insert s k) as [i s'] eqn:E. cbn [snd].
    destruct (insert_cases _ _ _ _ E) as [(o & _ & _ & ->)|(-> & Hn & ->)]; [by apply addref_good|].
    assert (Hl : ~ live s k).
    { intros (i & o & Ho & <-). pose proof (Hn i (cg_map _ G _ _ Ho)). congruence. }
    specialize (Hf k eq_refl Hl).
    split; cbn [cs_objs cs_map].
    + intros i o. destruct (decide (cs_next s = i)) as [<-|Hne].
      * rewrite lookup_insert. intros [= <-]. cbn. by rewrite lookup_insert.
      * rewrite lookup_insert_ne by done. intros Ho. rewrite lookup_insert_ne; [by apply G|]. intros ->. apply Hl. by exists i, o.
    + intros i o. destruct (decide (cs_next s = i)) as [<-|Hne].
      * rewrite lookup_insert. intros [= <-]. done.
      * rewrite lookup_insert_ne by done. intros Ho. apply (cg_pend _ G _ _ Ho).
  - destruct (cs_get s ks) as [[st l] s'] eqn:E. cbn. rewrite (get_cases _ _ _ _ _ E). by apply foldl_addref_good.
  - cbn [snd]. destruct (drop_cases s i) as [[_ ->]|[(k & n & E & ->)|(k & n & E & Hn & ->)]]; [done| |].
    + split; cbn [cs_objs cs_map]; intros j o; (destruct (decide (i = j)) as [<-|Hne];
        [rewrite lookup_insert; intros [= <-]; cbn [co_key]|rewrite lookup_insert_ne by done]).
      * apply (cg_map _ G _ _ E).
      * apply G.
      * apply (cg_pend _ G _ _ E).
      * apply G.
    + split; cbn [cs_objs cs_map]; intros j o [Hne Hj]%lookup_delete_Some; [by apply G|].
      intros [(j' & Hd)|Hp]; [|apply (cg_pend _ G _ _ Hj); by right]. cbn in Hd.
      destruct (decide (i = j')) as [<-|Hn'].
      * rewrite lookup_insert in Hd. injection Hd as ->. pose proof (cg_map _ G _ _ E) as M1. pose proof (cg_map _ G _ _ Hj) as M2.
        cbn in M1. congruence.
      * rewrite lookup_insert_ne in Hd by done. apply (cg_pend _ G _ _ Hj). left. eauto.
  - destruct (deleter_same s i) as (E1 & E2 & E3 & E4). split; cbn; rewrite E1; intros j o Ho; [rewrite E3; by apply G|].
    rewrite deleter_pending. by apply (cg_pend _ G j).
  - destruct (pop_same s n) as (E1 & E2 & E3 & E4). split; cbn; rewrite E1; intros j o Ho; [rewrite E3; by apply G|].
    rewrite pop_pending. by apply (cg_pend _ G j).
  - destruct (erase_same s j) as (E1 & E2 & E3). split; cbn; rewrite E1; intros i o Ho; pose proof (cg_pend _ G _ _ Ho) as Hp.
    + destruct (erase_map s j (co_key o)) as [->|]; [|done]. by apply G.
    + intros Hq. by apply Hp, (erase_pending_sub s j).
Qed.

(** ** States and histories *)

Definition refs (s : cstore) (i : nat) : nat := match cs_objs s !! i with Some o => co_refs o | None => 0 end.

Lemma refs_addref s i j : refs (cs_addref s i) j = (refs s j + if decide (i = j) then match cs_objs s !! i with Some _ => 1 | None => 0 end else 0)%nat.
Proof.
  unfold refs. rewrite addref_lookup. destruct (decide (i = j)) as [->|]; [|lia]. destruct (cs_objs s !! j); cbn; lia.
Qed.

Lemma get_refs s ks st l s' i : cs_get s ks = (st, l, s') -> refs s' i = (refs s i + length (filter (eq i) l))%nat.
Proof.
  revert s st l s'. induction ks as [|k ks IH]; intros s st l s' H; cbn in H; [injection H as <- <- <-; cbn; lia|].
  destruct (cs_get_item s k) as [j|] eqn:E; [|injection H as <- <- <-; cbn; lia].
  destruct (cs_get (cs_addref s j) ks) as [[st1 l1] s1] eqn:E1. injection H as <- <- <-.
  apply lock_Some in E as [_ [o Ho]]. rewrite (IH _ _ _ _ E1), refs_addref, Ho, filter_cons.
  destruct (decide (j = i)) as [->|Hn]; [rewrite decide_True by done; cbn; lia|]. rewrite decide_False by congruence. lia.
Qed.

Lemma step_refs s o i : cs_inv s -> let '(r, s') := cs_step s o in refs s' i = held_step (refs s i) i o r.
Proof.
  intros I. destruct o as [k|ks|j|j|n|j]; cbn [cs_step].
  - destruct (cs_insert s k) as [j s'] eqn:E. cbn [held_step].
    destruct (insert_cases _ _ _ _ E) as [(o & _ & Ho & ->)|(-> & Hn & ->)].
    + rewrite refs_addref, Ho. destruct (decide (j = i)); lia.
    + unfold refs. cbn [cs_objs]. destruct (decide (cs_next s = i)) as [<-|Hne].
      * rewrite lookup_insert, next_fresh by done. done.
      * by rewrite lookup_insert_ne.
  - destruct (cs_get s ks) as [[st l] s'] eqn:E. cbn [held_step]. by apply (get_refs s ks st).
  - cbn [held_step]. unfold refs. destruct (drop_cases s j) as [[E ->]|[(k & n & E & ->)|(k & n & E & Hn & ->)]]; cbn [cs_objs].
    + destruct (decide (j = i)) as [<-|]; [by rewrite E|done].
    + destruct (decide (j = i)) as [<-|]; [rewrite lookup_insert, E; done|by rewrite lookup_insert_ne].
    + destruct (decide (j = i)) as [<-|]; [rewrite lookup_delete, E; cbn; lia|by rewrite lookup_delete_ne].
  - destruct (deleter_same s j) as (E1 & _). cbn. unfold refs. by rewrite E1.
  - destruct (pop_same s n) as (E1 & _). cbn. unfold refs. by rewrite E1.
  - destruct (erase_same s j) as (E1 & _). cbn. unfold refs. by rewrite E1.
Qed.

(** Chunks keep their key; a new one comes from Insert. *)
Lemma step_objs s o i o' : cs_inv s -> cs_objs (cs_step s o).2 !! i = Some o' ->
  (exists o0, cs_objs s !! i = Some o0 /\ co_key o0 = co_key o') \/
  (i = cs_next s /\ o = CInsert (co_key o') /\ (cs_step s o).1 = CChunk i).
Proof.
  intros I. destruct o as [k|ks|j|j|n|j]; cbn [cs_step].
  - destruct (cs_insert s k) as [j s'] eqn:E. cbn [fst snd].
    destruct (insert_cases _ _ _ _ E) as [(o & _ & _ & ->)|(-> & Hn & ->)].
    + intros H. left. by apply (foldl_addref_lookup [j]).
    + cbn [cs_objs]. destruct (decide (cs_next s = i)) as [<-|Hne]; [rewrite lookup_insert; intros [= <-]; by right|].
      rewrite lookup_insert_ne by done. eauto.
  - destruct (cs_get s ks) as [[st l] s'] eqn:E. cbn [fst snd]. rewrite (get_cases _ _ _ _ _ E). intros H.
    left. by apply (foldl_addref_lookup l).
  - cbn [snd]. destruct (drop_cases s j) as [[E ->]|[(k & n & E & ->)|(k & n & E & Hn & ->)]]; cbn [cs_objs]; [eauto| |].
    + destruct (decide (j = i)) as [<-|]; [rewrite lookup_insert; intros [= <-]; left; eauto|]. rewrite lookup_insert_ne by done. eauto.
    + intros [_ H]%lookup_delete_Some. eauto.
  - destruct (deleter_same s j) as (E1 & _). cbn. rewrite E1. eauto.
  - destruct (pop_same s n) as (E1 & _). cbn. rewrite E1. eauto.
  - destruct (erase_same s j) as (E1 & _). cbn. rewrite E1. eauto.
Qed.
Lemma step_next s o : (cs_next s <= cs_next (cs_step s o).2)%nat.
Proof.
  destruct o as [k|ks|j|j|n|j]; cbn [cs_step].
  - destruct (cs_insert s k) as [j s'] eqn:E. cbn [snd].
    destruct (insert_cases _ _ _ _ E) as [(o & _ & _ & ->)|(-> & Hn & ->)]; cbn; lia.
  - destruct (cs_get s ks) as [[st l] s'] eqn:E. cbn [fst snd]. rewrite (get_cases _ _ _ _ _ E).
    destruct (foldl_addref_rest l s) as (-> & _). lia.
  - cbn [snd]. destruct (drop_cases s j) as [[E ->]|[(k & n & E & ->)|(k & n & E & Hn & ->)]]; cbn; lia.
  - destruct (deleter_same s j) as (_ & E1 & _). cbn. rewrite E1. lia.
  - destruct (pop_same s n) as (_ & E1 & _). cbn. rewrite E1. lia.
  - destruct (erase_same s j) as (_ & E1 & _). cbn. rewrite E1. lia.
Qed.
Lemma step_inserted s k i : cs_inv s -> (cs_step s (CInsert k)).1 = CChunk i ->
  exists o, cs_objs (cs_step s (CInsert k)).2 !! i = Some o /\ co_key o = k.
Proof.
  intros I. cbn [cs_step]. destruct (cs_insert s k) as [j s'] eqn:E. cbn [fst snd]. intros [= ->].
  destruct (insert_cases _ _ _ _ E) as [(o & M & Ho & ->)|(-> & Hn & ->)].
  - exists (mkCobj (co_key o) (S (co_refs o))). split; [by rewrite addref_lookup, decide_True, Ho by done|].
    cbn. by apply (ci_map _ I _ _ M).
  - eexists. cbn. rewrite lookup_insert. done.
Qed.
Lemma step_pending s o k : pending (cs_step s o).2 k -> pending s k \/ live s k.
Proof.
  destruct o as [k'|ks|j|j|n|j]; cbn [cs_step].
  - destruct (cs_insert s k') as [j s'] eqn:E. cbn [snd].
    destruct (insert_cases _ _ _ _ E) as [(o & _ & _ & ->)|(-> & Hn & ->)]; by left.
  - destruct (cs_get s ks) as [[st l] s'] eqn:E. cbn [fst snd]. rewrite (get_cases _ _ _ _ _ E).
    destruct (foldl_addref_rest l s) as (_ & _ & E1 & E2 & E3). unfold pending. rewrite E1, E2, E3. by left.
  - cbn [snd]. destruct (drop_cases s j) as [[E ->]|[(k' & n & E & ->)|(k' & n & E & Hn & ->)]]; [by left|by left|].
    intros [(j' & Hd)|Hp]; [|by left; right]. cbn in Hd. destruct (decide (j = j')) as [<-|Hn'].
    + rewrite lookup_insert in Hd. injection Hd as ->. right. by exists j, (mkCobj k n).
    + rewrite lookup_insert_ne in Hd by done. left. left. eauto.
  - cbn. rewrite deleter_pending. by left.
  - cbn. rewrite pop_pending. by left.
  - cbn. intros H. left. by apply (erase_pending_sub s j).
Qed.

Record hist (os : list csop) (rs : list csres) (s : cstore) : Prop := {
  hi_inv : cs_inv s;
  hi_len : length os = length rs;
  hi_held : forall i, held i os rs = refs s i;
  hi_key : forall i k, has_key os rs i k -> (i < cs_next s)%nat /\ forall o, cs_objs s !! i = Some o -> co_key o = k;
  hi_obj : forall i o, cs_objs s !! i = Some o -> has_key os rs i (co_key o);
  hi_pend : forall k, pending s k -> CInsert k ∈ os }.

Lemma held_snoc i o r os : forall n rs, length os = length rs ->
  held_from n i (os ++ [o]) (rs ++ [r]) = held_step (held_from n i os rs) i o r.
Proof. induction os as [|o1 os IH]; intros n [|r1 rs] H; try done. cbn in H. cbn. apply IH. lia. Qed.
Lemma has_key_snoc os rs o r i k : length os = length rs ->
  has_key (os ++ [o]) (rs ++ [r]) i k <-> has_key os rs i k \/ (o = CInsert k /\ r = CChunk i).
Proof.
  intros H. unfold has_key. split.
  - intros (n & H1 & H2). destruct (decide (n < length os)%nat) as [Hn|Hn].
    + rewrite lookup_app_l in H1 by lia. rewrite lookup_app_l in H2 by lia. eauto.
    + apply lookup_app_Some in H1 as [H1|[_ H1]]; [apply lookup_lt_Some in H1; lia|].
      apply lookup_app_Some in H2 as [H2|[_ H2]]; [apply lookup_lt_Some in H2; lia|].
      apply list_lookup_singleton_Some in H1 as [_ ->]. apply list_lookup_singleton_Some in H2 as [_ ->]. by right.
  - intros [(n & H1 & H2)|[-> ->]].
    + exists n. rewrite lookup_app_l by (by eapply lookup_lt_Some). rewrite lookup_app_l by (by eapply lookup_lt_Some). done.
    + exists (length os). rewrite lookup_app_r by lia. rewrite lookup_app_r by lia.
      replace (length os - length os)%nat with 0%nat by lia. by replace (length os - length rs)%nat with 0%nat by lia.
Qed.

Lemma cs_run_snoc os o : forall s, cs_run s (os ++ [o]) =
  ((cs_run s os).1 ++ [(cs_step (cs_run s os).2 o).1], (cs_step (cs_run s os).2 o).2).
Proof.
  induction os as [|o1 os IH]; intros s; cbn [app cs_run].
  - destruct (cs_step s o) as [r s1] eqn:E. cbn. by rewrite E.
  - destruct (cs_step s o1) as [r s1]. rewrite IH. destruct (cs_run s1 os) as [rs s2]. done.
Qed.

Lemma hist_run os : hist os (cs_run cs_new os).1 (cs_run cs_new os).2.
Proof.
  induction os as [|o os IH] using rev_ind.
  - cbn. split; try done.
    + intros i k (n & H & _). done.
    + intros k [(i & H)|[H|(ks & H & _)]]; [done|by apply not_elem_of_nil in H|by apply not_elem_of_nil in H].
  - rewrite cs_run_snoc. destruct (cs_run cs_new os) as [rs s]. cbn [fst snd] in *. destruct IH as [I1 I2 I3 I4 I5 I6].
    pose proof (step_inv s o I1) as S1. pose proof (fun i => step_refs s o i I1) as S2.
    pose proof (fun i o' => step_objs s o i o' I1) as S3. pose proof (step_next s o) as S4.
    pose proof (fun k => step_pending s o k) as S5.
    split.
    + done.
    + rewrite !app_length. cbn. lia.
    + intros i. unfold held. rewrite held_snoc by done. specialize (S2 i). destruct (cs_step s o) as [r s']. cbn in *.
      unfold held in I3. by rewrite S2, I3.
    + intros i k. rewrite has_key_snoc by done. intros [Hk|[-> Hr]].
      * destruct (I4 i k Hk) as [Hl Hk']. split; [lia|]. intros o' Ho'. destruct (S3 _ _ Ho') as [(o0 & Ho & <-)|(-> & _)]; [auto|lia].
      * destruct (step_inserted s k i I1 Hr) as (o' & Ho' & Hk). split; [by apply (ci_refs _ S1 _ _ Ho')|].
        intros o2 Ho2. congruence.
    + intros i o' Ho'. rewrite has_key_snoc by done. destruct (S3 _ _ Ho') as [(o0 & Ho & <-)|(-> & -> & Hr)]; [left; by apply I5|by right].
    + intros k Hp. rewrite elem_of_app. left. destruct (S5 k Hp) as [Hp'|(i & o' & Ho & <-)]; [by apply I6|].
      destruct (I5 _ _ Ho) as (n & Hn & _). by eapply elem_of_list_lookup_2.
Qed.

Lemma held_live os rs s i k : hist os rs s -> has_key os rs i k -> (0 < held i os rs)%nat <-> exists o, cs_objs s !! i = Some o /\ co_key o = k.
Proof.
  intros H Hk. rewrite (hi_held _ _ _ H). unfold refs. destruct (cs_objs s !! i) as [o|] eqn:E.
  - split; [intros _; exists o; split; [done|by apply (hi_key _ _ _ H _ _ Hk)]|]. intros _. by apply (ci_refs _ (hi_inv _ _ _ H) _ _ E).
  - split; [lia|by intros (? & ? & _)].
Qed.
Lemma key_held_live os rs s k : hist os rs s -> key_held os rs k <-> live s k.
Proof.
  intros H. split.
  - intros (i & Hk & Hh). apply (held_live _ _ _ _ _ H Hk) in Hh as (o & Ho & <-). by exists i, o.
  - intros (i & o & Ho & <-). pose proof (hi_obj _ _ _ H _ _ Ho) as Hk. exists i. split; [done|].
    apply (held_live _ _ _ _ _ H Hk). eauto.
Qed.

Lemma good_run os : keys_not_reused os -> cs_good (cs_run cs_new os).2.
Proof.
  induction os as [|o os IH] using rev_ind; intros Hr; [apply good_new|].
  rewrite cs_run_snoc. cbn [snd]. pose proof (hist_run os) as H. apply step_good; [apply H| |].
  - apply IH. intros os1 k os2 -> Hk. apply (Hr os1 k (os2 ++ [o])); [|done]. by rewrite <- app_assoc.
  - intros k -> Hl Hp. apply Hl. apply (key_held_live _ _ _ _ H). apply (Hr os k []); [done|]. by apply (hi_pend _ _ _ H).
Qed.

(** ** C35 *)

(** A chunk that is held is found and not made a second time.  Missing from the
    full statement: runs that insert a key again after its chunk has died and
    before the cleanup; for these it is false (below). *)
Theorem C35_held_found_partial os i k : keys_not_reused os ->
  let '(rs, s) := cs_run cs_new os in
  has_key os rs i k -> (0 < held i os rs)%nat ->
  (cs_step s (CGet [k])).1 = CChunks Ok [i] /\ (cs_step s (CInsert k)).1 = CChunk i.
Proof.
  intros Hr. pose proof (good_run os Hr) as G. pose proof (hist_run os) as H. destruct (cs_run cs_new os) as [rs s]. cbn [fst snd] in *.
  intros Hk Hh. apply (held_live _ _ _ _ _ H Hk) in Hh as (o & Ho & <-). pose proof (cg_map _ G _ _ Ho) as M.
  assert (L : cs_lock s (cs_map s !! co_key o) = Some i) by (apply lock_Some; eauto).
  cbn. unfold cs_get_item, cs_insert. rewrite L. done.
Qed.

(** Every run: what Get returns is what was asked for, and alive. *)
Theorem C35_get_sound os ks l : let '(rs, s) := cs_run cs_new os in
  (cs_step s (CGet ks)).1 = CChunks Ok l ->
  Forall2 (fun k i => has_key os rs i k /\ (0 < held i os rs)%nat) ks l.
Proof.
  pose proof (hist_run os) as H. destruct (cs_run cs_new os) as [rs s]. cbn [fst snd] in *. cbn [cs_step].
  destruct (cs_get s ks) as [[st l'] s'] eqn:E. cbn. intros [= -> ->].
  assert (Hg : forall s0, cs_map s0 = cs_map s -> (forall i o, cs_objs s0 !! i = Some o -> exists o1, cs_objs s !! i = Some o1 /\ co_key o1 = co_key o) ->
    forall ks l s', cs_get s0 ks = (Ok, l, s') -> Forall2 (fun k i => has_key os rs i k /\ (0 < held i os rs)%nat) ks l); [|by apply (Hg s eq_refl (fun i o Ho => ex_intro _ o (conj Ho eq_refl)) _ _ _ E)].
  clear E ks l s'. intros s0 Em Eo ks. revert s0 Em Eo. induction ks as [|k ks IH]; intros s0 Em Eo l s' E; cbn in E; [injection E as <- <-; constructor|].
  unfold cs_get_item in E. destruct (cs_lock s0 (cs_map s0 !! k)) as [i|] eqn:El; [|done].
  destruct (cs_get (cs_addref s0 i) ks) as [[st1 l1] s1] eqn:E1. injection E as -> <- <-.
  apply lock_Some in El as [M [o Ho]]. destruct (Eo _ _ Ho) as (o1 & Ho1 & Hk1). rewrite Em in M.
  pose proof (hi_inv _ _ _ H) as I. destruct (ci_map _ I _ _ M) as (_ & K & _). specialize (K _ Ho1).
  constructor.
  - pose proof (hi_obj _ _ _ H _ _ Ho1) as Hk. rewrite K in Hk. split; [done|]. apply (held_live _ _ _ _ _ H Hk). eauto.
  - apply (IH (cs_addref s0 i) Em) with s1; [|done]. intros j o' Ho'. destruct (foldl_addref_lookup [i] _ _ _ Ho') as (o2 & Ho2 & <-). by apply Eo.
Qed.

(** Every run: Insert returns a chunk with the key; when nobody holds one, a new
    one, and Get does not find one. *)
Theorem C35_insert os k : let '(rs, s) := cs_run cs_new os in
  exists i, (cs_step s (CInsert k)).1 = CChunk i /\
    ((has_key os rs i k /\ (0 < held i os rs)%nat) \/ (forall k', ~ has_key os rs i k')) /\
    (~ key_held os rs k -> (forall k', ~ has_key os rs i k') /\ (cs_step s (CGet [k])).1 = CChunks NotFound []).
Proof.
  pose proof (hist_run os) as H. destruct (cs_run cs_new os) as [rs s]. cbn [fst snd] in *. cbn [cs_step].
  pose proof (hi_inv _ _ _ H) as I.
  destruct (cs_insert s k) as [i s'] eqn:E. exists i. split; [done|].
  destruct (insert_cases _ _ _ _ E) as [(o & M & Ho & ->)|(-> & Hn & ->)].
  - destruct (ci_map _ I _ _ M) as (_ & K & _). specialize (K _ Ho). pose proof (hi_obj _ _ _ H _ _ Ho) as Hk. rewrite K in Hk.
    assert (Hh : (0 < held i os rs)%nat) by (apply (held_live _ _ _ _ _ H Hk); eauto).
    split; [by left|]. intros Hno. destruct Hno. by exists i.
  - assert (Hnk : forall k', ~ has_key os rs (cs_next s) k').
    { intros k' Hk. destruct (hi_key _ _ _ H _ _ Hk). lia. }
    split; [by right|]. intros _. split; [done|]. cbn. unfold cs_get_item.
    assert (L : cs_lock s (cs_map s !! k) = None) by (by apply lock_None). by rewrite L.
Qed.

(** Every run: the map has no entries but those of chunks that are held and of
    keys on their way to the cleanup. *)
Theorem C35_no_leak os k : let '(rs, s) := cs_run cs_new os in
  cs_dying s = ∅ -> cs_queue s = [] -> cs_popped s = [] -> is_Some (cs_map s !! k) -> key_held os rs k.
Proof.
  pose proof (hist_run os) as H. destruct (cs_run cs_new os) as [rs s]. cbn [fst snd] in *.
  intros E1 E2 E3 [i Hi]. apply (key_held_live _ _ _ _ H). destruct (ci_map _ (hi_inv _ _ _ H) _ _ Hi) as (_ & K & P).
  destruct (cs_objs s !! i) as [o|] eqn:Eo; [exists i, o; auto|]. specialize (P eq_refl). exfalso.
  destruct P as [(j & Hj)|[Hj|(ks & Hj & _)]]; [by rewrite E1 in Hj|rewrite E2 in Hj|rewrite E3 in Hj]; by apply not_elem_of_nil in Hj.
Qed.

(** ** Concrete cases *)

Definition ex_cs : list csop :=
  [CInsert 5; CInsert 6; CGet [5; 6]; CInsert 5; CDrop 0; CDrop 1; CDrop 1; CDeleter 1; CPop 1; CErase 0].
Example C35_example : keys_not_reused ex_cs /\ (cs_run cs_new ex_cs).1 !! 3%nat = Some (CChunk 0) /\
  has_key ex_cs (cs_run cs_new ex_cs).1 0 5 /\ held 0 ex_cs (cs_run cs_new ex_cs).1 = 2%nat /\
  held 1 ex_cs (cs_run cs_new ex_cs).1 = 0%nat /\ cs_map (cs_run cs_new ex_cs).2 !! 5 = Some 0%nat /\ cs_map (cs_run cs_new ex_cs).2 !! 6 = None.
Proof.
  split; [|split; [by vm_compute|]; split; [by exists 0%nat|by vm_compute]].
  intros os1 k os2 E Hin. unfold ex_cs in E.
  destruct os1 as [|o1 os1]; [by apply not_elem_of_nil in Hin|]. cbn in E. injection E as <- E.
  destruct os1 as [|o1 os1]; [cbn in E; injection E as <- <-; by apply elem_of_list_singleton in Hin|]. cbn in E. injection E as <- E.
  destruct os1 as [|o1 os1]; [done|]. cbn in E. injection E as <- E.
  destruct os1 as [|o1 os1].
  - cbn in E. injection E as <- <-. exists 0%nat. split; [by exists 0%nat|]. vm_compute. lia.
  - exfalso. cbn in E. injection E as _ E.
    assert (Hk : CInsert k ∈ os1 ++ CInsert k :: os2) by (apply elem_of_app; right; apply elem_of_list_here). rewrite <- E in Hk.
    repeat (apply elem_of_cons in Hk as [Hk|Hk]; [done|]). by apply not_elem_of_nil in Hk.
Qed.

(** The cleanup of a dead chunk erases the entry of the living one with the same
    key: it is held but not found, and a second one is made. *)
Theorem C35_held_found_refuted : exists os i k, let '(rs, s) := cs_run cs_new os in
  has_key os rs i k /\ (0 < held i os rs)%nat /\
  (cs_step s (CGet [k])).1 = CChunks NotFound [] /\ (cs_step s (CInsert k)).1 <> CChunk i.
Proof.
  exists [CInsert 5; CDrop 0; CDeleter 0; CInsert 5; CPop 1; CErase 0], 1%nat, 5.
  split; [by exists 3%nat|]. vm_compute. split; [lia|]. done.
Qed.

Print Assumptions C35_held_found_partial.
Print Assumptions C35_get_sound.
Print Assumptions C35_insert.
Print Assumptions C35_no_leak.
Print Assumptions C35_held_found_refuted.
