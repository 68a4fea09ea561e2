(** Invariants of the heap selector. *)
From Verif Require Import Base SelHeap.

(** Array and stored positions are mutually inverse. *)
Definition hwf (arr : list Z) (nodes : gmap Z hnode) : Prop :=
  forall k i, (h_pos <$> nodes !! k) = Some i <-> arr !! i = Some k.

(** The part of the nodes that determines the order. *)
Definition rank (nodes : gmap Z hnode) (k : Z) : option (dbl * Z) :=
  (fun n => (h_prio n, h_upd n)) <$> nodes !! k.

Lemma rank_set_pos nodes k i x : rank (set_pos nodes k i) x = rank nodes x.
Proof.
  unfold rank, set_pos. destruct (decide (x = k)) as [->|].
  - rewrite lookup_alter. by destruct (nodes !! k).
  - by rewrite lookup_alter_ne.
Qed.

Lemma hless_rank n1 n2 a b :
  rank n1 a = rank n2 a -> rank n1 b = rank n2 b -> hless n1 a b = hless n2 a b.
Proof.
  unfold rank, hless, node_lt. intros Ha Hb.
  destruct (n1 !! a) as [[]|], (n2 !! a) as [[]|]; simplify_eq/=; try done.
  destruct (n1 !! b) as [[]|], (n2 !! b) as [[]|]; simplify_eq/=; done.
Qed.

Lemma hless_set_pos nodes k i a b : hless (set_pos nodes k i) a b = hless nodes a b.
Proof. apply hless_rank; apply rank_set_pos. Qed.

Lemma pos_set_pos nodes k i x :
  h_pos <$> set_pos nodes k i !! x =
  if decide (x = k) then (fun _ => i) <$> (nodes !! k) else h_pos <$> nodes !! x.
Proof.
  unfold set_pos. case_decide; subst.
  - rewrite lookup_alter. by destruct (nodes !! k).
  - by rewrite lookup_alter_ne.
Qed.

Lemma hwf_inj arr nodes i j k : hwf arr nodes -> arr !! i = Some k -> arr !! j = Some k -> i = j.
Proof. intros H Hi Hj. apply H in Hi, Hj. congruence. Qed.

Lemma hwf_some arr nodes i k : hwf arr nodes -> arr !! i = Some k -> is_Some (nodes !! k).
Proof. intros H Hi. apply H in Hi. destruct (nodes !! k); [eauto|done]. Qed.

Lemma at_lookup arr i k : arr !! i = Some k -> at_ arr i = k.
Proof. unfold at_. by intros ->. Qed.

Lemma lookup_at arr i : (i < length arr)%nat -> arr !! i = Some (at_ arr i).
Proof. intros H. unfold at_. destruct (lookup_lt_is_Some_2 arr i H) as [x Hx]. by rewrite Hx. Qed.

(** Moving the hole from [h] to [p]. *)
Lemma hole_step arr nodes t h p :
  hwf (<[h := t]> arr) (set_pos nodes t h) ->
  (h < length arr)%nat -> (p < length arr)%nat -> p <> h ->
  let pk := at_ arr p in
  hwf (<[p := t]> (<[h := pk]> arr)) (set_pos (set_pos nodes pk h) t p) /\
  (<[p := t]> (<[h := pk]> arr)) ≡ₚ <[h := t]> arr /\ pk <> t.
Proof.
  intros H Hh Hp Hne pk.
  pose proof (lookup_at arr p Hp) as Hpk. fold pk in Hpk.
  assert (Hv : (<[h := t]> arr) !! p = Some pk) by (by rewrite list_lookup_insert_ne).
  assert (Ht : (<[h := t]> arr) !! h = Some t) by (by rewrite list_lookup_insert).
  assert (Hpt : pk <> t).
  { intros ->. apply Hne. by eapply hwf_inj. }
  split; [|split; [|done]].
  - intros k i. rewrite !pos_set_pos.
    destruct (decide (k = t)) as [->|Hkt].
    + pose proof (hwf_some _ _ _ _ H Ht) as Hs.
      assert (is_Some (nodes !! t)) as [n Hn].
      { unfold set_pos in Hs. rewrite lookup_alter in Hs. destruct (nodes !! t); [eauto|by destruct Hs]. }
      assert (Hn' : is_Some (set_pos nodes pk h !! t)).
      { unfold set_pos. rewrite lookup_alter_ne by done. eauto. }
      destruct Hn' as [n' Hn']. rewrite Hn'. simpl. split.
      * intros [= <-]. rewrite list_lookup_insert; [done|]. by rewrite insert_length.
      * intros Hi. destruct (decide (i = p)) as [->|Hip]; [done|exfalso].
        rewrite list_lookup_insert_ne in Hi by done.
        destruct (decide (i = h)) as [->|Hih].
        { rewrite list_lookup_insert in Hi by done. congruence. }
        rewrite list_lookup_insert_ne in Hi by done.
        apply Hih. eapply hwf_inj; [exact H| |exact Ht].
        by rewrite list_lookup_insert_ne.
    + destruct (decide (k = pk)) as [->|Hkp].
      * pose proof (hwf_some _ _ _ _ H Hv) as Hs.
        assert (is_Some (nodes !! pk)) as [n Hn].
        { unfold set_pos in Hs. by rewrite lookup_alter_ne in Hs. }
        rewrite Hn. simpl. split.
        -- intros [= <-]. rewrite list_lookup_insert_ne by done. by rewrite list_lookup_insert.
        -- intros Hi. destruct (decide (i = p)) as [->|Hip].
           { rewrite list_lookup_insert in Hi; [congruence|]. by rewrite insert_length. }
           rewrite list_lookup_insert_ne in Hi by done.
           destruct (decide (i = h)) as [->|Hih]; [done|exfalso].
           rewrite list_lookup_insert_ne in Hi by done.
           apply Hip. eapply hwf_inj; [exact H| |exact Hv]. by rewrite list_lookup_insert_ne.
      * specialize (H k i). rewrite pos_set_pos in H. rewrite decide_False in H by done.
        rewrite H. 
        destruct (decide (i = p)) as [->|Hip].
        { rewrite Hv. rewrite list_lookup_insert by (by rewrite insert_length). split; congruence. }
        rewrite (list_lookup_insert_ne _ p i) by done.
        destruct (decide (i = h)) as [->|Hih].
        { rewrite !list_lookup_insert by done. split; congruence. }
        by rewrite !list_lookup_insert_ne by done.
  - assert (E : <[p := t]> (<[h := pk]> arr) = <[p := t]> (<[h := pk]> (<[h := t]> arr))).
    { by rewrite list_insert_insert. }
    rewrite E. clear E.
    set (V := <[h := t]> arr) in *.
    assert (HhV : (h < length V)%nat) by (unfold V; by rewrite insert_length).
    (* swapping two positions is a permutation *)
    clearbody V. clear H.
    apply Permutation_inj. split; [by rewrite !insert_length|].
    exists (fun i => if decide (i = h) then p else if decide (i = p) then h else i).
    split.
    + intros i j. repeat case_decide; congruence.
    + intros i. repeat case_decide; subst.
      * rewrite list_lookup_insert_ne by done. rewrite list_lookup_insert by done. congruence.
      * rewrite list_lookup_insert; [congruence|].
        rewrite insert_length. by apply lookup_lt_Some in Hv.
      * by rewrite !list_lookup_insert_ne by done.
Qed.

(** Heap order relative to a comparison [lt]. *)
Definition parent (i : nat) : nat := ((i - 1) / 2)%nat.

Definition edge (lt : Z -> Z -> bool) (arr : list Z) (i : nat) : Prop :=
  forall x p, arr !! i = Some x -> arr !! parent i = Some p -> lt p x = true.

Definition ho (lt : Z -> Z -> bool) (arr : list Z) : Prop :=
  forall i, (0 < i)%nat -> edge lt arr i.

(** [lt] is a strict total order on the keys of [arr]. *)
Record sto (lt : Z -> Z -> bool) (S : Z -> Prop) : Prop := {
  sto_irr : forall a, S a -> lt a a = false;
  sto_trans : forall a b c, S a -> S b -> S c -> lt a b = true -> lt b c = true -> lt a c = true;
  sto_total : forall a b, S a -> S b -> a <> b -> lt a b = false -> lt b a = true }.

Lemma sto_weaken lt (S1 S2 : Z -> Prop) : sto lt S1 -> (forall x, S2 x -> S1 x) -> sto lt S2.
Proof. intros [a b c] H. split; eauto. Qed.

(** Order conditions while a hole is at [h]; [arr] is the array with the
    moving element put in the hole. *)
Definition ho_away (lt : Z -> Z -> bool) (arr : list Z) (h : nat) : Prop :=
  (forall i, (0 < i)%nat -> i <> h -> parent i <> h -> edge lt arr i) /\
  (forall i x g, (0 < h)%nat -> (0 < i)%nat -> parent i = h ->
     arr !! i = Some x -> arr !! parent h = Some g -> lt g x = true).

Lemma parent_lt i : (0 < i)%nat -> (parent i < i)%nat.
Proof. intros H. unfold parent. pose proof (Nat.div_le_upper_bound (i-1) 2 (i-1)). lia. Qed.

Lemma parent_kids i h : (0 < i)%nat -> parent i = h <-> (i = 2 * h + 1 \/ i = 2 * h + 2)%nat.
Proof.
  intros Hi. unfold parent. split.
  - intros <-. pose proof (Nat.div_mod (i - 1) 2). pose proof (Nat.mod_upper_bound (i-1) 2). lia.
  - intros [-> | ->].
    + replace (2 * h + 1 - 1)%nat with (h * 2)%nat by lia. apply Nat.div_mul. lia.
    + replace (2 * h + 2 - 1)%nat with (1 + h * 2)%nat by lia. rewrite Nat.div_add by lia. done.
Qed.

(** fix_up: structure. *)
Lemma fix_up_wf f : forall arr nodes t h,
  (h < f)%nat -> (h < length arr)%nat ->
  hwf (<[h := t]> arr) (set_pos nodes t h) ->
  let r := fix_up f arr nodes t h in
  hwf r.1 r.2 /\ r.1 ≡ₚ <[h := t]> arr /\ (forall x, rank r.2 x = rank nodes x).
Proof.
  induction f as [|f IH]; intros arr nodes t h Hf Hh H; [lia|].
  cbn [fix_up]. case_decide as Hd.
  { unfold place; cbn [fst snd]. split; [done|]. split; [done|]. intros; apply rank_set_pos. }
  destruct (hless nodes (at_ arr ((h - 1) / 2)) t) eqn:E.
  { unfold place; cbn [fst snd]. split; [done|]. split; [done|]. intros; apply rank_set_pos. }
  assert (Hp : (parent h < h)%nat) by (apply parent_lt; lia).
  change ((h - 1) / 2)%nat with (parent h).
  destruct (hole_step arr nodes t h (parent h) H Hh) as (H1 & H2 & H3); [lia|lia|].
  destruct (IH (<[h := at_ arr (parent h)]> arr) (set_pos nodes (at_ arr (parent h)) h) t (parent h))
    as (I1 & I2 & I3); [lia|rewrite insert_length; lia|done|].
  split; [done|]. split; [by rewrite I2|]. intros x. rewrite I3. apply rank_set_pos.
Qed.

(** fix_up: order. *)
Lemma fix_up_ho f : forall arr nodes t h lt,
  (forall a b, hless nodes a b = lt a b) ->
  sto lt (fun k => k ∈ (<[h := t]> arr : list Z)) ->
  (h < f)%nat -> (h < length arr)%nat ->
  hwf (<[h := t]> arr) (set_pos nodes t h) ->
  ho_away lt (<[h := t]> arr) h ->
  (forall i x, (0 < i)%nat -> parent i = h -> (<[h := t]> arr) !! i = Some x -> lt t x = true) ->
  ho lt (fix_up f arr nodes t h).1.
Proof.
  induction f as [|f IH]; intros arr nodes t h lt Hlt Hsto Hf Hh H Haway Hkids; [lia|].
  cbn [fix_up].
  assert (Ht : (<[h := t]> arr) !! h = Some t) by (by rewrite list_lookup_insert).
  assert (Hdone : (h = 0%nat \/ lt (at_ arr (parent h)) t = true) -> ho lt (<[h := t]> arr)).
  { intros Hc i Hi. destruct (decide (i = h)) as [->|Hih].
    - intros x p Hx Hp. rewrite Ht in Hx. injection Hx as <-.
      destruct Hc as [->|Hc]; [lia|].
      assert (parent h < h)%nat by (apply parent_lt; lia).
      rewrite list_lookup_insert_ne in Hp by lia. apply at_lookup in Hp. congruence.
    - destruct (decide (parent i = h)) as [Hpi|Hpi].
      + intros x p Hx Hp. rewrite Hpi, Ht in Hp. injection Hp as <-. by eapply Hkids.
      + by apply Haway. }
  case_decide as Hd; [apply Hdone; auto|].
  change ((h - 1) / 2)%nat with (parent h).
  destruct (hless nodes (at_ arr (parent h)) t) eqn:E.
  { apply Hdone. right. by rewrite <- Hlt. }
  assert (Hp : (parent h < h)%nat) by (apply parent_lt; lia).
  destruct (hole_step arr nodes t h (parent h) H Hh) as (H1 & H2 & H3); [lia|lia|].
  set (p := parent h) in *. set (pk := at_ arr p) in *.
  assert (Hpk : arr !! p = Some pk) by (apply lookup_at; lia).
  assert (HpkV : (<[h := t]> arr) !! p = Some pk) by (rewrite list_lookup_insert_ne; [done|lia]).
  assert (Htp : lt t pk = true).
  { rewrite Hlt in E. eapply sto_total; eauto.
    - apply elem_of_list_lookup; eauto.
    - apply elem_of_list_lookup; eauto. }
  set (V := <[h := t]> arr) in *.
  set (V2 := <[p := t]> (<[h := pk]> arr)) in *.
  assert (HV2p : V2 !! p = Some t).
  { unfold V2. rewrite list_lookup_insert; [done|]. rewrite insert_length. lia. }
  assert (HV2h : V2 !! h = Some pk).
  { unfold V2. rewrite list_lookup_insert_ne by lia. by rewrite list_lookup_insert. }
  assert (HV2o : forall i, i <> p -> i <> h -> V2 !! i = V !! i).
  { intros i ? ?. unfold V2, V. by rewrite !list_lookup_insert_ne by lia. }
  eapply (IH _ _ _ _ lt); try done.
  - intros a b. by rewrite hless_set_pos.
  - eapply sto_weaken; [exact Hsto|]. intros x Hx. cbn beta in *. eapply elem_of_Permutation_proper; [symmetry; exact H2|exact Hx].
  - lia.
  - rewrite insert_length; lia.
  - fold V2. split.
    + intros i Hi Hip Hpip x g Hx Hg.
      destruct (decide (i = h)) as [->|Hih]; [done|].
      rewrite HV2o in Hx by done.
      destruct (decide (parent i = h)) as [Hpi|Hpi].
      * rewrite Hpi, HV2h in Hg. injection Hg as <-.
        eapply (proj2 Haway i x pk); eauto. lia.
      * rewrite HV2o in Hg by done. by eapply (proj1 Haway i).
    + intros i x g Hp0 Hi Hpi Hx Hg.
      assert (parent p < p)%nat by (apply parent_lt; lia).
      rewrite HV2o in Hg by lia.
      assert (Hgp : lt g pk = true).
      { eapply (proj1 Haway p); [lia|lia|lia|exact HpkV|exact Hg]. }
      destruct (decide (i = h)) as [->|Hih].
      * rewrite HV2h in Hx. by injection Hx as <-.
      * rewrite HV2o in Hx; [|pose proof (parent_lt i Hi); lia|done].
        assert (Hpx : lt pk x = true).
        { eapply (proj1 Haway i); [done|done|lia|exact Hx|]. by rewrite Hpi. }
        eapply (sto_trans _ _ Hsto g pk x); eauto; apply elem_of_list_lookup; eauto.
  - fold V2. intros i x Hi Hpi Hx.
    destruct (decide (i = h)) as [->|Hih].
    { rewrite HV2h in Hx. by injection Hx as <-. }
    rewrite HV2o in Hx; [|pose proof (parent_lt i Hi); lia|done].
    assert (Hpx : lt pk x = true).
    { eapply (proj1 Haway i); [done|done|lia|exact Hx|]. by rewrite Hpi. }
    eapply (sto_trans _ _ Hsto t pk x); eauto; apply elem_of_list_lookup; eauto.
Qed.

(** The child chosen by fix_down. *)
Definition pick_kid (arr : list Z) (nodes : gmap Z hnode) (h : nat) : nat :=
  let kid0 := (2 * h + 1)%nat in
  if decide (kid0 + 1 < length arr)%nat then
    if hless nodes (at_ arr (kid0 + 1)) (at_ arr kid0) then (kid0 + 1)%nat else kid0
  else kid0.

Lemma pick_kid_bounds arr nodes h :
  (2 * h + 1 < length arr)%nat ->
  let kid := pick_kid arr nodes h in
  (kid = 2 * h + 1 \/ kid = 2 * h + 2)%nat /\ (kid < length arr)%nat.
Proof. intros H. unfold pick_kid. repeat case_decide; try destruct (hless _ _ _); lia. Qed.

Lemma fix_down_wf f : forall arr nodes t h,
  (length arr <= f + h)%nat -> (h < length arr)%nat ->
  hwf (<[h := t]> arr) (set_pos nodes t h) ->
  let r := fix_down f arr nodes t h in
  hwf r.1 r.2 /\ r.1 ≡ₚ <[h := t]> arr /\ (forall x, rank r.2 x = rank nodes x).
Proof.
  induction f as [|f IH]; intros arr nodes t h Hf Hh H; [lia|].
  cbn [fix_down]. case_decide as Hd.
  { unfold place; cbn [fst snd]. split; [done|]. split; [done|]. intros; apply rank_set_pos. }
  fold (pick_kid arr nodes h).
  destruct (pick_kid_bounds arr nodes h) as [Hk1 Hk2]; [lia|].
  set (kid := pick_kid arr nodes h) in *.
  destruct (hless nodes t (at_ arr kid)) eqn:E.
  { unfold place; cbn [fst snd]. split; [done|]. split; [done|]. intros; apply rank_set_pos. }
  destruct (hole_step arr nodes t h kid H Hh) as (H1 & H2 & H3); [lia|lia|].
  destruct (IH (<[h := at_ arr kid]> arr) (set_pos nodes (at_ arr kid) h) t kid)
    as (I1 & I2 & I3); [rewrite insert_length; lia|rewrite insert_length; lia|done|].
  split; [done|]. split; [by rewrite I2|]. intros x. rewrite I3. apply rank_set_pos.
Qed.

Lemma fix_down_ho f : forall arr nodes t h lt,
  (forall a b, hless nodes a b = lt a b) ->
  sto lt (fun k => k ∈ (<[h := t]> arr : list Z)) ->
  (length arr <= f + h)%nat -> (h < length arr)%nat ->
  hwf (<[h := t]> arr) (set_pos nodes t h) ->
  ho_away lt (<[h := t]> arr) h ->
  ((0 < h)%nat -> edge lt (<[h := t]> arr) h) ->
  ho lt (fix_down f arr nodes t h).1.
Proof.
  induction f as [|f IH]; intros arr nodes t h lt Hlt Hsto Hf Hh H Haway Hup; [lia|].
  cbn [fix_down].
  assert (Ht : (<[h := t]> arr) !! h = Some t) by (by rewrite list_lookup_insert).
  assert (Hlen : length (<[h := t]> arr) = length arr) by apply insert_length.
  assert (Hdone : (forall i x, (0 < i)%nat -> parent i = h -> (<[h:=t]> arr) !! i = Some x -> lt t x = true) ->
            ho lt (<[h := t]> arr)).
  { intros Hc i Hi. destruct (decide (i = h)) as [->|Hih]; [by apply Hup|].
    destruct (decide (parent i = h)) as [Hpi|Hpi].
    - intros x p Hx Hp. rewrite Hpi, Ht in Hp. injection Hp as <-. by eapply Hc.
    - by apply Haway. }
  case_decide as Hd.
  { apply Hdone. intros i x Hi Hpi Hx. apply parent_kids in Hpi; [|done].
    apply lookup_lt_Some in Hx. rewrite Hlen in Hx. lia. }
  fold (pick_kid arr nodes h).
  destruct (pick_kid_bounds arr nodes h) as [Hk1 Hk2]; [lia|].
  (* kid is the smaller child *)
  assert (Hmin : forall i x, (0 < i)%nat -> parent i = h -> i <> pick_kid arr nodes h ->
            (<[h := t]> arr) !! i = Some x -> lt (at_ arr (pick_kid arr nodes h)) x = true).
  { intros i x Hi Hpi Hne Hx. apply parent_kids in Hpi; [|done].
    pose proof (lookup_lt_Some _ _ _ Hx) as Hil. rewrite Hlen in Hil.
    unfold pick_kid in *. rewrite decide_True in * by lia.
    assert (H0 : arr !! (2 * h + 1)%nat = Some (at_ arr (2 * h + 1))) by (apply lookup_at; lia).
    destruct (hless nodes (at_ arr (2 * h + 1 + 1)) (at_ arr (2 * h + 1))) eqn:E.
    - assert (i = 2 * h + 1)%nat by lia. subst i.
      rewrite list_lookup_insert_ne in Hx by lia. rewrite H0 in Hx. injection Hx as <-.
      by rewrite <- Hlt.
    - assert (i = 2 * h + 1 + 1)%nat by lia. subst i.
      assert (H1 : arr !! (2 * h + 1 + 1)%nat = Some (at_ arr (2 * h + 1 + 1))) by (apply lookup_at; lia).
      rewrite list_lookup_insert_ne in Hx by lia. rewrite H1 in Hx. injection Hx as <-.
      rewrite Hlt in E. eapply sto_total; [exact Hsto| | | |exact E].
      + apply elem_of_list_lookup. exists (2 * h + 1 + 1)%nat. by rewrite list_lookup_insert_ne by lia.
      + apply elem_of_list_lookup. exists (2 * h + 1)%nat. by rewrite list_lookup_insert_ne by lia.
      + intros Heq. assert ((2 * h + 1 + 1)%nat = (2 * h + 1)%nat); [|lia].
        eapply hwf_inj; [exact H| |].
        * rewrite list_lookup_insert_ne by lia. exact H1.
        * rewrite list_lookup_insert_ne by lia. etrans; [exact H0|]. f_equal. symmetry. exact Heq. }
  set (kid := pick_kid arr nodes h) in *. set (kk := at_ arr kid) in *.
  assert (Hkk : arr !! kid = Some kk) by (apply lookup_at; lia).
  assert (HkkV : (<[h := t]> arr) !! kid = Some kk) by (rewrite list_lookup_insert_ne; [done|lia]).
  destruct (hole_step arr nodes t h kid H Hh) as (H1 & H2 & H3); [lia|lia|].
  assert (Hpk : parent kid = h) by (apply parent_kids; lia).
  destruct (hless nodes t kk) eqn:E.
  { apply Hdone. intros i x Hi Hpi Hx. destruct (decide (i = kid)) as [->|Hne].
    - rewrite HkkV in Hx. injection Hx as <-. by rewrite <- Hlt.
    - eapply (sto_trans _ _ Hsto t kk x); eauto; apply elem_of_list_lookup; eauto. }
  assert (Hkt : lt kk t = true).
  { rewrite Hlt in E. eapply sto_total; eauto; apply elem_of_list_lookup; eauto. }
  set (V := <[h := t]> arr) in *.
  set (V2 := <[kid := t]> (<[h := kk]> arr)).
  assert (HV2p : V2 !! kid = Some t).
  { unfold V2. rewrite list_lookup_insert; [done|]. rewrite insert_length. lia. }
  assert (HV2h : V2 !! h = Some kk).
  { unfold V2. rewrite list_lookup_insert_ne by lia. by rewrite list_lookup_insert. }
  assert (HV2o : forall i, i <> kid -> i <> h -> V2 !! i = V !! i).
  { intros i ? ?. unfold V2, V. by rewrite !list_lookup_insert_ne by lia. }
  eapply (IH _ _ _ _ lt); try done.
  - intros a b. by rewrite hless_set_pos.
  - eapply sto_weaken; [exact Hsto|]. intros x Hx. cbn beta in *. eapply elem_of_Permutation_proper; [symmetry; exact H2|exact Hx].
  - rewrite insert_length; lia.
  - rewrite insert_length; lia.
  - fold V2. split.
    + intros i Hi Hik Hpik x g Hx Hg.
      destruct (decide (i = h)) as [->|Hih].
      * rewrite HV2h in Hx. injection Hx as <-.
        assert (parent h < h)%nat by (apply parent_lt; lia).
        rewrite HV2o in Hg by lia.
        eapply (proj2 Haway kid kk g); eauto; lia.
      * rewrite HV2o in Hx by done.
        destruct (decide (parent i = h)) as [Hpi|Hpi].
        -- rewrite Hpi, HV2h in Hg. injection Hg as <-. by eapply Hmin.
        -- rewrite HV2o in Hg by done. by eapply (proj1 Haway i).
    + intros i x g Hk0 Hi Hpi Hx Hg.
      rewrite Hpk, HV2h in Hg. injection Hg as <-.
      pose proof (parent_lt i Hi).
      rewrite HV2o in Hx by lia.
      eapply (proj1 Haway i); [done|lia|lia|exact Hx|]. by rewrite Hpi.
  - fold V2. intros _ x g Hx Hg. rewrite HV2p in Hx. injection Hx as <-.
    rewrite Hpk, HV2h in Hg. by injection Hg as <-.
Qed.

(** adjust *)
Lemma adjust_wf arr nodes t h :
  hwf arr nodes -> arr !! h = Some t ->
  let r := adjust arr nodes t in
  hwf r.1 r.2 /\ r.1 ≡ₚ arr /\ (forall x, rank r.2 x = rank nodes x).
Proof.
  intros H Ht. unfold adjust.
  assert (Hp : pos_of nodes t = h).
  { apply H in Ht. unfold pos_of. destruct (nodes !! t); [|done]. by injection Ht. }
  rewrite Hp.
  pose proof (lookup_lt_Some _ _ _ Ht) as Hlt.
  assert (Hid : <[h := t]> arr = arr) by (by apply list_insert_id).
  assert (Hw : hwf (<[h := t]> arr) (set_pos nodes t h)).
  { rewrite Hid. intros k i. rewrite pos_set_pos. case_decide; [subst|apply H].
    rewrite <- (H t i). apply H in Ht. destruct (nodes !! t); simpl in *; [by rewrite Ht|done]. }
  case_decide.
  - destruct (fix_up_wf (S (length arr)) arr nodes t h) as (A & B & C); [lia|lia|done|].
    rewrite Hid in B. eauto.
  - destruct (fix_down_wf (S (length arr)) arr nodes t h) as (A & B & C); [lia|lia|done|].
    rewrite Hid in B. eauto.
Qed.

Lemma adjust_ho arr nodes t h :
  hwf arr nodes -> arr !! h = Some t ->
  sto (hless nodes) (fun k => k ∈ arr) ->
  ho_away (hless nodes) arr h ->
  ho (hless nodes) (adjust arr nodes t).1.
Proof.
  intros H Ht Hsto Haway. unfold adjust.
  assert (Hp : pos_of nodes t = h).
  { apply H in Ht. unfold pos_of. destruct (nodes !! t); [|done]. by injection Ht. }
  rewrite Hp.
  pose proof (lookup_lt_Some _ _ _ Ht) as Hlt.
  assert (Hid : <[h := t]> arr = arr) by (by apply list_insert_id).
  assert (Hw : hwf (<[h := t]> arr) (set_pos nodes t h)).
  { rewrite Hid. intros k i. rewrite pos_set_pos. case_decide; [subst|apply H].
    rewrite <- (H t i). apply H in Ht. destruct (nodes !! t); simpl in *; [by rewrite Ht|done]. }
  change ((h - 1) / 2)%nat with (parent h).
  case_decide as Hc.
  - destruct Hc as [Hh Hl].
    assert (parent h < h)%nat by (apply parent_lt; lia).
    assert (Hpp : arr !! parent h = Some (at_ arr (parent h))) by (apply lookup_at; lia).
    apply fix_up_ho; rewrite ?Hid; try done; try lia; try (by rewrite Hid in Hw).
    intros i x Hi Hpi Hx.
    eapply (sto_trans _ _ Hsto t (at_ arr (parent h)) x); eauto; try (apply elem_of_list_lookup; eauto).
    eapply (proj2 Haway i x); eauto. lia.
  - apply fix_down_ho; rewrite ?Hid; try done; try lia; try (by rewrite Hid in Hw).
    intros Hh x g Hx Hg. rewrite Ht in Hx. injection Hx as <-.
    assert (parent h < h)%nat by (apply parent_lt; lia).
    apply at_lookup in Hg as Hg'.
    destruct (hless nodes t (at_ arr (parent h))) eqn:E; [exfalso; apply Hc; split; [lia|done]|].
    rewrite Hg' in E.
    eapply sto_total; [exact Hsto| | | |exact E]; try (apply elem_of_list_lookup; eauto).
    intros ->. assert (h = parent h) by (eapply hwf_inj; [exact H|eassumption|eassumption]). lia.
Qed.

(** * The selector *)

(** [heap_wf s]: array and nodes agree, update numbers are fresh and unique. *)
Record heap_wf (s : heap) : Prop := {
  hw_links : hwf (hp_arr s) (hp_nodes s);
  hw_fresh : forall k n, hp_nodes s !! k = Some n -> h_upd n < hp_count s;
  hw_uniq : forall k1 k2 n1 n2, hp_nodes s !! k1 = Some n1 -> hp_nodes s !! k2 = Some n2 ->
     h_upd n1 = h_upd n2 -> k1 = k2 }.

(** No NaN among the stored priorities. *)
Definition heap_finite (s : heap) : Prop :=
  forall k n, hp_nodes s !! k = Some n -> h_prio n <> NaN.

Definition heap_ordered (s : heap) : Prop := ho (hless (hp_nodes s)) (hp_arr s).

Lemma hwf_elem arr nodes k : hwf arr nodes -> k ∈ arr <-> is_Some (nodes !! k).
Proof.
  intros H. rewrite elem_of_list_lookup. split.
  - intros [i Hi]. by eapply hwf_some.
  - intros [n Hn]. exists (h_pos n). apply H. by rewrite Hn.
Qed.

(** CHECK(Contains(t)) of Adjust and Remove holds for every node. *)
Lemma heap_contains s k : heap_wf s -> is_Some (hp_nodes s !! k) ->
  contains_ (hp_arr s) (hp_nodes s) k.
Proof.
  intros H [n Hn]. unfold contains_, pos_of. rewrite Hn.
  apply (hw_links s H). by rewrite Hn.
Qed.

Lemma node_lt_sto_aux x y : h_prio x <> NaN -> h_prio y <> NaN ->
  node_lt x y = true <->
  exists a b, h_prio x = Fin a /\ h_prio y = Fin b /\ ((a < b)%Q \/ ((a == b)%Q /\ h_upd x < h_upd y)).
Proof.
  destruct x as [[a|] ux ?], y as [[b|] uy ?]; simpl; try done. intros _ _.
  unfold node_lt; simpl. rewrite orb_true_iff, andb_true_iff, negb_true_iff, Z.ltb_lt.
  rewrite Qeq_bool_iff. split.
  - intros H. exists a, b. split; [done|]. split; [done|].
    destruct H as [H|[H1 H2]]; [left|right; done].
    apply Qnot_le_lt. intros Hle. apply Qle_bool_iff in Hle. congruence.
  - intros (a' & b' & [= <-] & [= <-] & [H|[H1 H2]]); [left|right; done].
    destruct (Qle_bool b a) eqn:E; [|done]. apply Qle_bool_iff in E. exfalso. lra.
Qed.

Lemma hless_sto (nodes : gmap Z hnode) (P : Z -> Prop) :
  (forall k, P k -> is_Some (nodes !! k)) ->
  (forall k n, nodes !! k = Some n -> h_prio n <> NaN) ->
  (forall k1 k2 n1 n2, nodes !! k1 = Some n1 -> nodes !! k2 = Some n2 ->
     h_upd n1 = h_upd n2 -> k1 = k2) ->
  sto (hless nodes) P.
Proof.
  intros HP HN HU. split.
  - intros a Ha. destruct (HP _ Ha) as [n Hn]. unfold hless. rewrite Hn.
    destruct (node_lt n n) eqn:E; [|done]. apply node_lt_sto_aux in E; [|by eapply HN..].
    destruct E as (x & y & ? & ? & [?|[? ?]]); [|lia]. assert (x = y) by congruence. subst. lra.
  - intros a b c Ha Hb Hc. destruct (HP _ Ha) as [na Hna], (HP _ Hb) as [nb Hnb], (HP _ Hc) as [nc Hnc].
    unfold hless. rewrite Hna, Hnb, Hnc. rewrite !node_lt_sto_aux by (by eapply HN).
    intros (x & y & Hx & Hy & H1) (y' & z & Hy' & Hz & H2). simplify_eq.
    exists x, z. split; [congruence|]. split; [done|].
    assert (y = y') by congruence. subst y'.
    destruct H1 as [H1|[H1 U1]], H2 as [H2|[H2 U2]].
    + left; lra. + left; lra. + left; lra. + right. split; [lra|lia].
  - intros a b Ha Hb Hne. destruct (HP _ Ha) as [na Hna], (HP _ Hb) as [nb Hnb].
    unfold hless. rewrite Hna, Hnb. intros E.
    apply node_lt_sto_aux; [by eapply HN..|].
    destruct (h_prio na) as [x|] eqn:Ex; [|by eapply HN in Hna].
    destruct (h_prio nb) as [y|] eqn:Ey; [|by eapply HN in Hnb].
    exists y, x. split; [done|]. split; [done|].
    assert (Hno : ~ (node_lt na nb = true)) by congruence.
    rewrite node_lt_sto_aux in Hno by (by eapply HN).
    assert (h_upd na <> h_upd nb) by (intros Hu; apply Hne; by eapply HU).
    destruct (Qlt_le_dec y x) as [Hl|Hl]; [by left|right].
    destruct (Qlt_le_dec x y) as [Hl'|Hl'].
    { exfalso. apply Hno. exists x, y. eauto. }
    split; [lra|]. destruct (decide (h_upd na < h_upd nb)); [|lia].
    exfalso. apply Hno. exists x, y. split; [done|]. split; [done|]. right. split; [lra|done].
Qed.

Lemma rank_hless n1 n2 : (forall x, rank n1 x = rank n2 x) -> forall a b, hless n1 a b = hless n2 a b.
Proof. intros H a b. by apply hless_rank. Qed.

Lemma rank_upd n1 n2 k n : (forall x, rank n1 x = rank n2 x) -> n1 !! k = Some n ->
  exists n', n2 !! k = Some n' /\ h_prio n' = h_prio n /\ h_upd n' = h_upd n.
Proof.
  intros H Hn. specialize (H k). unfold rank in H. rewrite Hn in H. simpl in H.
  destruct (n2 !! k) as [n'|]; simpl in H; [|done]. exists n'. by injection H.
Qed.

Lemma ho_ext lt1 lt2 arr : (forall a b, lt1 a b = lt2 a b) -> ho lt1 arr -> ho lt2 arr.
Proof. intros H Ho i Hi x p Hx Hp. rewrite <- H. by eapply Ho. Qed.

(** ** Insert *)
Lemma heap_insert_spec s k p :
  heap_wf s ->
  let r := heap_insert s k p in
  heap_wf r.2 /\ hp_neg r.2 = hp_neg s /\
  (k ∈ hp_arr s -> r = (InvalidArgument, s)) /\
  (k ∉ hp_arr s -> r.1 = Ok /\
     (forall x, rank (hp_nodes r.2) x =
        if decide (x = k) then Some (dsign (hp_neg s) p, hp_count s) else rank (hp_nodes s) x) /\
     hp_count r.2 = hp_count s + 1) /\
  (heap_finite s -> p <> NaN -> heap_ordered s -> heap_finite r.2 /\ heap_ordered r.2).
Proof.
  intros [L F U]. unfold heap_insert.
  pose proof (hwf_elem _ _ k L) as Hel.
  destruct (hp_nodes s !! k) as [n|] eqn:E; cbn [fst snd].
  { split; [by split|]. split; [done|]. split; [done|]. split; [|done].
    intros Hk. exfalso. apply Hk. apply Hel. eauto. }
  set (nd := <[k := mkHnode (dsign (hp_neg s) p) (hp_count s) 0]> (hp_nodes s)).
  unfold push.
  set (arr := hp_arr s) in *. set (len := length arr).
  assert (Hnk : forall i, arr !! i <> Some k).
  { intros i Hi. eapply hwf_some in Hi; [|exact L]. rewrite E in Hi. by destruct Hi. }
  assert (Hid : <[len := k]> (arr ++ [k]) = arr ++ [k]).
  { apply list_insert_id. rewrite lookup_app_r, Nat.sub_diag by done. done. }
  assert (Hw : hwf (<[len := k]> (arr ++ [k])) (set_pos (set_pos nd k len) k len)).
  { rewrite Hid. intros x i. rewrite !pos_set_pos.
    destruct (decide (x = k)) as [->|Hx].
    - assert (Hs : set_pos nd k len !! k = Some (mkHnode (dsign (hp_neg s) p) (hp_count s) len)).
      { unfold set_pos, nd. rewrite lookup_alter, lookup_insert. done. }
      rewrite Hs. simpl. split.
      + intros [= <-]. rewrite lookup_app_r, Nat.sub_diag by done. done.
      + intros Hi. apply lookup_app_Some in Hi as [Hi|[Hge Hi]]; [by apply Hnk in Hi|].
        apply list_lookup_singleton_Some in Hi as [? _]. f_equal. unfold len in *. lia.
    - unfold nd. rewrite lookup_insert_ne by done. rewrite (L x i). split.
      + intros Hi. apply lookup_app_l_Some. done.
      + intros Hi. apply lookup_app_Some in Hi as [Hi|[Hge Hi]]; [done|].
        apply list_lookup_singleton_Some in Hi as [? ?]. congruence. }
  assert (Hlen : length (arr ++ [k]) = S len) by (rewrite app_length; simpl; unfold len; lia).
  destruct (fix_up_wf (S (S len)) (arr ++ [k]) (set_pos nd k len) k len) as (A & B & C); [lia|lia|exact Hw|].
  assert (Hrank : forall x, rank (fix_up (S (S len)) (arr ++ [k]) (set_pos nd k len) k len).2 x =
     if decide (x = k) then Some (dsign (hp_neg s) p, hp_count s) else rank (hp_nodes s) x).
  { intros x. rewrite C, rank_set_pos. unfold rank, nd. case_decide.
    - subst. by rewrite lookup_insert. - by rewrite lookup_insert_ne. }
  assert (Hnode : forall x n, (fix_up (S (S len)) (arr ++ [k]) (set_pos nd k len) k len).2 !! x = Some n ->
     (x = k /\ h_prio n = dsign (hp_neg s) p /\ h_upd n = hp_count s) \/
     (x <> k /\ exists n', hp_nodes s !! x = Some n' /\ h_prio n = h_prio n' /\ h_upd n = h_upd n')).
  { intros x n Hn. specialize (Hrank x). unfold rank in Hrank at 1. rewrite Hn in Hrank. simpl in Hrank.
    case_decide; [left|right]; split; try done.
    - by injection Hrank. 
    - unfold rank in Hrank. destruct (hp_nodes s !! x) as [n'|]; [|done]. exists n'. by injection Hrank. }
  assert (Hord : heap_finite s -> p <> NaN -> heap_ordered s ->
            ho (hless (set_pos nd k len)) (fix_up (S (S len)) (arr ++ [k]) (set_pos nd k len) k len).1).
  { intros Hfin Hp Hord. apply fix_up_ho; try done; try lia.
    - rewrite Hid. apply hless_sto.
      + intros x Hx. rewrite Hid in Hw. apply elem_of_list_lookup in Hx as [i Hi].
        eapply hwf_some in Hi; [|exact Hw]. unfold set_pos in Hi at 1.
        destruct (decide (x = k)) as [->|].
        * unfold set_pos, nd. rewrite lookup_alter, lookup_insert. simpl. eauto.
        * by rewrite lookup_alter_ne in Hi.
      + intros x n. unfold set_pos, nd. destruct (decide (x = k)) as [->|].
        * rewrite lookup_alter, lookup_insert. intros [= <-]. simpl. by destruct p.
        * rewrite lookup_alter_ne, lookup_insert_ne by done. apply Hfin.
      + intros k1 k2 n1 n2. unfold set_pos, nd.
        destruct (decide (k1 = k)) as [->|], (decide (k2 = k)) as [->|];
          rewrite ?lookup_alter, ?lookup_alter_ne, ?lookup_insert, ?lookup_insert_ne by done; try done.
        * intros [= <-] H2. simpl. apply F in H2. lia.
        * intros H1 [= <-]. simpl. apply F in H1. lia.
        * apply U.
    - rewrite Hid. split.
      + intros i Hi Hil Hpi x g Hx Hg.
        apply lookup_app_Some in Hx as [Hx|[Hge Hx]].
        2:{ apply list_lookup_singleton_Some in Hx as [? ?]. unfold len in Hil. lia. }
        pose proof (parent_lt i Hi). pose proof (lookup_lt_Some _ _ _ Hx).
        rewrite lookup_app_l in Hg by lia.
        rewrite hless_set_pos.
        assert (Hh : hless (hp_nodes s) g x = true) by (by eapply Hord).
        rewrite <- Hh. apply hless_rank; unfold rank, nd; rewrite lookup_insert_ne; try done.
        * intros <-. by eapply Hnk. * intros <-. by eapply Hnk.
      + intros i x g Hl Hi Hpi Hx. apply parent_kids in Hpi; [|done].
        apply lookup_lt_Some in Hx. lia.
    - intros i x Hi Hpi Hx. rewrite Hid in Hx. apply parent_kids in Hpi; [|done].
      apply lookup_lt_Some in Hx. lia. }
  fold len.
  destruct (fix_up (S (S len)) (arr ++ [k]) (set_pos nd k len) k len) as [arr' nodes'] eqn:Eu.
  cbn [fst snd] in *. split; [|split; [|split; [|split]]].
  - split; cbn.
    + done.
    + intros x n Hn. apply Hnode in Hn as [(-> & _ & ->)|(Hx & n' & Hn' & _ & ->)]; [lia|].
      apply F in Hn'. lia.
    + intros k1 k2 n1 n2 H1 H2 Hu.
      apply Hnode in H1 as [(-> & _ & U1)|(Hx1 & m1 & M1 & _ & U1)];
      apply Hnode in H2 as [(-> & _ & U2)|(Hx2 & m2 & M2 & _ & U2)]; try done.
      * apply F in M2. lia.
      * apply F in M1. lia.
      * eapply U; eauto. congruence.
  - done.
  - intros Hk. exfalso. apply Hel in Hk. by destruct Hk.
  - intros _. done.
  - intros Hfin Hp Hord'. split.
    + intros x n Hn. cbn in Hn. apply Hnode in Hn as [(-> & -> & _)|(Hx & n' & Hn' & -> & _)].
      * by destruct p. * by eapply Hfin.
    + unfold heap_ordered; cbn. eapply ho_ext; [|by apply Hord].
      intros a b. symmetry. by apply rank_hless.
Qed.

(** ** Update *)
Lemma heap_update_spec s k p :
  heap_wf s ->
  let r := heap_update s k p in
  heap_wf r.2 /\ hp_neg r.2 = hp_neg s /\
  (k ∉ hp_arr s -> r = (InvalidArgument, s)) /\
  (k ∈ hp_arr s -> r.1 = Ok /\
     (forall x, rank (hp_nodes r.2) x =
        if decide (x = k) then Some (dsign (hp_neg s) p, hp_count s) else rank (hp_nodes s) x) /\
     hp_count r.2 = hp_count s + 1) /\
  (heap_finite s -> p <> NaN -> heap_ordered s -> heap_finite r.2 /\ heap_ordered r.2).
Proof.
  intros [L F U]. unfold heap_update.
  pose proof (hwf_elem _ _ k L) as Hel.
  destruct (hp_nodes s !! k) as [n0|] eqn:E; cbn [fst snd].
  2:{ split; [by split|]. split; [done|]. split; [done|]. split; [|done].
      intros Hk. apply Hel in Hk. by destruct Hk. }
  set (nd := <[k := mkHnode (dsign (hp_neg s) p) (hp_count s) (h_pos n0)]> (hp_nodes s)).
  set (arr := hp_arr s) in *.
  assert (Hw : hwf arr nd).
  { intros x i. unfold nd. destruct (decide (x = k)) as [->|].
    - rewrite lookup_insert. simpl. rewrite <- (L k i), E. done.
    - rewrite lookup_insert_ne by done. apply L. }
  assert (Hk : arr !! h_pos n0 = Some k) by (apply L; by rewrite E).
  destruct (adjust_wf arr nd k (h_pos n0) Hw Hk) as (A & B & C).
  assert (Hrank : forall x, rank (adjust arr nd k).2 x =
     if decide (x = k) then Some (dsign (hp_neg s) p, hp_count s) else rank (hp_nodes s) x).
  { intros x. rewrite C. unfold rank, nd. case_decide.
    - subst. by rewrite lookup_insert. - by rewrite lookup_insert_ne. }
  assert (Hnode : forall x n, (adjust arr nd k).2 !! x = Some n ->
     (x = k /\ h_prio n = dsign (hp_neg s) p /\ h_upd n = hp_count s) \/
     (x <> k /\ exists n', hp_nodes s !! x = Some n' /\ h_prio n = h_prio n' /\ h_upd n = h_upd n')).
  { intros x n Hn. specialize (Hrank x). unfold rank in Hrank at 1. rewrite Hn in Hrank. simpl in Hrank.
    case_decide; [left|right]; split; try done.
    - by injection Hrank. 
    - unfold rank in Hrank. destruct (hp_nodes s !! x) as [n'|]; [|done]. exists n'. by injection Hrank. }
  assert (Hord : heap_finite s -> p <> NaN -> heap_ordered s -> ho (hless nd) (adjust arr nd k).1).
  { intros Hfin Hp Hord. apply (adjust_ho _ _ _ (h_pos n0)); try done.
    - apply hless_sto.
      + intros x Hx. by apply (hwf_elem _ _ x Hw).
      + intros x n. unfold nd. destruct (decide (x = k)) as [->|].
        * rewrite lookup_insert. intros [= <-]. simpl. by destruct p.
        * rewrite lookup_insert_ne by done. apply Hfin.
      + intros k1 k2 n1 n2. unfold nd.
        destruct (decide (k1 = k)) as [->|], (decide (k2 = k)) as [->|];
          rewrite ?lookup_insert, ?lookup_insert_ne by done; try done.
        * intros [= <-] H2. simpl. apply F in H2. lia.
        * intros H1 [= <-]. simpl. apply F in H1. lia.
        * apply U.
    - assert (Hsto0 : sto (hless (hp_nodes s)) (fun x => x ∈ arr)).
      { apply hless_sto; [|done|done]. intros x Hx. by apply (hwf_elem _ _ x L). }
      split.
      + intros i Hi Hih Hpi x g Hx Hg.
        assert (Hh : hless (hp_nodes s) g x = true) by (by eapply Hord).
        rewrite <- Hh. apply hless_rank; unfold rank, nd; rewrite lookup_insert_ne; try done.
        * intros <-. apply Hpi. eapply hwf_inj; [exact L| |]; eassumption. * intros <-. apply Hih. eapply hwf_inj; [exact L| |]; eassumption.
      + intros i x g Hl Hi Hpi Hx Hg.
        assert (H1 : hless (hp_nodes s) g k = true).
        { eapply Hord; [|exact Hk|exact Hg]. done. }
        assert (H2 : hless (hp_nodes s) k x = true).
        { eapply Hord; [|exact Hx|]; [done|]. by rewrite Hpi. }
        assert (H3 : hless (hp_nodes s) g x = true).
        { eapply (sto_trans _ _ Hsto0 g k x); eauto; apply elem_of_list_lookup; eauto. }
        rewrite <- H3. apply hless_rank; unfold rank, nd; rewrite lookup_insert_ne; try done.
        * intros <-. pose proof (parent_lt _ Hl). assert (h_pos n0 = parent (h_pos n0)) by (eapply hwf_inj; [exact L| |]; eassumption). lia.
        * intros <-. pose proof (parent_lt _ Hi). assert (i = h_pos n0) by (eapply hwf_inj; [exact L| |]; eassumption). lia. }
  destruct (adjust arr nd k) as [arr' nodes'] eqn:Eu.
  cbn [fst snd] in *. split; [|split; [|split; [|split]]].
  - split; cbn.
    + done.
    + intros x n Hn. apply Hnode in Hn as [(-> & _ & ->)|(Hx & n' & Hn' & _ & ->)]; [lia|].
      apply F in Hn'. lia.
    + intros k1 k2 n1 n2 H1 H2 Hu.
      apply Hnode in H1 as [(-> & _ & U1)|(Hx1 & m1 & M1 & _ & U1)];
      apply Hnode in H2 as [(-> & _ & U2)|(Hx2 & m2 & M2 & _ & U2)]; try done.
      * apply F in M2. lia.
      * apply F in M1. lia.
      * eapply U; eauto. congruence.
  - done.
  - intros Hnk. exfalso. apply Hnk, Hel. eauto.
  - intros _. done.
  - intros Hfin Hp Hord'. split.
    + intros x n Hn. cbn in Hn. apply Hnode in Hn as [(-> & -> & _)|(Hx & n' & Hn' & -> & _)].
      * by destruct p. * by eapply Hfin.
    + unfold heap_ordered; cbn. eapply ho_ext; [|by apply Hord].
      intros a b. symmetry. apply rank_hless. intros x. by rewrite C.
Qed.

(** ** Delete *)
Lemma set_pos_delete k (m : gmap Z hnode) y j :
  y <> k -> set_pos (delete k m) y j = delete k (set_pos m y j).
Proof.
  intros Hy. unfold set_pos. apply map_eq. intros z.
  destruct (decide (z = k)) as [->|Hzk].
  - rewrite lookup_delete, lookup_alter_ne by done. by rewrite lookup_delete.
  - rewrite lookup_delete_ne by done. destruct (decide (z = y)) as [->|Hzy].
    + rewrite !lookup_alter, lookup_delete_ne by done. done.
    + rewrite !lookup_alter_ne by done. by rewrite lookup_delete_ne.
Qed.

Lemma heap_delete_spec s k :
  heap_wf s ->
  let r := heap_delete s k in
  heap_wf r.2 /\ hp_neg r.2 = hp_neg s /\
  (k ∉ hp_arr s -> r = (InvalidArgument, s)) /\
  (k ∈ hp_arr s -> r.1 = Ok /\
     (forall x, rank (hp_nodes r.2) x = if decide (x = k) then None else rank (hp_nodes s) x) /\
     hp_count r.2 = hp_count s) /\
  (heap_finite s -> heap_ordered s -> heap_finite r.2 /\ heap_ordered r.2).
Proof.
  intros [L F U]. unfold heap_delete.
  pose proof (hwf_elem _ _ k L) as Hel.
  destruct (hp_nodes s !! k) as [n0|] eqn:E; cbn [fst snd].
  2:{ split; [by split|]. split; [done|]. split; [done|]. split; [|done].
      intros Hk. apply Hel in Hk. by destruct Hk. }
  set (arr := hp_arr s) in *. set (nodes := hp_nodes s) in *.
  assert (Hk : arr !! h_pos n0 = Some k) by (apply L; by rewrite E).
  pose proof (lookup_lt_Some _ _ _ Hk) as Hlt.
  set (h := h_pos n0) in *.
  (* it suffices to describe remove_ *)
  assert (Hmain : exists arr' nodes',
    remove_ arr nodes k = (arr', nodes') /\
    hwf arr' (delete k nodes') /\
    (forall x, x <> k -> rank nodes' x = rank nodes x) /\
    (heap_finite s -> heap_ordered s -> ho (hless (delete k nodes')) arr')).
  { unfold remove_. assert (Hpos : pos_of nodes k = h) by (unfold pos_of; by rewrite E). rewrite Hpos.
    case_decide as Hc.
    - exists (take (length arr - 1) arr), nodes. split; [done|]. 
      assert (Hlk : forall i x, take (length arr - 1) arr !! i = Some x <-> arr !! i = Some x /\ x <> k).
      { intros i x. rewrite lookup_take_Some. split; intros [H1 H2]; split; try done.
        - intros ->. assert (i = h) by (eapply hwf_inj; [exact L| |]; eassumption). lia.
        - pose proof (lookup_lt_Some _ _ _ H1). destruct (decide (i = length arr - 1)%nat); [|lia].
          exfalso. subst i. rewrite <- Hc in H1. congruence. }
      split; [|split; [done|]].
      + intros x i. rewrite Hlk. destruct (decide (x = k)) as [->|].
        * rewrite lookup_delete. split; [done|]. tauto.
        * rewrite lookup_delete_ne by done. rewrite (L x i). tauto.
      + intros Hfin Hord i Hi x g Hx Hg. apply Hlk in Hx as [Hx Hxk], Hg as [Hg Hgk].
        assert (Hh : hless nodes g x = true) by (by eapply Hord).
        rewrite <- Hh. apply hless_rank; unfold rank; by rewrite lookup_delete_ne.
    - set (n1 := (length arr - 1)%nat) in *.
      set (elem := at_ arr n1).
      assert (He : arr !! n1 = Some elem) by (apply lookup_at; unfold n1; lia).
      assert (Hek : elem <> k). { intros Heq. rewrite Heq in He. apply Hc. eapply hwf_inj; [exact L| |]; eassumption. }
      assert (Hn1 : (h < n1)%nat) by (unfold n1 in *; lia).
      set (arr1 := take n1 (<[h := elem]> arr)).
      assert (Hlk : forall i, (i < n1)%nat -> arr1 !! i = if decide (i = h) then Some elem else arr !! i).
      { intros i Hi. unfold arr1. rewrite lookup_take by done. case_decide.
        - subst. by rewrite list_lookup_insert. - by rewrite list_lookup_insert_ne. }
      assert (Hlk' : forall i, (n1 <= i)%nat -> arr1 !! i = None).
      { intros i Hi. unfold arr1. by rewrite lookup_take_ge. }
      (* work with k already deleted *)
      set (nd0 := set_pos (delete k nodes) elem h).
      assert (Hw1 : hwf arr1 nd0).
      { intros x i. unfold nd0. rewrite pos_set_pos.
        destruct (decide (i < n1)%nat) as [Hi|Hi].
        - rewrite Hlk by done. case_decide as Hx; [subst x|].
          + rewrite lookup_delete_ne by done.
            apply L in He as He'. destruct (nodes !! elem) as [ne|]; [|done]. simpl in *.
            destruct (decide (i = h)) as [->|Hih]; [done|]. split; [congruence|].
            intros Hi'. apply L in Hi'. 
            assert (n1 = i). { eapply hwf_inj; [exact L|exact He|]. by apply L. } lia.
          + destruct (decide (x = k)) as [->|Hxk].
            * rewrite lookup_delete. simpl. split; [done|].
              destruct (decide (i = h)) as [->|Hih]; [congruence|].
              intros Hi'. exfalso. apply Hih. eapply hwf_inj; [exact L| |]; eassumption.
            * rewrite lookup_delete_ne by done. rewrite (L x i).
              destruct (decide (i = h)) as [->|Hih]; [|done].
              split; [|congruence]. intros Hi'. rewrite Hk in Hi'. congruence.
        - rewrite Hlk' by lia. split; [|done].
          case_decide as Hx; [subst x|].
          + rewrite lookup_delete_ne by done. destruct (nodes !! elem); [|done]. simpl. intros [= <-]. lia.
          + destruct (decide (x = k)) as [->|Hxk].
            * by rewrite lookup_delete.
            * rewrite lookup_delete_ne by done. rewrite (L x i). intros Hi'.
              pose proof (lookup_lt_Some _ _ _ Hi'). exfalso.
              assert (i = n1) by (unfold n1 in *; lia). subst i. congruence. }
      assert (Hh1 : arr1 !! h = Some elem) by (rewrite Hlk by done; by rewrite decide_True).
      (* deleting k commutes with adjust *)
      assert (Hcomm : forall f a n t i, t <> k -> k ∉ (<[i := t]> a : list Z) -> (i < length a)%nat ->
                fix_up f a (delete k n) t i = ((fix_up f a n t i).1, delete k (fix_up f a n t i).2)).
      { clear. induction f as [|f IH]; intros a n t i Ht Hka Hil; [done|].
        cbn [fix_up].
        pose proof (set_pos_delete k) as Hsp.
        assert (Hhl : forall a b, a <> k -> b <> k -> hless (delete k n) a b = hless n a b).
        { intros x y Hx Hy. unfold hless. by rewrite !lookup_delete_ne. }
        case_decide as Hi0.
        { unfold place; simpl. by rewrite Hsp. }
        change ((i - 1) / 2)%nat with (parent i).
        assert (Hpi : (parent i < i)%nat) by (apply parent_lt; lia).
        assert (Hp : a !! parent i = Some (at_ a (parent i))) by (apply lookup_at; lia).
        assert (Hpk : at_ a (parent i) <> k).
        { intros Heq. apply Hka. apply elem_of_list_lookup. exists (parent i).
          rewrite list_lookup_insert_ne by lia. congruence. }
        rewrite Hhl by done. destruct (hless n (at_ a (parent i)) t).
        { unfold place; simpl. by rewrite Hsp. }
        rewrite Hsp by done. apply IH; [done| |rewrite insert_length; lia].
        intros Hk. apply elem_of_list_lookup in Hk as [j Hj]. apply Hka.
        destruct (decide (j = parent i)) as [->|].
        { rewrite list_lookup_insert in Hj by (rewrite insert_length; lia). congruence. }
        rewrite list_lookup_insert_ne in Hj by done.
        destruct (decide (j = i)) as [->|].
        { rewrite list_lookup_insert in Hj by done. congruence. }
        rewrite list_lookup_insert_ne in Hj by done.
        apply elem_of_list_lookup. exists j. by rewrite list_lookup_insert_ne. }
      assert (Hcomm2 : forall f a n t i, t <> k -> k ∉ (<[i := t]> a : list Z) -> (i < length a)%nat ->
                fix_down f a (delete k n) t i = ((fix_down f a n t i).1, delete k (fix_down f a n t i).2)).
      { clear. induction f as [|f IH]; intros a n t i Ht Hka Hil; [done|].
        cbn [fix_down].
        pose proof (set_pos_delete k) as Hsp.
        assert (Hhl : forall a b, a <> k -> b <> k -> hless (delete k n) a b = hless n a b).
        { intros x y Hx Hy. unfold hless. by rewrite !lookup_delete_ne. }
        case_decide as Hi0.
        { unfold place; simpl. by rewrite Hsp. }
        assert (Hnk : forall j, (j < length a)%nat -> j <> i -> at_ a j <> k).
        { intros j Hj Hji Heq. apply Hka. apply elem_of_list_lookup. exists j.
          rewrite list_lookup_insert_ne by done. rewrite lookup_at by done. congruence. }
        fold (pick_kid a (delete k n) i) (pick_kid a n i).
        assert (Hpk : pick_kid a (delete k n) i = pick_kid a n i).
        { unfold pick_kid. case_decide; [|done]. rewrite Hhl; [done| |]; apply Hnk; lia. }
        rewrite Hpk.
        destruct (pick_kid_bounds a n i) as [Hb1 Hb2]; [lia|].
        set (kid := pick_kid a n i) in *.
        assert (Hkk : at_ a kid <> k) by (apply Hnk; lia).
        rewrite Hhl by done. destruct (hless n t (at_ a kid)).
        { unfold place; simpl. by rewrite Hsp. }
        rewrite Hsp by done. apply IH; [done| |rewrite insert_length; lia].
        intros Hk. apply elem_of_list_lookup in Hk as [j Hj]. apply Hka.
        destruct (decide (j = kid)) as [->|].
        { rewrite list_lookup_insert in Hj by (rewrite insert_length; lia). congruence. }
        rewrite list_lookup_insert_ne in Hj by done.
        destruct (decide (j = i)) as [->|].
        { rewrite list_lookup_insert in Hj by done. congruence. }
        rewrite list_lookup_insert_ne in Hj by done.
        apply elem_of_list_lookup. exists j. by rewrite list_lookup_insert_ne. }
      assert (Hka1 : forall i, arr1 !! i <> Some k).
      { intros i Hi. eapply hwf_some in Hi; [|exact Hw1]. unfold nd0, set_pos in Hi.
        rewrite lookup_alter_ne, lookup_delete in Hi by done. by destruct Hi. }
      assert (Hnd : delete k (set_pos nodes elem h) = nd0).
      { unfold nd0. symmetry. by apply set_pos_delete. }
      assert (Hadj : adjust arr1 nd0 elem =
          ((adjust arr1 (set_pos nodes elem h) elem).1, delete k (adjust arr1 (set_pos nodes elem h) elem).2)).
      { rewrite <- Hnd. unfold adjust.
        assert (Hpo : pos_of (delete k (set_pos nodes elem h)) elem = pos_of (set_pos nodes elem h) elem).
        { unfold pos_of. by rewrite lookup_delete_ne. }
        assert (Hpo2 : pos_of (set_pos nodes elem h) elem = h).
        { unfold pos_of, set_pos. rewrite lookup_alter. apply (hwf_some _ _ _ _ L) in He as [ne Hne].
          by rewrite Hne. }
        rewrite Hpo, Hpo2.
        assert (Hl1 : length arr1 = n1).
        { unfold arr1. rewrite take_length, insert_length. unfold n1. lia. }
        assert (Hkin : k ∉ (<[h := elem]> arr1 : list Z)).
        { rewrite list_insert_id by done. intros Hin. apply elem_of_list_lookup in Hin as [i Hi]. by eapply Hka1. }
        assert (Hhl : h <> 0%nat -> hless (delete k (set_pos nodes elem h)) elem (at_ arr1 ((h - 1) / 2)) =
                      hless (set_pos nodes elem h) elem (at_ arr1 ((h - 1) / 2))).
        { intros Hh0. change ((h-1)/2)%nat with (parent h).
          assert (parent h < h)%nat by (apply parent_lt; lia).
          assert (at_ arr1 (parent h) <> k).
          { intros Heq. apply (Hka1 (parent h)). rewrite lookup_at by lia. congruence. }
          unfold hless. by rewrite !lookup_delete_ne. }
        destruct (decide (h = 0%nat)) as [H0|H0].
        - rewrite !(decide_False (P := h <> 0%nat /\ _)) by tauto. apply Hcomm2; [done|done|lia].
        - rewrite Hhl by done. case_decide.
          + apply Hcomm; [done|done|lia].
          + apply Hcomm2; [done|done|lia]. }
      destruct (adjust_wf arr1 nd0 elem h Hw1 Hh1) as (A & B & C).
      exists (adjust arr1 (set_pos nodes elem h) elem).1, (adjust arr1 (set_pos nodes elem h) elem).2.
      split; [by destruct (adjust arr1 (set_pos nodes elem h) elem)|].
      rewrite Hadj in A, B, C. cbn [fst snd] in A, B, C.
      split; [done|]. split.
      + intros x Hx. specialize (C x). unfold nd0 in C. rewrite rank_set_pos in C.
        unfold rank in *. by rewrite !lookup_delete_ne in C.
      + intros Hfin Hord.
        assert (Hr : forall x, x <> k -> rank nd0 x = rank nodes x).
        { intros x Hx. unfold nd0. rewrite rank_set_pos. unfold rank. by rewrite lookup_delete_ne. }
        assert (Hsto0 : sto (hless nodes) (fun x => x ∈ arr)).
        { apply hless_sto; [|done|done]. intros x Hx. by apply (hwf_elem _ _ x L). }
        assert (Hgo : ho (hless nd0) (adjust arr1 nd0 elem).1).
        { apply (adjust_ho _ _ _ h); try done.
          - apply hless_sto.
            + intros x Hx. by apply (hwf_elem _ _ x Hw1).
            + intros x n Hn. assert (x <> k).
              { intros ->. unfold nd0, set_pos in Hn. by rewrite lookup_alter_ne, lookup_delete in Hn. }
              pose proof (Hr x H) as Hrx. unfold rank in Hrx. rewrite Hn in Hrx.
              destruct (nodes !! x) as [n'|] eqn:En; [|done]. simpl in Hrx. injection Hrx as -> _. by eapply Hfin.
            + intros k1 k2 m1 m2 H1 H2 Hu.
              assert (k1 <> k). { intros ->. unfold nd0, set_pos in H1. by rewrite lookup_alter_ne, lookup_delete in H1. }
              assert (k2 <> k). { intros ->. unfold nd0, set_pos in H2. by rewrite lookup_alter_ne, lookup_delete in H2. }
              pose proof (Hr k1 H) as R1. pose proof (Hr k2 H0) as R2. unfold rank in R1, R2.
              rewrite H1 in R1. rewrite H2 in R2.
              destruct (nodes !! k1) as [m1'|] eqn:E1; [|done]. destruct (nodes !! k2) as [m2'|] eqn:E2; [|done].
              simpl in R1, R2. injection R1 as _ R1. injection R2 as _ R2.
              eapply U; eauto. congruence.
          - split.
            + intros i Hi Hih Hpi x g Hx Hg.
              pose proof (lookup_lt_Some _ _ _ Hx) as Hil. unfold arr1 in Hil.
              rewrite take_length, insert_length in Hil.
              pose proof (parent_lt i Hi).
              assert (x <> k) by (intros ->; by eapply Hka1).
              assert (g <> k) by (intros ->; by eapply Hka1).
              rewrite Hlk in Hx by lia. rewrite Hlk in Hg by lia. rewrite decide_False in Hx by done. rewrite decide_False in Hg by done.
              assert (Hh : hless nodes g x = true) by (by eapply Hord).
              rewrite <- Hh. apply hless_rank; by apply Hr.
            + intros i x g Hl Hi Hpi Hx Hg.
              pose proof (lookup_lt_Some _ _ _ Hx) as Hil. unfold arr1 in Hil.
              rewrite take_length, insert_length in Hil.
              pose proof (parent_lt i Hi). pose proof (parent_lt h Hl).
              assert (x <> k) by (intros ->; by eapply Hka1).
              assert (g <> k) by (intros ->; by eapply Hka1).
              rewrite Hlk in Hx by lia. rewrite Hlk in Hg by lia. rewrite decide_False in Hx by lia. rewrite decide_False in Hg by lia.
              assert (H4 : hless nodes g k = true).
              { eapply Hord; [|exact Hk|exact Hg]. done. }
              assert (H5 : hless nodes k x = true).
              { eapply Hord; [|exact Hx|]; [done|]. by rewrite Hpi. }
              assert (H6 : hless nodes g x = true).
              { eapply (sto_trans _ _ Hsto0 g k x); eauto; apply elem_of_list_lookup; eauto. }
              rewrite <- H6. apply hless_rank; by apply Hr. }
        rewrite Hadj in Hgo. cbn [fst] in Hgo.
        eapply ho_ext; [|exact Hgo]. intros a b. apply rank_hless. intros x. by rewrite C. }
  destruct Hmain as (arr' & nodes' & -> & A & B & C). cbn [fst snd].
  assert (Hrank : forall x, rank (delete k nodes') x = if decide (x = k) then None else rank nodes x).
  { intros x. unfold rank at 1. case_decide.
    - subst. by rewrite lookup_delete.
    - rewrite lookup_delete_ne by done. by apply B. }
  assert (Hnode : forall x n, delete k nodes' !! x = Some n ->
     exists n', nodes !! x = Some n' /\ h_prio n = h_prio n' /\ h_upd n = h_upd n').
  { intros x n Hn. specialize (Hrank x). unfold rank in Hrank at 1. rewrite Hn in Hrank. simpl in Hrank.
    case_decide; [done|]. unfold rank in Hrank. destruct (nodes !! x) as [n'|]; [|done]. exists n'. by injection Hrank. }
  split; [|split; [|split; [|split]]].
  - split; cbn.
    + done.
    + intros x n Hn. apply Hnode in Hn as (n' & Hn' & _ & ->). by eapply F.
    + intros k1 k2 m1 m2 H1 H2 Hu.
      apply Hnode in H1 as (? & ? & ? & ?). apply Hnode in H2 as (? & ? & ? & ?).
      eapply U; eauto. congruence.
  - done.
  - intros Hnk. exfalso. apply Hnk, Hel. eauto.
  - intros _. done.
  - intros Hfin Hord'. split.
    + intros x n Hn. cbn in Hn. apply Hnode in Hn as (n' & Hn' & -> & _). by eapply Hfin.
    + by apply C.
Qed.

(** The root is the least element. *)
Lemma ho_root lt arr : ho lt arr -> sto lt (fun k => k ∈ arr) ->
  forall i x r, arr !! i = Some x -> arr !! 0%nat = Some r -> x = r \/ lt r x = true.
Proof.
  intros Ho Hsto i. induction (lt_wf i) as [i _ IH]. intros x r Hx Hr.
  destruct (decide (i = 0%nat)) as [->|Hi]; [left; congruence|]. right.
  assert (Hp : (parent i < i)%nat) by (apply parent_lt; lia).
  pose proof (lookup_lt_Some _ _ _ Hx).
  destruct (lookup_lt_is_Some_2 arr (parent i)) as [g Hg]; [lia|].
  assert (Hgx : lt g x = true) by (eapply (Ho i); [lia|exact Hx|exact Hg]).
  destruct (IH _ Hp g r Hg Hr) as [->|Hrg]; [done|].
  eapply (sto_trans _ _ Hsto r g x); eauto; apply elem_of_list_lookup; eauto.
Qed.
