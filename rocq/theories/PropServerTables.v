(** C99: a server serves the tables that it was given. *)
From Verif Require Import Base RateLimiter Selector Trajectory Table Checkpoint PropTable PropCheckpoint ServerTables.

Section WithFP.
Context {fp : FP}.

(** ** Specification *)

(** What a program can reach. *)
Definition reachable (w : proc) : Prop := exists es l, srun new_proc es = Some (l, w).
(** Table object [i] has name [n], extensions [xs] and state [t]. *)
Definition object (w : proc) (i : nat) (n : Z) (xs : list nat) (t : table) : Prop :=
  p_heap w !! i = Some (mkSobj n xs t).
(** Requests for [n] at server [s] go to table object [i]. *)
Definition serves (w : proc) (s : nat) (n : Z) (i : nat) : Prop :=
  exists sv, p_srvs w !! s = Some sv /\ sv_map sv !! n = Some i.
Definition up (w : proc) (s : nat) : Prop := exists sv, p_srvs w !! s = Some sv /\ sv_up sv = true.
(** The checkpoint has a table with name [n]; the states that a table with this name
    can be restored to. *)
Definition in_checkpoint (ck : option files) (n : Z) : Prop :=
  exists f k, ck = Some f /\ k ∈ f_tables f /\ k_name k = n.
Definition restored (ck : option files) (n : Z) (t : table) : Prop :=
  exists f k, ck = Some f /\ k ∈ f_tables f /\ k_name k = n /\ restore (chunk_map (f_chunks f)) k = Some t.

(** The requests for [n] at server [s], and their replies. *)
Definition ops_at (s : nat) (n : Z) (es : list sev) : list op :=
  omap (fun e => match e with
                 | ERequest s' n' o => if bool_decide (s' = s /\ n' = n) then Some o else None
                 | _ => None end) es.
Definition replies_at (s : nat) (n : Z) (es : list sev) (l : list out) : list reply :=
  omap (fun ea => match ea with
                 | (ERequest s' n' _, OReply a) => if bool_decide (s' = s /\ n' = n) then Some a else None
                 | _ => None end) (zip es l).
(** Table object [i] is not given to another server, and server [s] is not stopped. *)
Definition keeps (s i : nat) (e : sev) : Prop :=
  match e with EServer objs _ _ => i ∉ objs | EStop s' => s' <> s | _ => True end.
Definition not_given (i : nat) (e : sev) : Prop :=
  match e with EServer objs _ _ => i ∉ objs | _ => True end.

(** ** Proofs *)

Lemma srun_app w es1 es2 : srun w (es1 ++ es2) =
  match srun w es1 with
  | Some (l1, w1) => match srun w1 es2 with Some (l2, w2) => Some (l1 ++ l2, w2) | None => None end
  | None => None
  end.
Proof.
  revert w. induction es1 as [|e es1 IH]; intros w; cbn [srun app].
  { destruct (srun w es2) as [[? ?]|]; reflexivity. }
  destruct (sstep w e) as [[a w1]|]; [|reflexivity]. rewrite IH.
  destruct (srun w1 es1) as [[? ?]|]; [|reflexivity].
  destruct (srun _ es2) as [[? ?]|]; reflexivity.
Qed.

Definition valid (h : list sobj) (vec : list nat) : Prop := Forall (fun i => (i < length h)%nat) vec.
Definition uniq (h : list sobj) (vec : list nat) : Prop :=
  forall j1 j2 i1 i2 o1 o2, vec !! j1 = Some i1 -> vec !! j2 = Some i2 -> h !! i1 = Some o1 -> h !! i2 = Some o2 ->
  so_name o1 = so_name o2 -> j1 = j2.

Lemma valid_lookup h vec j i : valid h vec -> vec !! j = Some i -> exists o, h !! i = Some o.
Proof.
  intros HV Hj. assert (Hi : (i < length h)%nat).
  { apply (proj1 (Forall_forall _ _) HV i). by eapply elem_of_list_lookup_2. }
  apply lookup_lt_is_Some in Hi. destruct Hi as [o Ho]. by exists o.
Qed.

Lemma names_lookup h vec j i o : valid h vec -> vec !! j = Some i -> h !! i = Some o -> names_of h vec !! j = Some (so_name o).
Proof.
  intros HV. revert j. induction vec as [|i0 vec IH]; intros j Hj Ho; [done|].
  apply Forall_cons in HV as [Hi HV]. apply lookup_lt_is_Some in Hi as [o0 Ho0].
  unfold names_of. cbn [omap list_omap]. rewrite Ho0. cbn [fmap option_fmap option_map].
  destruct j as [|j]; cbn in Hj |- *.
  - injection Hj as ->. rewrite Ho in Ho0. by injection Ho0 as ->.
  - by apply IH.
Qed.

Lemma uniq_of_names h vec : valid h vec -> NoDup (names_of h vec) -> uniq h vec.
Proof.
  intros HV HN j1 j2 i1 i2 o1 o2 H1 H2 Ho1 Ho2 E.
  eapply NoDup_lookup; [exact HN|by eapply names_lookup|]. rewrite E. by eapply names_lookup.
Qed.

Lemma find_obj_Some h n vec j i : find_obj h n vec = Some (j, i) ->
  vec !! j = Some i /\ exists o, h !! i = Some o /\ so_name o = n.
Proof.
  revert j. induction vec as [|i0 vec IH]; intros j; cbn [find_obj]; [done|].
  destruct (h !! i0) as [o|] eqn:Ho; [|done]. destruct (decide (so_name o = n)) as [En|].
  - intros [= <- <-]. split; [done|]. by exists o.
  - destruct (find_obj h n vec) as [[j' i']|] eqn:E; [|done]. intros [= <- <-].
    exact (IH j' eq_refl).
Qed.

(** What Load has done so far to a vector of objects. *)
Record loaded (m : gmap Z chunk) (ks : list tckpt) (h : list sobj) (vec : list nat) (h' : list sobj) (vec' : list nat) : Prop := {
  ld_len : length vec' = length vec;
  ld_heap : (length h <= length h')%nat;
  ld_valid : valid h' vec';
  ld_pos : forall j i o, vec !! j = Some i -> h !! i = Some o ->
    exists i' o', vec' !! j = Some i' /\ h' !! i' = Some o' /\ so_name o' = so_name o /\ so_exts o' = so_exts o /\
      (so_name o ∉ k_name <$> ks -> i' = i /\ o' = o) /\
      (so_name o ∈ k_name <$> ks -> (length h <= i')%nat /\
         exists k, k ∈ ks /\ k_name k = so_name o /\ restore m k = Some (so_tab o'));
  ld_old : forall i o, h !! i = Some o -> exists xs, h' !! i = Some (mkSobj (so_name o) xs (so_tab o)) /\ (i ∉ vec -> xs = so_exts o);
}.

(** In all cases the objects that were there keep all but their extensions. *)
Lemma load_objs_any m ks : forall h vec st h' vec', load_objs m h vec ks = Some (st, h', vec') -> valid h vec ->
  (length h <= length h')%nat /\
  (forall i o, h !! i = Some o -> exists xs, h' !! i = Some (mkSobj (so_name o) xs (so_tab o)) /\ (i ∉ vec -> xs = so_exts o)) /\
  concat (so_exts <$> h') ≡ₚ concat (so_exts <$> h).
Proof.
  induction ks as [|k ks IH]; intros h vec st h' vec' H HV; cbn [load_objs] in H.
  { injection H as <- <- <-. split; [done|]. split; [|done]. intros i [n xs t] Ho. by exists xs. }
  destruct (find_obj h (k_name k) vec) as [[j i]|] eqn:E.
  2:{ injection H as <- <- <-. split; [done|]. split; [|done]. intros i [n xs t] Ho. by exists xs. }
  destruct (find_obj_Some _ _ _ _ _ E) as [Hj (o & Ho & Hn)]. rewrite Ho in H.
  destruct (t_size (so_tab o) =? 0); [|done]. destruct (restore m k) as [t|]; [|done].
  assert (Hi : (i < length h)%nat) by (by eapply lookup_lt_Some).
  apply IH in H.
  2:{ unfold valid. apply Forall_forall. intros i0 Hi0. rewrite app_length, insert_length. cbn.
      apply elem_of_list_lookup in Hi0 as [j0 Hj0]. destruct (decide (j0 = j)) as [->|Hne].
      - rewrite list_lookup_insert in Hj0 by (by eapply lookup_lt_Some). injection Hj0 as <-. lia.
      - rewrite list_lookup_insert_ne in Hj0 by done. destruct (valid_lookup _ _ _ _ HV Hj0) as [o0 Ho0].
        apply lookup_lt_Some in Ho0. lia. }
  destruct H as (Hl & Hold & HP). rewrite app_length, insert_length in Hl. cbn in Hl.
  split; [lia|]. split.
  - intros i0 o0 Ho0. assert (Hi0 : (i0 < length h)%nat) by (by eapply lookup_lt_Some).
    destruct (decide (i0 = i)) as [->|Hne].
    + rewrite Ho in Ho0. injection Ho0 as <-.
      destruct (Hold i (mkSobj (so_name o) [] (so_tab o))) as (xs & Hx & _).
      { rewrite lookup_app_l by (by rewrite insert_length). by rewrite list_lookup_insert. }
      exists xs. split; [done|]. intros Hni. exfalso. apply Hni. by eapply elem_of_list_lookup_2.
    + destruct (Hold i0 o0) as (xs & Hx & Hxs).
      { rewrite lookup_app_l by (by rewrite insert_length). by rewrite list_lookup_insert_ne. }
      exists xs. split; [done|]. intros Hni. apply Hxs. intros Hi'. apply elem_of_list_lookup in Hi' as [j0 Hj0].
      destruct (decide (j0 = j)) as [->|Hnj].
      * rewrite list_lookup_insert in Hj0 by (by eapply lookup_lt_Some). injection Hj0 as <-. lia.
      * rewrite list_lookup_insert_ne in Hj0 by done. apply Hni. by eapply elem_of_list_lookup_2.
  - rewrite HP. rewrite fmap_app, concat_app. cbn. rewrite app_nil_r.
    rewrite <- (take_drop_middle h i o Ho) at 2. rewrite insert_take_drop by done.
    rewrite !fmap_app, !fmap_cons, !concat_app. cbn [concat so_exts]. cbn [app].
    rewrite <- !app_assoc. apply Permutation_app_head. apply Permutation_app_comm.
Qed.

Lemma load_objs_ok m ks : forall h vec h' vec', load_objs m h vec ks = Some (Ok, h', vec') ->
  valid h vec -> uniq h vec -> loaded m ks h vec h' vec'.
Proof.
  induction ks as [|k ks IH]; intros h vec h' vec' H HV HU.
  { cbn [load_objs] in H. injection H as <- <-. split; [done|done|done| |].
    - intros j i o Hj Ho. exists i, o. split; [done|]. split; [done|]. split; [done|]. split; [done|]. split; [done|].
      intros Hin. cbn in Hin. by apply elem_of_nil in Hin.
    - intros i [n xs t] Ho. by exists xs. }
  pose proof (load_objs_any _ _ _ _ _ _ _ H HV) as (Hlen & Hold & _).
  cbn [load_objs] in H.
  destruct (find_obj h (k_name k) vec) as [[j i]|] eqn:E; [|discriminate].
  destruct (find_obj_Some _ _ _ _ _ E) as [Hj (o & Ho & Hn)]. rewrite Ho in H.
  destruct (t_size (so_tab o) =? 0); [|done]. destruct (restore m k) as [t|] eqn:Et; [|done].
  assert (Hi : (i < length h)%nat) by (by eapply lookup_lt_Some).
  assert (Hjl : (j < length vec)%nat) by (by eapply lookup_lt_Some).
  set (h1 := <[i := mkSobj (so_name o) [] (so_tab o)]> h ++ [mkSobj (k_name k) (so_exts o) t]) in *.
  set (vec1 := <[j := length h]> vec) in *.
  assert (Hh1 : length h1 = S (length h)). { unfold h1. rewrite app_length, insert_length. cbn. lia. }
  assert (Hnew : h1 !! length h = Some (mkSobj (k_name k) (so_exts o) t)).
  { unfold h1. rewrite lookup_app_r by (by rewrite insert_length). by rewrite insert_length, Nat.sub_diag. }
  assert (Hne : forall i0, i0 <> i -> (i0 < length h)%nat -> h1 !! i0 = h !! i0).
  { intros i0 Hn0 Hi0. unfold h1. rewrite lookup_app_l by (by rewrite insert_length). by rewrite list_lookup_insert_ne. }
  assert (Hi1 : h1 !! i = Some (mkSobj (so_name o) [] (so_tab o))).
  { unfold h1. rewrite lookup_app_l by (by rewrite insert_length). by rewrite list_lookup_insert. }
  (* a position in the new vector has an object with the name that it had *)
  assert (Hpos : forall j0 i0 o0, vec1 !! j0 = Some i0 -> h1 !! i0 = Some o0 ->
    exists i1 o1, vec !! j0 = Some i1 /\ h !! i1 = Some o1 /\ so_name o1 = so_name o0).
  { intros j0 i0 o0 Hj0 Ho0. destruct (decide (j0 = j)) as [->|Hnj].
    - unfold vec1 in Hj0. rewrite list_lookup_insert in Hj0 by done. injection Hj0 as <-. rewrite Hnew in Ho0.
      injection Ho0 as <-. exists i, o. by split.
    - unfold vec1 in Hj0. rewrite list_lookup_insert_ne in Hj0 by done.
      destruct (valid_lookup _ _ _ _ HV Hj0) as [o1 Ho1]. exists i0, o1. split; [done|]. split; [done|].
      destruct (decide (i0 = i)) as [->|Hni].
      + rewrite Hi1 in Ho0. injection Ho0 as <-. cbn. rewrite Ho in Ho1. by injection Ho1 as ->.
      + rewrite Hne in Ho0 by (done || by eapply lookup_lt_Some). rewrite Ho1 in Ho0. by injection Ho0 as ->. }
  assert (HV1 : valid h1 vec1).
  { apply Forall_forall. intros i0 Hi0. apply elem_of_list_lookup in Hi0 as [j0 Hj0]. rewrite Hh1.
    unfold vec1 in Hj0. destruct (decide (j0 = j)) as [->|Hnj].
    - rewrite list_lookup_insert in Hj0 by done. injection Hj0 as <-. lia.
    - rewrite list_lookup_insert_ne in Hj0 by done. destruct (valid_lookup _ _ _ _ HV Hj0) as [o1 Ho1].
      apply lookup_lt_Some in Ho1. lia. }
  assert (HU1 : uniq h1 vec1).
  { intros j1 j2 i1 i2 o1 o2 H1 H2 Ho1 Ho2 En.
    destruct (Hpos _ _ _ H1 Ho1) as (a1 & b1 & A1 & B1 & C1). destruct (Hpos _ _ _ H2 Ho2) as (a2 & b2 & A2 & B2 & C2).
    eapply HU; [exact A1|exact A2|exact B1|exact B2|congruence]. }
  specialize (IH _ _ _ _ H HV1 HU1) as [Ll Lh Lv Lp Lo].
  split.
  - rewrite Ll. unfold vec1. by rewrite insert_length.
  - done.
  - done.
  - intros j0 i0 o0 Hj0 Ho0. destruct (decide (j0 = j)) as [->|Hnj].
    + rewrite Hj in Hj0. injection Hj0 as <-. rewrite Ho in Ho0. injection Ho0 as <-.
      destruct (Lp j (length h) (mkSobj (k_name k) (so_exts o) t)) as (i' & o' & P1 & P2 & P3 & P4 & P5 & P6).
      { unfold vec1. by rewrite list_lookup_insert. } { exact Hnew. }
      cbn in P3, P4, P5, P6. exists i', o'. split; [done|]. split; [done|]. split; [congruence|]. split; [done|].
      split. { intros Hni. exfalso. apply Hni. rewrite Hn. cbn. apply elem_of_cons. by left. }
      intros _. destruct (decide (k_name k ∈ k_name <$> ks)) as [Hin|Hnin].
      * destruct (P6 Hin) as (Q1 & k' & Q2 & Q3 & Q4). split; [lia|]. exists k'. split; [by right|]. split; [congruence|done].
      * destruct (P5 Hnin) as [-> ->]. split; [done|]. exists k. split; [by left|]. split; [done|done].
    + destruct (valid_lookup _ _ _ _ HV Hj0) as [o1 Ho1]. assert (o1 = o0) as -> by congruence.
      assert (Hni : i0 <> i).
      { intros ->. apply Hnj. eapply HU; [exact Hj0|exact Hj|exact Ho|exact Ho|done]. }
      assert (Hnn : so_name o0 <> k_name k).
      { intros En. apply Hnj. eapply HU; [exact Hj0|exact Hj|exact Ho0|exact Ho|congruence]. }
      destruct (Lp j0 i0 o0) as (i' & o' & P1 & P2 & P3 & P4 & P5 & P6).
      { unfold vec1. by rewrite list_lookup_insert_ne. } { rewrite Hne; [done|done|by eapply lookup_lt_Some]. }
      exists i', o'. do 4 (split; [done|]). split.
      * intros Hnin. apply P5. intros Hin. apply Hnin. cbn. by right.
      * intros Hin. cbn in Hin. apply elem_of_cons in Hin as [En|Hin]; [by destruct Hnn|].
        destruct (P6 Hin) as (Q1 & k' & Q2 & Q3 & Q4). split; [lia|]. exists k'. split; [by right|]. by split.
  - exact Hold.
Qed.

Lemma fill_map_spec h vec n i : valid h vec -> uniq h vec ->
  fill_map h vec !! n = Some i <-> exists o, i ∈ vec /\ h !! i = Some o /\ so_name o = n.
Proof.
  revert n i. induction vec as [|i0 vec IH] using List.rev_ind; intros n i HV HU.
  { unfold fill_map. cbn. rewrite lookup_empty. split; [done|]. intros (o & Hi & _). by apply elem_of_nil in Hi. }
  apply Forall_app in HV as [HV Hi0]. apply Forall_cons in Hi0 as [Hi0 _].
  apply lookup_lt_is_Some in Hi0 as [o0 Ho0].
  assert (HU1 : uniq h vec).
  { intros j1 j2 i1 i2 o1 o2 H1 H2. apply HU; by apply lookup_app_l_Some. }
  unfold fill_map in *. rewrite foldl_app. cbn [foldl]. rewrite Ho0.
  destruct (decide (so_name o0 = n)) as [En|En].
  - rewrite En, lookup_insert. split.
    + intros [= <-]. exists o0. split; [|done]. apply elem_of_app. right. by apply elem_of_list_singleton.
    + intros (o & Hi & Ho & Hn). f_equal. apply elem_of_app in Hi as [Hi|Hi]; [|by apply elem_of_list_singleton in Hi].
      apply elem_of_list_lookup in Hi as [j Hj].
      assert (Hjl : (j < length vec)%nat) by (by eapply lookup_lt_Some).
      assert (j = length vec) as ->; [|lia].
      eapply HU; [by apply lookup_app_l_Some| |exact Ho|exact Ho0|congruence].
      rewrite lookup_app_r by done. by rewrite Nat.sub_diag.
  - rewrite lookup_insert_ne by done. rewrite (IH n i HV HU1). split.
    + intros (o & Hi & Ho & Hn). exists o. split; [|done]. apply elem_of_app. by left.
    + intros (o & Hi & Ho & Hn). exists o. split; [|done]. apply elem_of_app in Hi as [Hi|Hi]; [done|].
      apply elem_of_list_singleton in Hi as ->. congruence.
Qed.

(** Close of some objects. *)
Lemma close_objs_length h is : length (close_objs h is) = length h.
Proof. induction is as [|i is IH]; cbn; [done|]. by rewrite alter_length. Qed.
Lemma close_objs_lookup h is i o : h !! i = Some o ->
  exists t, close_objs h is !! i = Some (mkSobj (so_name o) (so_exts o) t) /\ (i ∉ is -> t = so_tab o).
Proof.
  intros Ho. induction is as [|i0 is IH]; cbn [close_objs foldr].
  { destruct o. by eexists. }
  destruct IH as (t & Ht & Hni). destruct (decide (i0 = i)) as [->|Hne].
  - exists (close_table t). rewrite list_lookup_alter. unfold close_objs in Ht. rewrite Ht. split; [done|].
    intros H. exfalso. apply H. by left.
  - exists t. rewrite list_lookup_alter_ne by done. split; [done|]. intros H. apply Hni. intros H'. apply H. by right.
Qed.
Lemma close_objs_exts h is : so_exts <$> close_objs h is = so_exts <$> h.
Proof.
  induction is as [|i is IH]; cbn [close_objs foldr]; [done|].
  rewrite <- IH. apply list_eq. intros j. rewrite !list_lookup_fmap. destruct (decide (i = j)) as [->|Hne].
  - rewrite list_lookup_alter. unfold close_objs. by destruct (foldr _ _ _ !! j).
  - by rewrite list_lookup_alter_ne.
Qed.

(** *** What every step keeps *)

Record inv (w : proc) : Prop := {
  i_serves : forall s n i, serves w s n i -> exists xs t, object w i n xs t;
  i_exts : concat (so_exts <$> p_heap w) ≡ₚ seq 0 (p_exts w) }.

(** A start, whatever its outcome. *)
Lemma start_any w objs ck bind a w' : start w objs ck bind = Some (a, w') -> valid (p_heap w) objs ->
  (length (p_heap w) <= length (p_heap w'))%nat /\ p_exts w' = p_exts w /\
  (forall i o, p_heap w !! i = Some o ->
     exists xs, p_heap w' !! i = Some (mkSobj (so_name o) xs (so_tab o)) /\ (i ∉ objs -> xs = so_exts o)) /\
  concat (so_exts <$> p_heap w') ≡ₚ concat (so_exts <$> p_heap w) /\
  (p_srvs w' = p_srvs w \/ exists mp, p_srvs w' = p_srvs w ++ [mkSrv mp true] /\ a = SUp (length (p_srvs w))).
Proof.
  intros H HV.
  assert (Hsame : (length (p_heap w) <= length (p_heap w))%nat /\ p_exts w = p_exts w /\
    (forall i o, p_heap w !! i = Some o ->
       exists xs, p_heap w !! i = Some (mkSobj (so_name o) xs (so_tab o)) /\ (i ∉ objs -> xs = so_exts o)) /\
    concat (so_exts <$> p_heap w) ≡ₚ concat (so_exts <$> p_heap w)).
  { split; [done|]. split; [done|]. split; [|done]. intros i [n xs t] Ho. by exists xs. }
  unfold start in H. destruct (decide (objs = [])).
  { injection H as <- <-. destruct Hsame as (?&?&?&?). repeat (split; [done|]). by left. }
  destruct (decide (NoDup (names_of (p_heap w) objs))).
  2:{ injection H as <- <-. destruct Hsame as (?&?&?&?). repeat (split; [done|]). by left. }
  destruct (load_found ck (p_heap w) objs) as [[[st h] vec]|] eqn:E; [|done].
  assert (Hh : (length (p_heap w) <= length h)%nat /\
    (forall i o, p_heap w !! i = Some o ->
       exists xs, h !! i = Some (mkSobj (so_name o) xs (so_tab o)) /\ (i ∉ objs -> xs = so_exts o)) /\
    concat (so_exts <$> h) ≡ₚ concat (so_exts <$> p_heap w)).
  { destruct Hsame as (?&_&?&?).
    unfold load_found in E. destruct ck as [f|].
    - destruct (f_done f); [|injection E as <- <- <-; by split].
      by eapply load_objs_any.
    - injection E as <- <- <-. by split. }
  destruct Hh as (?&?&?).
  destruct (decide (st = Ok)); [destruct bind|]; injection H as <- <-; cbn; (repeat (split; [done|])).
  - right. by eexists.
  - by left.
  - by left.
Qed.

(** A start that succeeds. *)
Lemma start_up w objs ck bind s w' : start w objs ck bind = Some (SUp s, w') -> valid (p_heap w) objs ->
  s = length (p_srvs w) /\ bind = true /\ objs <> [] /\
  exists m ks h vec, p_heap w' = h /\ p_srvs w' = p_srvs w ++ [mkSrv (fill_map h vec) true] /\
    uniq (p_heap w) objs /\ loaded m ks (p_heap w) objs h vec /\
    (ck = None /\ ks = [] \/ exists f, ck = Some f /\ f_done f = true /\ m = chunk_map (f_chunks f) /\ ks = f_tables f).
Proof.
  intros H HV. unfold start in H. destruct (decide (objs = [])) as [|Hne]; [done|].
  destruct (decide (NoDup (names_of (p_heap w) objs))) as [HN|]; [|done].
  destruct (load_found ck (p_heap w) objs) as [[[st h] vec]|] eqn:E; [|done].
  destruct (decide (st = Ok)) as [->|]; [|done]. destruct bind; [|done]. injection H as <- <-.
  split; [done|]. split; [done|]. split; [done|].
  pose proof (uniq_of_names _ _ HV HN) as HU. unfold load_found in E. destruct ck as [f|].
  - destruct (f_done f) eqn:Ef; [|done]. exists (chunk_map (f_chunks f)), (f_tables f), h, vec.
    split; [done|]. split; [done|]. split; [done|]. split; [by apply load_objs_ok|]. right. by exists f.
  - exists ∅, [], h, vec. injection E as <- <-. split; [done|]. split; [done|]. split; [done|].
    split; [by apply load_objs_ok|]. by left.
Qed.

Lemma loaded_uniq m ks h vec h' vec' : valid h vec -> uniq h vec -> loaded m ks h vec h' vec' -> uniq h' vec'.
Proof.
  intros HV HU [Ll Lh Lv Lp Lo].
  assert (Hpos : forall j i' o', vec' !! j = Some i' -> h' !! i' = Some o' ->
    exists i o, vec !! j = Some i /\ h !! i = Some o /\ so_name o = so_name o').
  { intros j i' o' Hj Ho. destruct (vec !! j) as [i|] eqn:Ei.
    - destruct (valid_lookup _ _ _ _ HV Ei) as [o Hoo]. destruct (Lp _ _ _ Ei Hoo) as (i1 & o1 & P1 & P2 & P3 & _).
      exists i, o. split; [done|]. split; [done|]. congruence.
    - apply lookup_ge_None in Ei. apply lookup_lt_Some in Hj. lia. }
  intros j1 j2 i1 i2 o1 o2 H1 H2 Ho1 Ho2 E.
  destruct (Hpos _ _ _ H1 Ho1) as (a1 & b1 & A1 & B1 & C1). destruct (Hpos _ _ _ H2 Ho2) as (a2 & b2 & A2 & B2 & C2).
  eapply HU; [exact A1|exact A2|exact B1|exact B2|congruence].
Qed.

(** ** Starting a server *)

Theorem C99_start w objs ck bind s w' : sstep w (EServer objs ck bind) = Some (OStarted (SUp s), w') ->
  up w' s /\
  (forall n, (exists i, serves w' s n i) <-> exists i xs t, i ∈ objs /\ object w i n xs t) /\
  (forall i n xs t, i ∈ objs -> object w i n xs t ->
     exists i' t', serves w' s n i' /\ object w' i' n xs t' /\
       (~ in_checkpoint ck n -> i' = i /\ t' = t) /\
       (in_checkpoint ck n -> (length (p_heap w) <= i')%nat /\ restored ck n t')).
Proof.
  intros H. cbn [sstep] in H. destruct (decide (Forall _ objs)) as [HV|]; [|done].
  destruct (start w objs ck bind) as [[a w1]|] eqn:E; [|done]. injection H as -> ->.
  destruct (start_up _ _ _ _ _ _ E HV) as (Hs & _ & _ & m & ks & h & vec & Hh & Hsv & HU & HL & Hk).
  pose proof (loaded_uniq _ _ _ _ _ _ HV HU HL) as HU'. destruct HL as [Ll Lh Lv Lp Lo].
  assert (Hlook : p_srvs w' !! s = Some (mkSrv (fill_map h vec) true)).
  { rewrite Hsv, Hs, lookup_app_r by done. by rewrite Nat.sub_diag. }
  assert (Hserves : forall n i, serves w' s n i <-> fill_map h vec !! n = Some i).
  { intros n i. unfold serves. rewrite Hlook. split; [intros (sv & [= <-] & Hm); done|]. intros Hm. by eexists. }
  assert (Hck : forall n, in_checkpoint ck n <-> n ∈ k_name <$> ks).
  { intros n. split.
    - intros (f & k & Hf & Hin & Hn). destruct Hk as [[-> _]|(f' & -> & _ & _ & ->)]; [done|]. injection Hf as ->.
      apply elem_of_list_fmap. by exists k.
    - intros Hin. apply elem_of_list_fmap in Hin as (k & Hn & Hin). destruct Hk as [[_ ->]|(f' & -> & _ & _ & ->)].
      + by apply elem_of_nil in Hin.
      + by exists f', k. }
  assert (Hmain : forall i n xs t, i ∈ objs -> object w i n xs t ->
     exists i' t', serves w' s n i' /\ object w' i' n xs t' /\
       (~ in_checkpoint ck n -> i' = i /\ t' = t) /\
       (in_checkpoint ck n -> (length (p_heap w) <= i')%nat /\ restored ck n t')).
  { intros i n xs t Hi Ho. apply elem_of_list_lookup in Hi as [j Hj]. unfold object in Ho.
    destruct (Lp _ _ _ Hj Ho) as (i' & [n' xs' t'] & P1 & P2 & P3 & P4 & P5 & P6). cbn in P3, P4, P5, P6. subst n' xs'.
    exists i', t'. split.
    { rewrite Hserves. apply fill_map_spec; [done|done|]. eexists. split; [by eapply elem_of_list_lookup_2|]. by split. }
    split; [unfold object; by rewrite Hh|]. rewrite Hck. split.
    - intros Hni. destruct (P5 Hni) as [-> [= ->]]. done.
    - intros Hin. destruct (P6 Hin) as (Q1 & k & Q2 & Q3 & Q4). split; [done|].
      destruct Hk as [[_ ->]|(f' & -> & _ & -> & ->)]; [by apply elem_of_nil in Q2|]. by exists f', k. }
  split; [by eexists|]. split; [|exact Hmain].
  intros n. split.
  - intros [i Hi]. rewrite Hserves in Hi. apply fill_map_spec in Hi as (o & Hin & Ho & Hn); [|done|done].
    apply elem_of_list_lookup in Hin as [j Hj].
    destruct (objs !! j) as [i0|] eqn:Ei.
    + destruct (valid_lookup _ _ _ _ HV Ei) as [[n0 xs t] Hoo]. destruct (Lp _ _ _ Ei Hoo) as (i1 & o1 & P1 & P2 & P3 & _).
      exists i0, xs, t. split; [by eapply elem_of_list_lookup_2|]. unfold object. rewrite Hoo. cbn in P3. congruence.
    + apply lookup_ge_None in Ei. apply lookup_lt_Some in Hj. lia.
  - intros (i & xs & t & Hi & Ho). destruct (Hmain _ _ _ _ Hi Ho) as (i' & t' & Hs' & _). by exists i'.
Qed.

(** ** Steps *)

Lemma in_checkpoint_dec ck n : in_checkpoint ck n \/ ~ in_checkpoint ck n.
Proof.
  destruct ck as [f|]; [|right; intros (f & k & Hf & _); discriminate].
  destruct (decide (n ∈ k_name <$> f_tables f)) as [Hin|Hni].
  - left. apply elem_of_list_fmap in Hin as (k & -> & Hk). by exists f, k.
  - right. intros (f' & k & [= <-] & Hk & <-). apply Hni. apply elem_of_list_fmap. by exists k.
Qed.

Lemma serves_fun w s n i i' : serves w s n i -> serves w s n i' -> i = i'.
Proof. intros (sv & H1 & H2) (sv' & H3 & H4). rewrite H1 in H3. injection H3 as <-. congruence. Qed.

(** The map of a server stays what it is. *)
Lemma step_serves w e a w' s n i : sstep w e = Some (a, w') -> serves w s n i -> serves w' s n i.
Proof.
  intros H (sv & Hs & Hm). destruct e as [n0 c x|objs ck bind|s0 n0 o|s0]; cbn [sstep] in H.
  - injection H as _ <-. by exists sv.
  - destruct (decide _) as [HV|]; [|injection H as _ <-; by exists sv].
    destruct (start w objs ck bind) as [[a1 w1]|] eqn:E; [|done]. injection H as _ <-.
    destruct (start_any _ _ _ _ _ _ E HV) as (_ & _ & _ & _ & [Eq|(mp & Eq & _)]); exists sv; (split; [|done]); rewrite Eq; [done|].
    by apply lookup_app_l_Some.
  - destruct (request w s0 n0 o) as [[a1 w1]|] eqn:E; [|done]. injection H as _ <-. unfold request in E.
    exists sv. split; [|done].
    destruct (p_srvs w !! s0) as [[mp []]|]; [|injection E as _ <-; done|injection E as _ <-; done].
    destruct (mp !! n0); [|injection E as _ <-; done]. destruct (p_heap w !! _); [|done].
    destruct (step _ _) as [[? ?]|]; [|done]. injection E as _ <-. done.
  - injection H as _ <-. unfold stop. destruct (p_srvs w !! s0) as [[mp []]|] eqn:E0; [|by exists sv|by exists sv].
    destruct (decide (s0 = s)) as [->|Hne].
    + rewrite Hs in E0. injection E0 as ->. exists (mkSrv mp false). split; [|done]. cbn.
      apply list_lookup_insert. by eapply lookup_lt_Some.
    + exists sv. split; [|done]. cbn. by rewrite list_lookup_insert_ne.
Qed.

(** A server is new or had its map before. *)
Lemma step_serves_inv w e a w' s n i : sstep w e = Some (a, w') -> serves w' s n i ->
  serves w s n i \/ exists objs ck bind, e = EServer objs ck bind /\ a = OStarted (SUp s) /\
    (i ∈ objs \/ (length (p_heap w) <= i)%nat).
Proof.
  intros H Hsv. pose proof Hsv as (sv & Hs & Hm). destruct e as [n0 c x|objs ck bind|s0 n0 o|s0].
  - cbn [sstep] in H. injection H as _ <-. left. by exists sv.
  - pose proof H as H0. cbn [sstep] in H. destruct (decide _) as [HV|]; [|injection H as _ <-; left; by exists sv].
    destruct (start w objs ck bind) as [[a1 w1]|] eqn:E; [|done]. injection H as <- <-.
    destruct (start_any _ _ _ _ _ _ E HV) as (_ & _ & _ & _ & [Eq|(mp & Eq & ->)]).
    + left. exists sv. by rewrite <- Eq.
    + rewrite Eq in Hs. apply lookup_app_Some in Hs as [Hs|[Hle Hs]]; [left; by exists sv|].
      assert (s = length (p_srvs w)) as ->.
      { apply lookup_lt_Some in Hs. cbn in Hs. lia. }
      right. exists objs, ck, bind. split; [done|]. split; [done|].
      destruct (C99_start _ _ _ _ _ _ H0) as (_ & Hn & Hg).
      destruct (proj1 (Hn n)) as (i0 & xs & t & Hi0 & Ho); [by exists i|].
      destruct (Hg _ _ _ _ Hi0 Ho) as (i' & t' & Hs' & _ & G1 & G2).
      rewrite (serves_fun _ _ _ _ _ Hsv Hs'). destruct (in_checkpoint_dec ck n) as [Hc|Hc].
      * right. apply G2, Hc.
      * left. by rewrite (proj1 (G1 Hc)).
  - cbn [sstep] in H. destruct (request w s0 n0 o) as [[a1 w1]|] eqn:E; [|done]. injection H as _ <-. unfold request in E.
    left. exists sv. split; [|done].
    destruct (p_srvs w !! s0) as [[mp []]|]; [|injection E as _ <-; done|injection E as _ <-; done].
    destruct (mp !! n0); [|injection E as _ <-; done]. destruct (p_heap w !! _); [|done].
    destruct (step _ _) as [[? ?]|]; [|done]. injection E as _ <-. done.
  - cbn [sstep] in H. injection H as _ <-. left. unfold stop in Hs.
    destruct (p_srvs w !! s0) as [[mp []]|] eqn:E0; [|by exists sv|by exists sv].
    cbn in Hs. destruct (decide (s0 = s)) as [->|Hne].
    + rewrite list_lookup_insert in Hs by (by eapply lookup_lt_Some). injection Hs as <-. by exists (mkSrv mp true).
    + rewrite list_lookup_insert_ne in Hs by done. by exists sv.
Qed.

Lemma step_up w e a w' s : sstep w e = Some (a, w') -> up w s -> e <> EStop s -> up w' s.
Proof.
  intros H (sv & Hs & Hm) Hne. destruct e as [n0 c x|objs ck bind|s0 n0 o|s0]; cbn [sstep] in H.
  - injection H as _ <-. by exists sv.
  - destruct (decide _) as [HV|]; [|injection H as _ <-; by exists sv].
    destruct (start w objs ck bind) as [[a1 w1]|] eqn:E; [|done]. injection H as _ <-.
    destruct (start_any _ _ _ _ _ _ E HV) as (_ & _ & _ & _ & [Eq|(mp & Eq & _)]); exists sv; (split; [|done]); rewrite Eq; [done|].
    by apply lookup_app_l_Some.
  - destruct (request w s0 n0 o) as [[a1 w1]|] eqn:E; [|done]. injection H as _ <-. unfold request in E.
    exists sv. split; [|done].
    destruct (p_srvs w !! s0) as [[mp []]|]; [|injection E as _ <-; done|injection E as _ <-; done].
    destruct (mp !! n0); [|injection E as _ <-; done]. destruct (p_heap w !! _); [|done].
    destruct (step _ _) as [[? ?]|]; [|done]. injection E as _ <-. done.
  - injection H as _ <-. unfold stop. destruct (p_srvs w !! s0) as [[mp []]|] eqn:E0; [|by exists sv|by exists sv].
    exists sv. split; [|done]. cbn. rewrite list_lookup_insert_ne by congruence. done.
Qed.

(** What a step does to one object: it is left alone unless the step is a request that it
    serves, or a server that it belongs to is stopped, or it is given to a
    server. *)
Lemma step_object w e a w' i n xs t : sstep w e = Some (a, w') -> object w i n xs t ->
  exists xs' t', object w' i n xs' t' /\
    (not_given i e -> xs' = xs) /\
    (t' = t \/ (exists s n' o r, e = ERequest s n' o /\ serves w s n' i /\ up w s /\ step t o = Some (r, t') /\ a = OReply (RDone r)) \/
     (exists s n', e = EStop s /\ serves w s n' i)).
Proof.
  intros H Ho. destruct e as [n0 c x|objs ck bind|s0 n0 o|s0]; cbn [sstep] in H.
  - injection H as _ <-. exists xs, t. split; [by apply lookup_app_l_Some|]. split; [done|by left].
  - destruct (decide _) as [HV|]; [|injection H as _ <-; exists xs, t; split; [done|]; split; [done|by left]].
    destruct (start w objs ck bind) as [[a1 w1]|] eqn:E; [|done]. injection H as _ <-.
    destruct (start_any _ _ _ _ _ _ E HV) as (_ & _ & Hh & _ & _). destruct (Hh _ _ Ho) as (xs' & Hx & Hni).
    exists xs', t. split; [exact Hx|]. split; [exact Hni|by left].
  - destruct (request w s0 n0 o) as [[a1 w1]|] eqn:E; [|done]. injection H as <- <-. unfold request in E.
    destruct (p_srvs w !! s0) as [[mp []]|] eqn:Es;
      [|injection E as _ <-; exists xs, t; split; [done|]; split; [done|by left]..].
    destruct (mp !! n0) as [i0|] eqn:Em; [|injection E as _ <-; exists xs, t; split; [done|]; split; [done|by left]].
    destruct (p_heap w !! i0) as [[n1 xs1 t1]|] eqn:E0; [|done]. cbn [so_name so_exts so_tab] in E.
    destruct (step t1 o) as [[r t2]|] eqn:Et; [|done]. injection E as <- <-.
    destruct (decide (i0 = i)) as [->|Hne].
    + unfold object in Ho. rewrite E0 in Ho. injection Ho as -> -> ->. exists xs, t2. split.
      { unfold object. cbn. apply list_lookup_insert. by eapply lookup_lt_Some. }
      split; [done|]. right. left. exists s0, n0, o, r. split; [done|]. split; [by eexists|]. split; [by eexists|]. by split.
    + exists xs, t. split; [unfold object; cbn; by rewrite list_lookup_insert_ne|]. split; [done|by left].
  - injection H as _ <-. unfold stop.
    destruct (p_srvs w !! s0) as [[mp []]|] eqn:Es; [|exists xs, t; split; [done|]; split; [done|by left]..].
    destruct (close_objs_lookup _ (map_to_list mp).*2 _ _ Ho) as (t' & Ht & Hni).
    exists xs, t'. split; [exact Ht|]. split; [done|].
    destruct (decide (i ∈ (map_to_list mp).*2)) as [Hin|Hn]; [|left; exact (Hni Hn)].
    right. right. apply elem_of_list_fmap in Hin as ([n' i'] & -> & Hin). apply elem_of_map_to_list in Hin.
    exists s0, n'. split; [done|]. by eexists.
Qed.

(** ** Requests *)

Definition alone (w : proc) (s : nat) (n : Z) (i : nat) : Prop :=
  forall s' n', serves w s' n' i -> s' = s /\ n' = n.

Lemma request_served w s n i xs t o : serves w s n i -> up w s -> object w i n xs t ->
  request w s n o = match step t o with
    | Some (r, t') => Some (RDone r, mkProc (<[i := mkSobj n xs t']> (p_heap w)) (p_exts w) (p_srvs w))
    | None => None end.
Proof.
  intros (sv & Hs & Hm) (sv' & Hs' & Hu) Ho. rewrite Hs in Hs'. injection Hs' as <-. destruct sv as [mp b]. cbn in Hu, Hm. subst b.
  unfold request. rewrite Hs, Hm, Ho. cbn. done.
Qed.

Lemma replies_run s n i xs es : forall w t l w', srun w es = Some (l, w') ->
  serves w s n i -> up w s -> alone w s n i -> object w i n xs t -> Forall (keeps s i) es ->
  exists rs t', run t (ops_at s n es) = Some (rs, t') /\ replies_at s n es l = RDone <$> rs /\ object w' i n xs t' /\
    serves w' s n i /\ up w' s.
Proof.
  induction es as [|e es IH]; intros w t l w' H Hs Hu Ha Ho HF; cbn [srun] in H.
  { injection H as <- <-. exists [], t. repeat (split; [done|]). done. }
  destruct (sstep w e) as [[a w1]|] eqn:E; [|done].
  destruct (srun w1 es) as [[l1 w2]|] eqn:E1; [|done]. injection H as <- <-.
  apply Forall_cons in HF as [Hk HF].
  assert (Hs1 : serves w1 s n i) by (by eapply step_serves).
  assert (Hu1 : up w1 s).
  { eapply step_up; [exact E|exact Hu|]. intros ->. by cbn in Hk. }
  assert (Ha1 : alone w1 s n i).
  { intros s' n' Hsv. destruct (step_serves_inv _ _ _ _ _ _ _ E Hsv) as [Hold|(objs & ck & bind & -> & _ & [Hin|Hle])].
    - by apply Ha.
    - by destruct Hk.
    - unfold object in Ho. apply lookup_lt_Some in Ho. lia. }
  assert (Hng : not_given i e) by (by destruct e).
  destruct (step_object _ _ _ _ _ _ _ _ E Ho) as (xs' & t1 & Ho1 & Hx & Hcase). rewrite (Hx Hng) in Ho1.
  assert (Hother : forall s0 n0 o, e = ERequest s0 n0 o -> ~ (s0 = s /\ n0 = n) -> t1 = t).
  { intros s0 n0 o -> Hne. destruct Hcase as [->|[(s' & n' & o' & r & Heq & Hsv & _)|(s' & n' & Heq & _)]]; [done| |discriminate].
    injection Heq as -> -> ->. destruct Hne. by apply Ha. }
  assert (Hstop : (forall s0 n0 o, e <> ERequest s0 n0 o) -> t1 = t).
  { intros Hne. destruct Hcase as [->|[(s' & n' & o' & r & Heq & _)|(s' & n' & Heq & Hsv)]]; [done|by destruct (Hne s' n' o')|].
    subst e. destruct (Ha _ _ Hsv) as [-> _]. by cbn in Hk. }
  assert (Hskip : ops_at s n (e :: es) = ops_at s n es -> replies_at s n (e :: es) (a :: l1) = replies_at s n es l1 -> t1 = t ->
    exists rs t', run t (ops_at s n (e :: es)) = Some (rs, t') /\ replies_at s n (e :: es) (a :: l1) = RDone <$> rs /\
      object w2 i n xs t' /\ serves w2 s n i /\ up w2 s).
  { intros -> -> ->. by apply (IH w1 t l1 w2). }
  destruct e as [n0 c x|objs ck bind|s0 n0 o|s0].
  - apply Hskip; [done|done|]. by apply Hstop.
  - apply Hskip; [done|done|]. by apply Hstop.
  - destruct (decide (s0 = s /\ n0 = n)) as [[-> ->]|Hne].
    + cbn [sstep] in E. rewrite (request_served _ _ _ _ _ _ o Hs Hu Ho) in E.
      destruct (step t o) as [[r t2]|] eqn:Et; [|done]. injection E as <- <-.
      assert (t1 = t2) as ->.
      { unfold object in Ho, Ho1. cbn in Ho1. rewrite list_lookup_insert in Ho1 by (by eapply lookup_lt_Some). by injection Ho1. }
      destruct (IH _ _ _ _ E1 Hs1 Hu1 Ha1 Ho1 HF) as (rs & t' & R1 & R2 & R3).
      exists (r :: rs), t'. unfold ops_at, replies_at in *. cbn [omap list_omap zip zip_with].
      rewrite bool_decide_eq_true_2 by done. cbn [run]. rewrite Et, R1. split; [done|]. split; [|done]. cbn. f_equal. exact R2.
    + apply Hskip.
      * unfold ops_at. cbn [omap list_omap]. by rewrite bool_decide_eq_false_2.
      * unfold replies_at. cbn [omap list_omap zip zip_with]. destruct a; try done. by rewrite bool_decide_eq_false_2.
      * by eapply Hother.
  - apply Hskip; [done|done|]. by apply Hstop.
Qed.

(** *** Reachable states *)

Lemma inv_new : inv new_proc.
Proof. split; [|done]. intros s n i (sv & Hs & _). done. Qed.

Lemma inv_step w e a w' : inv w -> sstep w e = Some (a, w') -> inv w'.
Proof.
  intros [I1 I2] H. split.
  - intros s n i Hsv. destruct (step_serves_inv _ _ _ _ _ _ _ H Hsv) as [Hold|(objs & ck & bind & -> & -> & _)].
    + destruct (I1 _ _ _ Hold) as (xs & t & Ho). destruct (step_object _ _ _ _ _ _ _ _ H Ho) as (xs' & t' & Ho' & _). by exists xs', t'.
    + destruct (C99_start _ _ _ _ _ _ H) as (_ & Hn & Hg).
      destruct (proj1 (Hn n)) as (i0 & xs & t & Hi0 & Ho); [by exists i|].
      destruct (Hg _ _ _ _ Hi0 Ho) as (i' & t' & Hs' & Ho' & _). rewrite (serves_fun _ _ _ _ _ Hsv Hs'). by exists xs, t'.
  - destruct e as [n0 c x|objs ck bind|s0 n0 o|s0]; cbn [sstep] in H.
    + injection H as _ <-. cbn. rewrite fmap_app, concat_app. cbn. rewrite app_nil_r, I2.
      by rewrite seq_app.
    + destruct (decide _) as [HV|]; [|by injection H as _ <-].
      destruct (start w objs ck bind) as [[a1 w1]|] eqn:E; [|done]. injection H as _ <-.
      destruct (start_any _ _ _ _ _ _ E HV) as (_ & -> & _ & HP & _). by rewrite HP.
    + destruct (request w s0 n0 o) as [[a1 w1]|] eqn:E; [|done]. injection H as _ <-. unfold request in E.
      destruct (p_srvs w !! s0) as [[mp []]|]; [|by injection E as _ <-|by injection E as _ <-].
      destruct (mp !! n0) as [i0|]; [|by injection E as _ <-]. destruct (p_heap w !! i0) as [ob|] eqn:E0; [|done].
      destruct (step _ _) as [[? ?]|]; [|done]. injection E as _ <-. cbn.
      rewrite list_fmap_insert. cbn. rewrite list_insert_id; [done|]. by rewrite list_lookup_fmap, E0.
    + injection H as _ <-. unfold stop. destruct (p_srvs w !! s0) as [[mp []]|]; [|done|done]. cbn. by rewrite close_objs_exts.
Qed.

Lemma inv_run es : forall w l w', inv w -> srun w es = Some (l, w') -> inv w'.
Proof.
  induction es as [|e es IH]; intros w l w' I H; cbn [srun] in H; [by injection H as _ <-|].
  destruct (sstep w e) as [[a w1]|] eqn:E; [|done]. destruct (srun w1 es) as [[l1 w2]|] eqn:E1; [|done].
  injection H as _ <-. eapply IH; [by eapply inv_step|exact E1].
Qed.
Lemma inv_reachable w : reachable w -> inv w.
Proof. intros (es & l & H). eapply inv_run; [exact inv_new|exact H]. Qed.

Lemma run_serves es s n i : forall w l w', srun w es = Some (l, w') -> serves w s n i -> serves w' s n i.
Proof.
  induction es as [|e es IH]; intros w l w' H Hs; cbn [srun] in H; [by injection H as _ <-|].
  destruct (sstep w e) as [[a w1]|] eqn:E; [|done]. destruct (srun w1 es) as [[l1 w2]|] eqn:E1; [|done].
  injection H as _ <-. eapply IH; [exact E1|by eapply step_serves].
Qed.

(** Every server, every table that it was given, every later behaviour of the program and of
    clients: the replies to the requests that name the table are those of a table that
    gets these requests and no others. *)
Theorem C99_serves_partial w objs ck bind s w1 i n xs t es l w2 :
  reachable w -> sstep w (EServer objs ck bind) = Some (OStarted (SUp s), w1) ->
  i ∈ objs -> object w i n xs t -> (forall s' n', ~ serves w s' n' i) ->
  srun w1 es = Some (l, w2) -> (forall i', serves w1 s n i' -> Forall (keeps s i') es) ->
  exists i' t0 rs t2,
    serves w1 s n i' /\ object w1 i' n xs t0 /\
    (~ in_checkpoint ck n -> t0 = t) /\ (in_checkpoint ck n -> restored ck n t0) /\
    run t0 (ops_at s n es) = Some (rs, t2) /\ replies_at s n es l = RDone <$> rs /\
    object w2 i' n xs t2 /\ srv_info w2 s n = Some (n, info t2).
Proof.
  intros HR H Hi Ho Hfree Hrun HF. destruct (C99_start _ _ _ _ _ _ H) as (Hup & Hn & Hg).
  destruct (Hg _ _ _ _ Hi Ho) as (i' & t0 & Hs & Ho' & G1 & G2).
  assert (Ha : alone w1 s n i').
  { intros s' n' Hsv. destruct (inv_step _ _ _ _ (inv_reachable _ HR) H) as [I1 _].
    destruct (I1 _ _ _ Hsv) as (xs' & t' & Ho''). unfold object in Ho', Ho''. rewrite Ho' in Ho''. injection Ho'' as -> _ _.
    split; [|done].
    destruct (step_serves_inv _ _ _ _ _ _ _ H Hsv) as [Hold|(objs' & ck' & bind' & _ & [= <-] & _)]; [|done].
    exfalso. destruct (in_checkpoint_dec ck n') as [Hc|Hc].
    - destruct (G2 Hc) as [Hle _]. destruct (inv_reachable _ HR) as [I0 _]. destruct (I0 _ _ _ Hold) as (xs0 & t1 & Ho0).
      unfold object in Ho0. apply lookup_lt_Some in Ho0. lia.
    - destruct (G1 Hc) as [-> _]. by apply (Hfree s' n'). }
  destruct (replies_run _ _ _ xs _ _ _ _ _ Hrun Hs Hup Ha Ho' (HF _ Hs)) as (rs & t2 & R1 & R2 & R3 & R4 & _).
  exists i', t0, rs, t2. split; [done|]. split; [done|]. split; [intros Hc; by apply G1|]. split; [intros Hc; by apply G2|].
  split; [done|]. split; [done|]. split; [done|].
  destruct R4 as (sv & S1 & S2). unfold srv_info, py_info. rewrite S1, S2. unfold object in R3. by rewrite R3.
Qed.

(** Requests that name a table that the server was not given: NOT_FOUND, and nothing
    happens. *)
Theorem C99_unknown w objs ck bind s w1 n es l w2 :
  sstep w (EServer objs ck bind) = Some (OStarted (SUp s), w1) ->
  (forall i xs t, i ∈ objs -> ~ object w i n xs t) ->
  srun w1 es = Some (l, w2) -> EStop s ∉ es ->
  (forall a, a ∈ replies_at s n es l -> a = RNotFound) /\
  forall o, sstep w2 (ERequest s n o) = Some (OReply RNotFound, w2).
Proof.
  intros H Hno Hrun Hst. destruct (C99_start _ _ _ _ _ _ H) as (Hup & Hn & _).
  assert (Hns : exists mp, p_srvs w1 !! s = Some (mkSrv mp true) /\ mp !! n = None).
  { destruct Hup as ([mp b] & Hs & Hb). cbn in Hb. subst b. exists mp. split; [done|].
    destruct (mp !! n) as [i|] eqn:Em; [|done]. exfalso.
    destruct (proj1 (Hn n)) as (i0 & xs & t & Hi & Ho); [exists i; by eexists|]. by apply (Hno i0 xs t). }
  clear H Hno Hn Hup w objs ck bind. revert w1 l w2 Hrun Hns. induction es as [|e es IH]; intros w1 l w2 Hrun (mp & Hs & Hm); cbn [srun] in Hrun.
  { injection Hrun as <- <-. split; [intros a Ha; cbn in Ha; by apply elem_of_nil in Ha|].
    intros o. cbn [sstep]. unfold request. by rewrite Hs, Hm. }
  destruct (sstep w1 e) as [[a w3]|] eqn:E; [|done]. destruct (srun w3 es) as [[l1 w4]|] eqn:E1; [|done].
  injection Hrun as <- <-. apply not_elem_of_cons in Hst as [Hne Hst].
  assert (Hns : exists mp, p_srvs w3 !! s = Some (mkSrv mp true) /\ mp !! n = None).
  { destruct (step_up _ _ _ _ s E) as ([mp' b] & Hs' & Hb); [by eexists|congruence|]. cbn in Hb. subst b.
    exists mp'. split; [done|]. destruct (mp' !! n) as [i|] eqn:Em; [|done]. exfalso.
    destruct (step_serves_inv _ _ _ _ s n i E) as [(sv & A1 & A2)|(objs & ck & bind & -> & -> & _)]; [by eexists| |].
    - rewrite Hs in A1. injection A1 as <-. cbn in A2. congruence.
    - cbn [sstep] in E. destruct (decide _) as [HV|]; [|done].
      destruct (start w1 objs ck bind) as [[a1 w5]|] eqn:E5; [|done]. injection E as -> ->.
      destruct (start_up _ _ _ _ _ _ E5 HV) as (-> & _). apply lookup_lt_Some in Hs. lia. }
  destruct (IH Hst _ _ _ E1 Hns) as [IH1 IH2]. split; [|exact IH2].
  intros b Hb. unfold replies_at in Hb. cbn [zip zip_with omap list_omap] in Hb.
  destruct e as [n0 c x|objs ck bind|s0 n0 o|s0]; try (by apply IH1).
  destruct a as [| |r|]; try (by apply IH1).
  destruct (bool_decide (s0 = s /\ n0 = n)) eqn:Eb; [|by apply IH1].
  apply bool_decide_eq_true_1 in Eb as [-> ->]. apply elem_of_cons in Hb as [->|Hb]; [|by apply IH1].
  cbn [sstep] in E. unfold request in E. rewrite Hs, Hm in E. by injection E as <- _.
Qed.

(** Table.info of the object that was given and server_info() agree for ever, if the
    checkpoint has no such table. *)
Theorem C99_info_partial w objs ck bind s w1 i n xs t es l w2 :
  sstep w (EServer objs ck bind) = Some (OStarted (SUp s), w1) ->
  i ∈ objs -> object w i n xs t -> ~ in_checkpoint ck n ->
  srun w1 es = Some (l, w2) -> srv_info w2 s n = py_info w2 i.
Proof.
  intros H Hi Ho Hc Hrun. destruct (C99_start _ _ _ _ _ _ H) as (_ & _ & Hg).
  destruct (Hg _ _ _ _ Hi Ho) as (i' & t0 & Hs & _ & G1 & _). destruct (G1 Hc) as [-> _].
  destruct (run_serves _ _ _ _ _ _ _ Hrun Hs) as (sv & S1 & S2). unfold srv_info. by rewrite S1, S2.
Qed.

(** If it has one, then Table.info of the object stays what it was before the
    server was started, whatever the server does. *)
Theorem C99_stale w objs ck bind s w1 i n xs t es l w2 :
  sstep w (EServer objs ck bind) = Some (OStarted (SUp s), w1) ->
  i ∈ objs -> object w i n xs t -> in_checkpoint ck n -> (forall s' n', ~ serves w s' n' i) ->
  srun w1 es = Some (l, w2) -> Forall (not_given i) es -> py_info w2 i = py_info w i.
Proof.
  intros H Hi Ho Hc Hfree Hrun HF. destruct (C99_start _ _ _ _ _ _ H) as (_ & Hn & Hg).
  assert (Hlt : (i < length (p_heap w))%nat) by (unfold object in Ho; by eapply lookup_lt_Some).
  assert (Hno : forall s' n', ~ serves w1 s' n' i).
  { intros s' n' Hsv. destruct (step_serves_inv _ _ _ _ _ _ _ H Hsv) as [Hold|(objs' & ck' & bind' & Heq & [= <-] & _)].
    { by apply (Hfree s' n'). }
    destruct (proj1 (Hn n')) as (i0 & xs0 & t0 & Hi0 & Ho0); [by exists i|].
    destruct (Hg _ _ _ _ Hi0 Ho0) as (i1 & t1 & Hs1 & _ & G1 & G2). rewrite <- (serves_fun _ _ _ _ _ Hsv Hs1) in G1, G2.
    destruct (in_checkpoint_dec ck n') as [Hc'|Hc'].
    - destruct (G2 Hc') as [Hle _]. lia.
    - destruct (G1 Hc') as [<- _]. unfold object in Ho, Ho0. rewrite Ho in Ho0. injection Ho0 as -> _ _. done. }
  destruct (step_object _ _ _ _ _ _ _ _ H Ho) as (xs1 & t1 & Ho1 & _ & Hcase).
  assert (t1 = t) as ->.
  { destruct Hcase as [->|[(s' & n' & o' & r & Heq & _)|(s' & n' & Heq & _)]]; [done|discriminate|discriminate]. }
  assert (Hend : exists xs2, object w2 i n xs2 t).
  { clear H Hi Hg Hn Hlt Hfree Hcase Hc Ho. revert w1 l w2 xs1 Hrun Hno Ho1. induction es as [|e es IH]; intros w1 l w2 xs1 Hrun Hno Ho1; cbn [srun] in Hrun.
    { injection Hrun as _ <-. by exists xs1. }
    destruct (sstep w1 e) as [[a w3]|] eqn:E; [|done]. destruct (srun w3 es) as [[l1 w4]|] eqn:E1; [|done].
    injection Hrun as _ <-. apply Forall_cons in HF as [Hk HF].
    destruct (step_object _ _ _ _ _ _ _ _ E Ho1) as (xs3 & t3 & Ho3 & _ & Hcase).
    assert (t3 = t) as ->.
    { destruct Hcase as [->|[(s' & n' & o' & r & _ & Hsv & _)|(s' & n' & _ & Hsv)]]; [done| |]; by destruct (Hno _ _ Hsv). }
    eapply IH; [exact HF|exact E1| |exact Ho3].
    intros s' n' Hsv. destruct (step_serves_inv _ _ _ _ _ _ _ E Hsv) as [Hold|(objs' & ck' & bind' & -> & _ & [Hin|Hle])].
    - by apply (Hno s' n').
    - by destruct Hk.
    - unfold object in Ho1. apply lookup_lt_Some in Ho1. lia. }
  destruct Hend as [xs2 Ho2]. unfold py_info, object in *. by rewrite Ho2, Ho.
Qed.

(** No extension is lost or in two tables, whatever is loaded. *)
Theorem C99_extensions w : reachable w ->
  forall x, (x < p_exts w)%nat ->
  exists i n xs t, object w i n xs t /\ x ∈ xs /\
    forall i' n' xs' t', object w i' n' xs' t' -> x ∈ xs' -> i' = i.
Proof.
  intros HR x Hx. destruct (inv_reachable _ HR) as [_ HP].
  assert (Hin : x ∈ concat (so_exts <$> p_heap w)). { rewrite HP. apply elem_of_seq. lia. }
  assert (HN : NoDup (concat (so_exts <$> p_heap w))). { rewrite HP. apply NoDup_seq. }
  revert Hin HN. unfold object. clear. induction (p_heap w) as [|o h IH]; cbn; intros Hin HN.
  { by apply elem_of_nil in Hin. }
  apply NoDup_app in HN as (HN1 & Hd & HN2). apply elem_of_app in Hin as [Hin|Hin].
  - destruct o as [n xs t]. exists 0%nat, n, xs, t. split; [done|]. split; [done|].
    intros [|i'] n' xs' t' Ho Hx'; [done|]. exfalso. apply (Hd _ Hin). cbn in Ho.
    apply elem_of_list_In, in_concat. exists xs'. split; [|by apply elem_of_list_In].
    apply elem_of_list_In, elem_of_list_fmap. eexists. split; [|by eapply elem_of_list_lookup_2]. done.
  - destruct (IH Hin HN2) as (i & n & xs & t & Ho & Hx & Hun). exists (S i), n, xs, t. split; [done|]. split; [done|].
    intros [|i'] n' xs' t' Ho' Hx'.
    + cbn in Ho'. injection Ho' as ->. exfalso. by apply (Hd x).
    + f_equal. by eapply Hun.
Qed.

(** Load on objects is the [load] of Checkpoint.v, of which C17, C18 and C68 speak. *)
Definition contents (h : list sobj) (vec : list nat) : list (Z * table) :=
  omap (fun i => (fun o => (so_name o, so_tab o)) <$> h !! i) vec.

Lemma contents_find h n vec : valid h vec -> fst <$> find_obj h n vec = find_table n (contents h vec).
Proof.
  intros HV. induction vec as [|i vec IH]; [done|]. apply Forall_cons in HV as [Hi HV].
  apply lookup_lt_is_Some in Hi as [o Ho]. unfold contents. cbn [find_obj omap list_omap]. rewrite Ho. cbn [fmap option_fmap option_map find_table].
  destruct (decide (so_name o = n)) as [->|Hne]; [by rewrite decide_True|]. rewrite decide_False by done.
  specialize (IH HV). unfold contents in IH. rewrite <- IH. by destruct (find_obj h n vec) as [[? ?]|].
Qed.

Lemma contents_fmap h vec : valid h vec ->
  Some <$> contents h vec = (fun i => (fun o => (so_name o, so_tab o)) <$> h !! i) <$> vec.
Proof.
  intros HV. induction vec as [|i vec IH]; [done|]. apply Forall_cons in HV as [Hi HV].
  apply lookup_lt_is_Some in Hi as [o Ho]. unfold contents. cbn [omap list_omap]. rewrite Ho. cbn. rewrite Ho. cbn. f_equal. by apply IH.
Qed.

Lemma contents_lookup h vec j : valid h vec ->
  contents h vec !! j = (i ← vec !! j; (fun o => (so_name o, so_tab o)) <$> h !! i).
Proof.
  intros HV. assert (H : (Some <$> contents h vec) !! j = ((fun i => (fun o => (so_name o, so_tab o)) <$> h !! i) <$> vec) !! j) by (by rewrite contents_fmap).
  rewrite !list_lookup_fmap in H. destruct (vec !! j) as [i|]; cbn in H |- *; destruct (contents h vec !! j); cbn in H; congruence.
Qed.

Theorem C99_as_load f h vec : Forall (fun i => (i < length h)%nat) vec ->
  match load_found (Some f) h vec with
  | Some (st, h', vec') => load f (contents h vec) = Some (st, contents h' vec')
  | None => load f (contents h vec) = None
  end.
Proof.
  unfold load_found, load. destruct (f_done f); [|done].
  generalize (chunk_map (f_chunks f)) as m. generalize (f_tables f) as ks. intros ks m. revert h vec.
  induction ks as [|k ks IH]; intros h vec HV; cbn [load_objs load_tables]; [done|].
  rewrite <- (contents_find h (k_name k) vec HV). destruct (find_obj h (k_name k) vec) as [[j i]|] eqn:E; cbn [fmap option_fmap option_map fst]; [|done].
  destruct (find_obj_Some _ _ _ _ _ E) as [Hj (o & Ho & Hn)].
  rewrite contents_lookup by done. rewrite Hj. cbn [mbind option_bind]. rewrite Ho. cbn [fmap option_fmap option_map].
  destruct (t_size (so_tab o) =? 0); [|done]. destruct (restore m k) as [t|]; [|done].
  assert (Hi : (i < length h)%nat) by (by eapply lookup_lt_Some).
  assert (Hjl : (j < length vec)%nat) by (by eapply lookup_lt_Some).
  set (h1 := <[i := mkSobj (so_name o) [] (so_tab o)]> h ++ [mkSobj (k_name k) (so_exts o) t]).
  set (vec1 := <[j := length h]> vec).
  assert (HV1 : valid h1 vec1).
  { apply Forall_forall. intros i0 Hi0. apply elem_of_list_lookup in Hi0 as [j0 Hj0]. unfold h1. rewrite app_length, insert_length. cbn.
    unfold vec1 in Hj0. destruct (decide (j0 = j)) as [->|Hnj].
    - rewrite list_lookup_insert in Hj0 by done. injection Hj0 as <-. lia.
    - rewrite list_lookup_insert_ne in Hj0 by done. destruct (valid_lookup _ _ _ _ HV Hj0) as [o1 Ho1].
      apply lookup_lt_Some in Ho1. lia. }
  specialize (IH h1 vec1 HV1).
  assert (Hc : contents h1 vec1 = <[j := (k_name k, t)]> (contents h vec)).
  { assert (Hcl : (j < length (contents h vec))%nat).
    { apply lookup_lt_is_Some. exists (so_name o, so_tab o). rewrite contents_lookup by done. rewrite Hj. cbn. by rewrite Ho. }
    apply list_eq. intros j0. rewrite contents_lookup by done. unfold vec1. destruct (decide (j0 = j)) as [->|Hnj].
    - rewrite !list_lookup_insert by done. cbn [mbind option_bind]. unfold h1. rewrite lookup_app_r by (by rewrite insert_length).
      by rewrite insert_length, Nat.sub_diag.
    - rewrite !list_lookup_insert_ne by done. rewrite contents_lookup by done. destruct (vec !! j0) as [i0|] eqn:Ej0; [|done].
      cbn [mbind option_bind]. destruct (valid_lookup _ _ _ _ HV Ej0) as [o0 Ho0].
      assert (Hi0 : (i0 < length h)%nat) by (by eapply lookup_lt_Some).
      unfold h1. rewrite lookup_app_l by (by rewrite insert_length). destruct (decide (i0 = i)) as [->|Hni].
      + rewrite list_lookup_insert by done. by rewrite Ho.
      + by rewrite list_lookup_insert_ne. }
  rewrite Hc in IH. exact IH.
Qed.
End WithFP.

(** ** Cases *)

Local Existing Instance fp_exact.
Local Existing Instance fp_exact_laws.

Definition st_ins (k : Z) : op := OInsert (k, 0) d0 (mk_item k 1 7 0).
Definition st_smp : op := OSample 1 ds0.
(** The checkpoint of a server with one table, of name 1, with one item. *)
Definition st_table : table := (final ex_q_cfg [st_ins 7]).2.
Definition st_files : files := mkFiles true (chunks_of st_table) [some_checkpoint 1 st_table [q_item st_table 7]].
Example st_saved : saved [(1, st_table)] st_files.
Proof. apply saved_one. sorted_ok. Qed.

(** A table of name 1 with an extension, a server that starts from the checkpoint, one more
    item: server_info() tells of two items, Table.info of none. *)
Theorem C99_stale_refuted :
  exists w l, srun new_proc [ETable 1 ex_q_cfg 1; EServer [0%nat] (Some st_files) true; ERequest 0 1 (st_ins 8)] = Some (l, w) /\
    l = [OMade 0; OStarted (SUp 0); OReply (RDone (RStatus Ok))] /\
    (exists a b, srv_info w 0 1 = Some (1, a) /\ i_size a = 2 /\ py_info w 0 = Some (1, b) /\ i_size b = 0).
Proof.
  eexists _, _. split; [vm_compute; reflexivity|]. split; [reflexivity|].
  eexists _, _. split; [vm_compute; reflexivity|]. split; [reflexivity|]. split; [vm_compute; reflexivity|]. reflexivity.
Qed.

(** The same when the first attempt does not get its port: the second one, with the same
    Table object, starts with the data of the checkpoint but the table has lost its
    extension. *)
Theorem C99_retry_refuted :
  exists w l i t, srun new_proc [ETable 1 ex_q_cfg 1; EServer [0%nat] (Some st_files) false; EServer [0%nat] (Some st_files) true] = Some (l, w) /\
    l = [OMade 0; OStarted (SError InvalidArgument); OStarted (SUp 0)] /\
    serves w 0 1 i /\ object w i 1 [] t /\ t_size t = 1.
Proof.
  eexists _, _, _, _. split; [vm_compute; reflexivity|]. split; [reflexivity|].
  split; [eexists; split; vm_compute; reflexivity|]. split; [vm_compute; reflexivity|]. reflexivity.
Qed.

(** A server that is stopped and made again from the same Table object: with a checkpoint of
    its data the process dies, without one every insertion is refused. *)
Definition st_again (ck : option files) : list sev :=
  [ETable 1 ex_q_cfg 1; EServer [0%nat] None true; ERequest 0 1 (st_ins 7); EStop 0; EServer [0%nat] ck true].
Theorem C99_again_refuted :
  (exists w l, srun new_proc (take 4 (st_again None)) = Some (l, w) /\
     match p_heap w !! 0%nat with Some o => t_data (so_tab o) = t_data st_table | None => False end) /\
  srun new_proc (st_again (Some st_files)) = None /\
  exists w l, srun new_proc (st_again None ++ [ERequest 1 1 (st_ins 8)]) = Some (l, w) /\
    last l = Some (OReply (RDone (RStatus Cancelled))).
Proof.
  split; [|split].
  - eexists _, _. split; [vm_compute; reflexivity|]. vm_compute. reflexivity.
  - vm_compute. reflexivity.
  - eexists _, _. split; [vm_compute; reflexivity|]. vm_compute. reflexivity.
Qed.

(** Two tables, one of them in the checkpoint; two servers; requests for both tables, for one that does
    not exist and for the other server. *)
Definition st_before : list sev := [ETable 1 ex_q_cfg 1; ETable 2 ex_q_cfg 2; ETable 1 ex_q_cfg 0; EServer [2%nat] None true].
Definition st_after : list sev :=
  [ERequest 1 1 (st_ins 8); ERequest 0 1 (st_ins 5); ERequest 1 2 (st_ins 6); ERequest 1 3 st_smp; ERequest 1 1 st_smp; EStop 0; ERequest 1 1 st_smp].
Example C99_example :
  exists l0 w w1 l w2,
    srun new_proc st_before = Some (l0, w) /\
    sstep w (EServer [1%nat; 0%nat] (Some st_files) true) = Some (OStarted (SUp 1), w1) /\
    srun w1 st_after = Some (l, w2) /\
    (exists i' t0, serves w1 1 1 i' /\ i' = 3%nat /\ object w1 i' 1 [0%nat] t0 /\ t_size t0 = 1 /\ Forall (keeps 1 i') st_after) /\
    (serves w1 1 2 1 /\ Forall (keeps 1 1) st_after) /\
    in_checkpoint (Some st_files) 1 /\ ~ in_checkpoint (Some st_files) 2 /\
    ops_at 1 1 st_after = [st_ins 8; st_smp; st_smp] /\
    (forall s' n', ~ serves w s' n' 0) /\ (forall s' n', ~ serves w s' n' 1) /\
    replies_at 1 3 st_after l = [RNotFound] /\
    (exists a, srv_info w2 1 1 = Some (1, a) /\ i_size a = 2 /\ i_samples a = 2).
Proof.
  assert (HF : forall i, i = 3%nat \/ i = 1%nat -> Forall (keeps 1 i) st_after).
  { intros i Hi. unfold st_after. repeat (apply Forall_cons; split; [cbn; first [exact I | discriminate | lia]|]). apply Forall_nil. exact I. }
  eexists _, _, _, _, _. split; [vm_compute; reflexivity|]. split; [vm_compute; reflexivity|]. split; [vm_compute; reflexivity|].
  split.
  { exists 3%nat. eexists. split; [eexists; split; vm_compute; reflexivity|]. split; [reflexivity|]. split; [vm_compute; reflexivity|].
    split; [vm_compute; reflexivity|]. apply HF. left. reflexivity. }
  split. { split; [eexists; split; vm_compute; reflexivity|]. apply HF. right. reflexivity. }
  split. { eexists _, _. split; [reflexivity|]. split; [apply elem_of_list_here|reflexivity]. }
  split. { intros (f & k & Hf & Hk & Hn). injection Hf as <-. apply elem_of_list_singleton in Hk. rewrite Hk in Hn. vm_compute in Hn. discriminate. }
  split; [reflexivity|].
  assert (Hs : forall s' n' i, i <> 2%nat -> ~ (exists sv, [mkSrv {[1 := 2%nat]} true] !! s' = Some sv /\ sv_map sv !! n' = Some i)).
  { intros s' n' i Hi (sv & H1 & H2). destruct s' as [|s']; [|destruct s'; discriminate]. injection H1 as <-. cbn [sv_map] in H2.
    apply lookup_singleton_Some in H2 as [_ <-]. congruence. }
  split. { intros s' n' H. apply (Hs s' n' 0%nat); [discriminate|exact H]. }
  split. { intros s' n' H. apply (Hs s' n' 1%nat); [discriminate|exact H]. }
  split; [vm_compute; reflexivity|].
  eexists. split; [vm_compute; reflexivity|]. split; reflexivity.
Qed.

Print Assumptions C99_start.
Print Assumptions C99_serves_partial.
Print Assumptions C99_unknown.
Print Assumptions C99_info_partial.
Print Assumptions C99_stale.
Print Assumptions C99_extensions.
Print Assumptions C99_as_load.
Print Assumptions C99_stale_refuted.
Print Assumptions C99_retry_refuted.
Print Assumptions C99_again_refuted.
