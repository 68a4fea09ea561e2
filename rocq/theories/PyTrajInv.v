(** The references in the columns of the Python TrajectoryWriter. *)
From stdpp Require Import strings gmap.
From Verif Require Import Base Signature PyWriter PyWriterProofs PropPyWriter Trajectory Tensor TrajUtil ChunkerOptions Sample Stream Reactor
  PropTraj PropInsertStream Chunker PropChunker TrajWriter TrajWriterProofs PropTrajWriter PropChunkKeys PropSystem PyTraj PyTrajProofs.

Notation pcol := (list (option ref)).

(** ** Rows *)

(** The number of finished steps, given a column. *)
Definition pos (open : bool) (col : pcol) : nat := if open then pred (length col) else length col.
(** The entry of the last finished step. *)
Definition prev (open : bool) (col : pcol) : option (option ref) := match pos open col with O => None | S p => col !! p end.

Definition rows (m : cmap) (cols : list pcol) (open : bool) (stp : Z) : Prop := forall i col, cols !! i = Some col ->
  (forall j r, col !! j = Some (Some r) -> r.1 = i /\ is_Some (cell_at m r) /\
     forall c k h, cell_at m r = Some c -> m !! i = Some (k, h) -> ce_key c = k_next k -> ce_step c = stp - Z.of_nat (pos open col) + Z.of_nat j) /\
  (forall j r r' c c', col !! j = Some (Some r) -> col !! S j = Some (Some r') -> cell_at m r = Some c -> cell_at m r' = Some c' -> ce_key c = ce_key c' -> r' = (r.1, S r.2)).

(** The key of a cell and the next key of its Chunker. *)
Lemma nx_key m m' r c k h c' k' h' : cols_le m m' -> nx m m' -> cell_at m r = Some c -> m !! r.1 = Some (k, h) -> cell_at m' r = Some c' -> m' !! r.1 = Some (k', h') ->
  ce_key c' = k_next k' -> ce_key c = k_next k /\ ce_step c' = ce_step c.
Proof.
  intros L N Hc Hk Hc' Hk' E. destruct (cell_le_at _ _ _ _ L Hc) as (c2 & H2 & (E1 & _ & _ & E2 & _)). assert (c2 = c') as -> by congruence. split; [|done].
  destruct (N _ _ _ Hk) as (k2 & h2 & Hk2 & [D|D]); rewrite Hk' in Hk2; injection Hk2 as <- <-; [congruence|].
  exfalso. apply D. rewrite <- E, E1. unfold cell_at in Hc. rewrite Hk in Hc. cbn [mbind option_bind] in Hc.
  apply elem_of_list_fmap. exists c. split; [done|]. by eapply elem_of_list_lookup_2.
Qed.
Lemma cell_col m r c : cell_at m r = Some c -> exists k h, m !! r.1 = Some (k, h).
Proof. unfold cell_at. destruct (m !! r.1) as [[k h]|]; [|done]. intros _. by exists k, h. Qed.

Lemma rows_mono m m' cols open stp : cols_le m m' -> nx m m' -> rows m cols open stp -> rows m' cols open stp.
Proof.
  intros L N H i col Hi. destruct (H _ _ Hi) as [H1 H2]. split.
  - intros j r Hj. destruct (H1 _ _ Hj) as (E & [c Hc] & H3). split; [done|]. split; [destruct (cell_le_at _ _ _ _ L Hc) as (c' & Hc' & _); by eexists|].
    intros c' k' h' Hc' Hk' Ek. subst i. destruct (cell_col _ _ _ Hc) as (k & h & Hk).
    destruct (nx_key _ _ _ _ _ _ _ _ _ L N Hc Hk Hc' Hk' Ek) as [E1 ->]. by apply (H3 c k h).
  - intros j r r' c' d' Hj Hj' Hc' Hd' E. destruct (H1 _ _ Hj) as (_ & [c Hc] & _), (H1 _ _ Hj') as (_ & [d Hd] & _).
    apply (H2 j r r' c d Hj Hj' Hc Hd). destruct (cell_le_at _ _ _ _ L Hc) as (c2 & E1 & (E2 & _)), (cell_le_at _ _ _ _ L Hd) as (d2 & E3 & (E4 & _)). congruence.
Qed.
Lemma rows_end m cols open stp open' stp' : colsinv m -> (forall c k h, m !! c = Some (k, h) -> k_buffer k = []) -> rows m cols open stp -> rows m cols open' stp'.
Proof.
  intros C B H i col Hi. destruct (H _ _ Hi) as [H1 H2]. split; [|done]. intros j r Hj. destruct (H1 _ _ Hj) as (E & Hc0 & _). split; [done|]. split; [done|].
  intros c k h Hc Hk Ek. exfalso. subst i. destruct (proj1 C _ _ _ Hk) as (I & _). cbn [fst snd] in I. unfold cell_at in Hc. rewrite Hk in Hc. cbn [mbind option_bind] in Hc.
  apply (ki_old _ _ I r.2 c); [|done|done]. unfold k_first. rewrite (B _ _ _ Hk). cbn. apply lookup_lt_Some in Hc. lia.
Qed.
Lemma rows_ext m cols ext open stp : Forall (Forall (fun x => x = None)) ext -> rows m cols open stp -> rows m (cols ++ ext) open stp.
Proof.
  intros X H i col Hi. apply lookup_app_Some in Hi as [Hi|[_ Hi]]; [exact (H _ _ Hi)|]. rewrite Forall_forall in X. specialize (X _ (elem_of_list_lookup_2 _ _ _ Hi)).
  rewrite Forall_forall in X. split.
  - intros j r Hj. specialize (X _ (elem_of_list_lookup_2 _ _ _ Hj)). done.
  - intros j r r' c c' Hj. specialize (X _ (elem_of_list_lookup_2 _ _ _ Hj)). done.
Qed.
Lemma rows_clear m cols open stp open' stp' : rows m cols open stp -> rows m (List.map (fun _ => []) cols) open' stp'.
Proof.
  intros _ i col Hi. change (List.map ?f ?x) with (f <$> x) in Hi. rewrite list_lookup_fmap in Hi. destruct (cols !! i); [|done]. injection Hi as <-. done.
Qed.

(** ** The references of a call that is running *)

Definition pend_one (m : cmap) (cols : list pcol) (open : bool) (stp : Z) (j n : nat) (t : tensor) : Prop :=
  tensor_at m (j, n) = Some t /\ exists c, cell_at m (j, n) = Some c /\
    (forall k h, m !! j = Some (k, h) -> ce_key c = k_next k -> ce_step c = stp) /\
    (forall col r c', cols !! j = Some col -> prev open col = Some (Some r) -> cell_at m r = Some c' -> ce_key c' = ce_key c -> (j, n) = (r.1, S r.2)).
Definition pend_refs (m : cmap) (cols : list pcol) (open : bool) (stp : Z) (fd : list (option tensor)) (refs : pcol) : Prop :=
  forall j o, refs !! j = Some o -> match fd !! j with Some (Some t) => exists n, o = Some (j, n) /\ pend_one m cols open stp j n t | _ => o = None end.

Lemma pend_mono m m' cols open stp fd refs : cols_le m m' -> nx m m' -> rows m cols open stp -> pend_refs m cols open stp fd refs -> pend_refs m' cols open stp fd refs.
Proof.
  intros L N R H j o Hj. specialize (H j o Hj). destruct (fd !! j) as [[t|]|]; [|done|done]. destruct H as (n & -> & Ht & c & Hc & H1 & H2). exists n. split; [done|].
  split; [by eapply tensor_at_le|]. destruct (cell_le_at _ _ _ _ L Hc) as (c' & Hc' & (E1 & _)). exists c'. split; [done|]. split.
  - intros k' h' Hk' Ek. destruct (cell_col _ _ _ Hc) as (k & h & Hk). destruct (nx_key _ _ (j, n) _ _ _ _ _ _ L N Hc Hk Hc' Hk' Ek) as [E2 ->]. by apply (H1 k h).
  - intros col r d' Hcol Hp Hd' E. unfold prev in Hp. destruct (pos open col) as [|p] eqn:Ep; [done|]. destruct (R _ _ Hcol) as [R1 _]. destruct (R1 _ _ Hp) as (_ & [d Hd] & _).
    destruct (cell_le_at _ _ _ _ L Hd) as (d2 & Hd2 & (E3 & _)). apply (H2 col r d Hcol); [unfold prev; by rewrite Ep|done|congruence].
Qed.
Lemma pend_ext m cols ext open stp fd refs : Forall (Forall (fun x => x = None)) ext -> pend_refs m cols open stp fd refs -> pend_refs m (cols ++ ext) open stp fd refs.
Proof.
  intros X H j o Hj. specialize (H j o Hj). destruct (fd !! j) as [[t|]|]; [|done|done]. destruct H as (n & -> & Ht & c & Hc & H1 & H2). exists n. split; [done|]. split; [done|].
  exists c. split; [done|]. split; [done|]. intros col r c' Hcol Hp. apply lookup_app_Some in Hcol as [Hcol|[_ Hcol]]; [by apply (H2 col r c')|]. exfalso.
  rewrite Forall_forall in X. specialize (X _ (elem_of_list_lookup_2 _ _ _ Hcol)). rewrite Forall_forall in X. unfold prev in Hp. destruct (pos open col); [done|].
  specialize (X _ (elem_of_list_lookup_2 _ _ _ Hp)). done.
Qed.

Lemma set_last_inv (c : pcol) r c' : set_last c r = Some c' -> exists c0, c = c0 ++ [None] /\ c' = c0 ++ [Some r].
Proof.
  unfold set_last. destruct (last c) as [[]|] eqn:E; try done. intros [= <-]. apply last_Some in E as [c0 ->]. exists c0. split; [done|].
  rewrite app_length. cbn. rewrite Nat.add_1_r. cbn. rewrite insert_app_r_alt by lia. by rewrite Nat.sub_diag.
Qed.

Lemma rows_append m cols open stp fd refs cols' partial : rows m cols open stp -> pend_refs m cols open stp fd refs -> length refs = length cols ->
  (open = true -> Forall (fun c => c <> []) cols) -> add_refs open cols refs = Some cols' -> rows m cols' partial (if partial then stp else stp + 1).
Proof.
  intros R P Hl Hne E i col' Hi. destruct (add_refs_lookup open cols refs cols' E Hl) as [Hl' Hlook].
  destruct (lookup_lt_is_Some_2 cols i) as [col Hcol]; [apply lookup_lt_Some in Hi; lia|].
  destruct (lookup_lt_is_Some_2 refs i) as [o Ho]; [apply lookup_lt_Some in Hcol; lia|].
  destruct (Hlook _ _ _ Hcol Ho) as (col2 & H2 & E2). rewrite Hi in H2. injection H2 as <-.
  specialize (P _ _ Ho). destruct (R _ _ Hcol) as [R1 R2].
  (* a column that ends in the new entry *)
  assert (G : forall c0 r, col' = c0 ++ [Some r] -> o = Some r -> pos open col = length c0 -> (forall j x, c0 !! j = Some x -> col !! j = Some x) ->
     (forall j r, col' !! j = Some (Some r) -> r.1 = i /\ is_Some (cell_at m r) /\
        forall c k h, cell_at m r = Some c -> m !! i = Some (k, h) -> ce_key c = k_next k -> ce_step c = (if partial then stp else stp + 1) - Z.of_nat (pos partial col') + Z.of_nat j) /\
     (forall j r r' c c', col' !! j = Some (Some r) -> col' !! S j = Some (Some r') -> cell_at m r = Some c -> cell_at m r' = Some c' -> ce_key c = ce_key c' -> r' = (r.1, S r.2))).
  { intros c0 r -> -> Hp Hsub. destruct (fd !! i) as [[t|]|]; [|discriminate P|discriminate P]. destruct P as (n & Er & Ht & c & Hc & P1 & P2). injection Er as ->.
    assert (Hpos : forall x : option ref, (if partial then stp else stp + 1) - Z.of_nat (pos partial (c0 ++ [x])) = stp - Z.of_nat (length c0)).
    { intros x. unfold pos. rewrite app_length. cbn. destruct partial; lia. }
    rewrite Hpos. split.
    - intros j r Hj. apply lookup_app_Some in Hj as [Hj|[Hge Hj]].
      + destruct (R1 _ _ (Hsub _ _ Hj)) as (A1 & A2 & A3). rewrite Hp in A3. split; [exact A1|]. split; [exact A2|exact A3].
      + apply list_lookup_singleton_Some in Hj as [Hz Hr]. assert (r = (i, n)) as -> by congruence. split; [done|]. split; [by eexists|].
        intros c2 k h Hc2 Hk Ek. assert (c2 = c) as -> by congruence. rewrite (P1 _ _ Hk Ek). assert (Hz' : (j - length c0 = 0)%nat) by exact Hz. assert (Hge' : (length c0 <= j)%nat) by exact Hge. lia.
    - intros j r r' c1 c2 Hj Hj' Hc1 Hc2 Ek. apply lookup_app_Some in Hj' as [Hj'|[Hge Hj']].
      + rewrite lookup_app_l in Hj by (apply lookup_lt_Some in Hj'; lia). by apply (R2 j r r' c1 c2); [apply Hsub|apply Hsub|..].
      + apply list_lookup_singleton_Some in Hj' as [Hz Hr]. assert (r' = (i, n)) as -> by congruence. assert (Hz' : (S j - length c0 = 0)%nat) by exact Hz. assert (Hge' : (length c0 <= S j)%nat) by exact Hge.
        assert (Hj2 : c0 !! j = Some (Some r)).
        { apply lookup_app_Some in Hj as [Hj|[Hj _]]; [exact Hj|]. assert (Hj' : (length c0 <= j)%nat) by exact Hj. lia. }
        assert (c2 = c) as -> by congruence.
        apply (P2 col r c1 Hcol); [|done|done]. unfold prev. rewrite Hp. destruct (length c0) as [|q] eqn:Eq; [lia|]. replace q with j by lia. by apply Hsub. }
  destruct open.
  - destruct o as [r|].
    + apply set_last_inv in E2 as (c0 & -> & ->). apply (G c0 r); [done|done|unfold pos; rewrite app_length; cbn; lia|]. intros j x. apply lookup_app_l_Some.
    + injection E2 as <-.
      assert (Hpos : (if partial then stp else stp + 1) - Z.of_nat (pos partial col) = stp - Z.of_nat (pos true col)).
      { specialize (Hne eq_refl). rewrite Forall_forall in Hne. specialize (Hne _ (elem_of_list_lookup_2 _ _ _ Hcol)). unfold pos. destruct partial; [done|]. destruct col; [done|]. cbn. lia. }
      rewrite Hpos. done.
  - injection E2 as <-. destruct o as [r|]; [by apply (G col r)|].
    assert (Hpos : (if partial then stp else stp + 1) - Z.of_nat (pos partial (col ++ [None])) = stp - Z.of_nat (length col)) by (unfold pos; rewrite app_length; cbn; destruct partial; lia).
    rewrite Hpos. split.
    + intros j r Hj. apply lookup_app_Some in Hj as [Hj|[Hge Hj]]; [exact (R1 _ _ Hj)|]. by apply list_lookup_singleton_Some in Hj as [_ ?].
    + intros j r r' c1 c2 Hj Hj'. apply lookup_app_Some in Hj' as [Hj'|[Hge Hj']]; [|by apply list_lookup_singleton_Some in Hj' as [_ ?]].
      rewrite lookup_app_l in Hj by (apply lookup_lt_Some in Hj'; lia). exact (R2 j r r' c1 c2 Hj Hj').
Qed.

(** ** What append does *)

Lemma update_cols (w : py) new : exists ext, PyWriter.w_cols (update_structure w new) = PyWriter.w_cols w ++ ext /\ Forall (Forall (fun x => x = None)) ext /\ w_open (update_structure w new) = w_open w.
Proof.
  unfold update_structure. destruct (foldl _ _ _) as [m cx]. cbn. eexists. split; [done|]. split; [|done]. apply Forall_replicate. by apply Forall_replicate.
Qed.
Lemma append_run (w : py) d : exists w2 ext, PyWriter.w_cols w2 = PyWriter.w_cols w ++ ext /\ Forall (Forall (fun x => x = None)) ext /\ w_open w2 = w_open w /\
  match passed w d with
  | None => forall partial call, exists r, r <> PyOk /\ append w d partial call = (r, w2)
  | Some fd => reorder w2 d = Some fd /\ forall partial call, append w d partial call =
      match call fd with
      | None => (PyCxxError, w2)
      | Some refs => match add_refs (w_open w2) (PyWriter.w_cols w2) refs with
        | None => (PyRuntimeError, w2)
        | Some cols => (PyOk, mkPw (w_struct w2) cols (w_paths w2) (w_flat w2) (w_config w2) partial (w_cxx w2)) end
      end
  end.
Proof.
  unfold passed, append. set (w1 := match w_struct w with PLeaf _ => update_structure w (tmap (fun _ => tt) d) | _ => w end).
  assert (H1 : exists ext, PyWriter.w_cols w1 = PyWriter.w_cols w ++ ext /\ Forall (Forall (fun x => x = None)) ext /\ w_open w1 = w_open w).
  { unfold w1. destruct (w_struct w); [apply update_cols|exists []; by rewrite app_nil_r..]. }
  destruct H1 as (e1 & C1 & X1 & O1).
  destruct (reorder w1 d) as [fd|] eqn:Ef.
  { exists w1, e1. split; [done|]. split; [done|]. split; [done|]. destruct (step_free w1 fd); cbn [negb]; [by rewrite Ef|]. intros partial call. by exists PyValueError. }
  destruct (tree_union _ _) as [s|] eqn:Eu.
  - destruct (update_cols w1 s) as (e2 & C2 & X2 & O2). exists (update_structure w1 s), (e1 ++ e2).
    split; [by rewrite C2, C1, app_assoc|]. split; [by apply Forall_app|]. split; [congruence|].
    destruct (reorder (update_structure w1 s) d) as [fd|] eqn:Ef2; [|intros partial call; by exists PyKeyError].
    destruct (step_free (update_structure w1 s) fd); cbn [negb]; [by rewrite Ef2|]. intros partial call. by exists PyValueError.
  - exists w1, e1. split; [done|]. split; [done|]. split; [done|]. intros partial call. by exists PyTypeError.
Qed.

Lemma reorder_into_length {V : Type} (m : gmap ppath nat) (l : list (ppath * option V)) out fd : reorder_into m l out = Some fd -> length fd = length out.
Proof.
  revert out. induction l as [|[p v] l IH]; intros out; cbn [reorder_into]; [by intros [= <-]|]. destruct (m !! p) as [c|]; [|done]. cbn [mbind option_bind].
  intros H. rewrite (IH _ H). apply insert_length.
Qed.
Lemma reorder_into_elem {V : Type} (m : gmap ppath nat) (l : list (ppath * option V)) out fd x : reorder_into m l out = Some fd -> x ∈ fd -> x ∈ out \/ exists p, (p, x) ∈ l.
Proof.
  revert out. induction l as [|[p v] l IH]; intros out; cbn [reorder_into]; [intros [= <-]; by left|]. destruct (m !! p) as [c|]; [|done]. cbn [mbind option_bind].
  intros H Hx. destruct (IH _ H Hx) as [H1|(q & H1)].
  - apply elem_of_list_lookup in H1 as [j Hj]. destruct (decide (c = j)) as [->|Hne].
    + apply list_lookup_insert_Some in Hj as [(_ & <- & _)|(? & _)]; [|done]. right. exists p. apply elem_of_list_here.
    + rewrite list_lookup_insert_ne in Hj by done. left. by eapply elem_of_list_lookup_2.
  - right. exists q. by apply elem_of_list_further.
Qed.

Lemma history_at top (w : py) ps h p c : core top w ps -> history w = Some h -> at_path h p = Some c -> exists i, PyWriter.w_cols w !! i = Some c /\ ps !! i = Some p.
Proof.
  intros [Hn Hm Hsz Hw Hl Hst] Eh Hpc. unfold history in Eh. destruct (PyWriter.w_cols w) as [|c0 cs] eqn:Ew; [done|]. rewrite <- Ew in *.
  destruct Hst as [[-> _]|(HP & Hfl & _)]; [by rewrite Ew in Hl|].
  destruct (mapM _ _) as [hs|] eqn:Ehs; [|done]. cbn [mbind option_bind] in Eh. apply mapM_Some in Ehs as Hhs. apply Forall2_length in Hhs as Hlen. rewrite seq_length in Hlen.
  assert (HL : length (paths (w_struct w)) = length ps) by (by apply Permutation_length).
  destruct (unflatten_spec (w_struct w) hs Hw) as (h2 & Eh2 & Hwh & Hfh); [lia|]. rewrite Eh2 in Eh. injection Eh as ->.
  apply flat_spec in Hpc; [|done]. rewrite Hfh in Hpc. apply elem_of_list_lookup in Hpc as [i Hi].
  rewrite lookup_zip_with in Hi. destruct (paths (w_struct w) !! i) as [q|] eqn:Eq; [|done]. cbn in Hi. destruct (hs !! i) as [c'|] eqn:Ec; [|done].
  injection Hi as -> ->. apply (Forall2_lookup_r _ _ _ _ _ Hhs) in Ec as (j & Hj & Ej). apply lookup_seq in Hj as [-> Hj]. cbn in Ej.
  rewrite Hfl in Ej. change (List.map ?f ?x) with (f <$> x) in Ej. rewrite list_lookup_fmap, Eq in Ej. cbn in Ej.
  assert (Hpin : p ∈ ps) by (rewrite <- HP; by apply elem_of_list_lookup_2 in Eq). apply elem_of_list_lookup in Hpin as [k Hk'].
  rewrite (proj2 (Hm p k) Hk') in Ej. cbn in Ej. by exists k.
Qed.

(** ** Slices *)

Lemma every_fmap {A B} (f : A -> B) n skip l : every n skip (f <$> l) = f <$> every n skip l.
Proof. revert skip. induction l as [|x l IH]; intros skip; [done|]. cbn. destruct skip; cbn; by rewrite IH. Qed.
Lemma every_one {A} (l : list A) : every 1 0 l = l.
Proof. induction l as [|x l IH]; [done|]. cbn. by rewrite IH. Qed.
Lemma pick_fmap {A B} (f : A -> B) s (l : list A) : pick s (f <$> l) = f <$> pick s l.
Proof.
  destruct s as [i|a b n]; unfold pick; rewrite fmap_length; [rewrite list_lookup_fmap; by destruct (l !! _)|].
  by rewrite <- fmap_drop, <- fmap_take, every_fmap.
Qed.
Lemma get_pick (c : pcol) s refs : get_refs c s = Some refs -> pick s c = Some <$> refs.
Proof.
  destruct s as [i|a b n]; unfold get_refs, pick.
  - unfold col_index. destruct (_ <? 0) eqn:E0; cbn; destruct (_ <? 0); try done.
    all: destruct (c !! _) as [[r|]|]; [|done|done]; cbn; by intros [= <-].
  - destruct n as [|n]; [done|]. intros E. apply all_refs_val in E. rewrite <- E. clear. unfold clip.
    destruct a, b; reflexivity.
Qed.
(** Neighbours in a plain slice are neighbours in the list. *)
Lemma pick_plain {A} s (l : list A) : plain s = true -> exists o, forall i x y, pick s l !! i = Some x -> pick s l !! S i = Some y -> l !! (o + i)%nat = Some x /\ l !! S (o + i) = Some y.
Proof.
  destruct s as [i|a b n]; unfold plain, pick.
  - intros _. exists 0%nat. intros j x y Hx Hy. destruct (l !! _); cbn in Hy; done.
  - intros ->%Nat.eqb_eq. rewrite every_one. match goal with |- context [drop ?k l] => exists k end. intros j x y Hx Hy.
    apply lookup_take_Some in Hx as [Hx _], Hy as [Hy _]. rewrite lookup_drop in Hx, Hy. rewrite <- plus_n_Sm in Hy. done.
Qed.
Lemma pick_elem {A} s (l : list A) x : x ∈ pick s l -> x ∈ l.
Proof.
  destruct s as [i|a b n]; unfold pick.
  - destruct (l !! _) as [y|] eqn:E; cbn; [|by intros ?%elem_of_nil]. intros ->%elem_of_list_singleton. by eapply elem_of_list_lookup_2.
  - match goal with |- context [drop ?k l] => generalize k end. intros k H.
    assert (G : forall n skip (l : list A), x ∈ every n skip l -> x ∈ l).
    { clear. intros n skip l. revert skip. induction l as [|y l IH]; intros skip; [done|]. cbn. destruct skip.
      - intros [->|H]%elem_of_cons; [apply elem_of_list_here|]. apply elem_of_list_further. by eapply IH.
      - intros H. apply elem_of_list_further. by eapply IH. }
    apply G in H. apply elem_of_list_lookup in H as [j Hj]. apply lookup_take_Some in Hj as [Hj _]. rewrite lookup_drop in Hj. by eapply elem_of_list_lookup_2.
Qed.
