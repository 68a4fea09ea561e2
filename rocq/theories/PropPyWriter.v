(** C66, C67: history and configuration of the Python TrajectoryWriter. *)
From stdpp Require Import strings gmap.
From Verif Require Import Base Signature PropSignature PyWriter PyWriterProofs.

Inductive pyev V R O :=
| EAppend (d : ptree (option V)) (partial : bool) (call : cxx V R)
| EEnd (clear ok : bool)
| EConfigure (p : ppath) (o : O) (ok : bool).
Arguments EAppend {_ _ _}. Arguments EEnd {_ _ _}. Arguments EConfigure {_ _ _}.

Section Spec.
Context {V R O : Type} (val : R -> V).
Notation ev := (pyev V R O).
Notation pw := (pw R O).

Definition py_step (w : pw) (e : ev) : pres * pw :=
  match e with
  | EAppend d partial call => append w d partial call
  | EEnd clear ok => end_episode w clear ok
  | EConfigure p o ok => configure w p o ok
  end.

(** ** Specification *)

(** The value a step has at a path; a leaf None is no value. *)
Definition value_at (d : ptree (option V)) (p : ppath) : option V := v ← at_path d p; v.

(** What the user did since the last end of an episode: the finished steps and the
    step that is still open, each a function from paths to values. *)
Record episode := mkEp { ep_done : list (ppath -> option V); ep_cur : option (ppath -> option V) }.
Definition ep_steps (s : episode) : list (ppath -> option V) := ep_done s ++ option_list (ep_cur s).

Definition ep_step (s : episode) (er : ev * pres) : episode :=
  match er with
  | (EAppend d partial _, PyOk) =>
    let st := fun p => match value_at d p with Some v => Some v | None => st ← ep_cur s; st p end in
    if partial then mkEp (ep_done s) (Some st) else mkEp (ep_done s ++ [st]) None
  | (EEnd true _, PyOk) => mkEp [] None
  | (EEnd false _, PyOk) => mkEp (ep_steps s) None
  | _ => s
  end.
Definition ep_of (l : list (ev * pres)) : episode := foldl ep_step (mkEp [] None) l.

(** The last accepted configuration of a path. *)
Definition cfg_step (s : ppath -> option O) (er : ev * pres) : ppath -> option O :=
  match er with
  | (EConfigure p o _, PyOk) => fun q => if decide (q = p) then Some o else s q
  | _ => s
  end.
Definition cfg_of (l : list (ev * pres)) : ppath -> option O := foldl cfg_step (fun _ => None) l.

(** The C++ writer returns, for every column, a reference to the value it got. *)
Definition honest (call : cxx V R) : Prop := forall fd refs, call fd = Some refs -> fmap (M := option) val <$> refs = fd.

Definition is_leaf {A} (t : ptree A) : bool := match t with PLeaf _ => true | _ => false end.

(** The steps a run may take.  [top]: the user appends bare values ([true]) or
    containers ([false]), not both.  Every step has a leaf. *)
Definition py_ok (top : bool) (l : list (ev * pres)) (e : ev) : Prop :=
  match e with
  | EAppend d _ call => wf_tree d /\ honest call /\ is_leaf d = top /\ exists p, is_Some (at_path d p)
  | EEnd _ ok => ok = true -> ep_cur (ep_of l) = None
  | EConfigure _ _ _ => True
  end.

Inductive py_trace (top : bool) : list (ev * pres) -> pw -> Prop :=
| py_nil : py_trace top [] w_init
| py_snoc l w e r w' : py_trace top l w -> py_ok top l e -> py_step w e = (r, w') -> py_trace top (l ++ [(e, r)]) w'.

(** ** Invariant *)

Record core (top : bool) (w : pw) (ps : list ppath) : Prop := {
  k_nodup : NoDup ps;
  k_map : forall p i, w_paths w !! p = Some i <-> ps !! i = Some p;
  k_size : size (w_paths w) = length ps;
  k_wf : wf_tree (w_struct w);
  k_len : length (w_cols w) = length ps;
  k_struct : (ps = [] /\ w_struct w = PNone) \/
    (paths (w_struct w) ≡ₚ ps /\ w_flat w = List.map (fun p => default 0%nat (w_paths w !! p)) (paths (w_struct w)) /\ is_leaf (w_struct w) = top);
}.

Definition cfg_ok (m : gmap ppath nat) (cx : gmap nat O) (cfg : gmap ppath O) (sp : ppath -> option O) : Prop :=
  (forall p c, m !! p = Some c -> cx !! c = sp p) /\ (forall p, m !! p = None -> cfg !! p = sp p) /\ (forall c, (size m <= c)%nat -> cx !! c = None).

Lemma add_paths_spec cfg sp qs m cx ps :
  NoDup ps -> (forall p i, m !! p = Some i <-> ps !! i = Some p) -> size m = length ps -> cfg_ok m cx cfg sp ->
  exists m' cx' ps', foldl (add_path cfg) (m, cx) qs = (m', cx') /\ ps `prefix_of` ps' /\
    NoDup ps' /\ (forall p i, m' !! p = Some i <-> ps' !! i = Some p) /\ size m' = length ps' /\ cfg_ok m' cx' cfg sp /\
    (forall p, p ∈ ps' <-> p ∈ ps \/ p ∈ qs).
Proof.
  revert m cx ps. induction qs as [|q qs IH]; intros m cx ps Hn Hm Hs Hc.
  - exists m, cx, ps. split; [done|]. split; [done|]. do 4 (split; [done|]). intros p. rewrite elem_of_nil. tauto.
  - cbn [foldl]. unfold add_path at 2. destruct (m !! q) as [c|] eqn:Eq.
    + destruct (IH m cx ps Hn Hm Hs Hc) as (m' & cx' & ps' & E & Hp & Hn' & Hm' & Hs' & Hc' & Hel).
      exists m', cx', ps'. split; [done|]. do 5 (split; [done|]). intros p. rewrite Hel, elem_of_cons.
      apply Hm in Eq. apply elem_of_list_lookup_2 in Eq. split; [tauto|]. intros [?|[->|?]]; auto.
    + assert (Hq : q ∉ ps). { intros H. apply elem_of_list_lookup in H as [i H]. apply Hm in H. congruence. }
      destruct Hc as (Hc1 & Hc2 & Hc3).
      destruct (IH (<[q := size m]> m) (match cfg !! q with Some o => <[size m := o]> cx | None => cx end) (ps ++ [q])) as (m' & cx' & ps' & E & Hp & Hn' & Hm' & Hs' & Hc' & Hel).
      * apply NoDup_app. split; [done|]. split; [|apply NoDup_singleton]. intros p H1 H2. apply elem_of_list_singleton in H2 as ->. done.
      * intros p i. destruct (decide (p = q)) as [->|Hpq].
        -- rewrite lookup_insert. rewrite lookup_app_Some, Hs. split.
           ++ intros [= <-]. right. split; [lia|]. by rewrite Nat.sub_diag.
           ++ intros [H|[H1 H2]]; [by apply elem_of_list_lookup_2 in H|]. apply list_lookup_singleton_Some in H2 as [H2 _]. f_equal. lia.
        -- rewrite lookup_insert_ne by done. rewrite lookup_app_Some, Hm. split; [by left|]. intros [H|[H1 H2]]; [done|].
           apply list_lookup_singleton_Some in H2 as [_ H2]. done.
      * rewrite map_size_insert_None by done. rewrite app_length, Hs. cbn. lia.
      * assert (Hcx : forall c, (c < size m)%nat -> match cfg !! q with Some o => <[size m := o]> cx | None => cx end !! c = cx !! c).
        { intros c Hlt. destruct (cfg !! q); [|done]. apply lookup_insert_ne. lia. }
        split; [|split].
        -- intros p c. destruct (decide (p = q)) as [->|Hpq].
           ++ rewrite lookup_insert. intros [= <-]. rewrite <- (Hc2 q Eq). destruct (cfg !! q); [by rewrite lookup_insert|]. apply Hc3. lia.
           ++ rewrite lookup_insert_ne by done. intros Hp'. rewrite Hcx; [by apply Hc1|]. apply Hm, lookup_lt_Some in Hp'. lia.
        -- intros p. destruct (decide (p = q)) as [->|Hpq]; [by rewrite lookup_insert|]. rewrite lookup_insert_ne by done. apply Hc2.
        -- intros c. rewrite map_size_insert_None by done. intros Hle. destruct (cfg !! q); [rewrite lookup_insert_ne by lia|]; apply Hc3; lia.
      * exists m', cx', ps'. split; [done|]. split; [by apply prefix_app_l in Hp|]. do 4 (split; [done|]).
        intros p. rewrite Hel, elem_of_app, elem_of_list_singleton, elem_of_cons. tauto.
Qed.

Definition same_len (n : nat) (w : pw) : Prop := Forall (fun c => length c = n) (w_cols w).

Lemma update_core top w ps new sp :
  core top w ps -> wf_tree new -> is_leaf new = top -> cfg_ok (w_paths w) (w_cxx w) (w_config w) sp ->
  (ps = [] \/ forall p, p ∈ ps -> p ∈ paths new) ->
  exists ps', core top (update_structure w new) ps' /\ ps `prefix_of` ps' /\
    cfg_ok (w_paths (update_structure w new)) (w_cxx (update_structure w new)) (w_config w) sp /\
    w_config (update_structure w new) = w_config w /\ w_open (update_structure w new) = w_open w /\
    w_cols (update_structure w new) = w_cols w ++ replicate (length ps' - length ps) (replicate (match w_cols w with c :: _ => length c | [] => 0%nat end) None) /\
    (forall p, p ∈ paths new -> p ∈ ps').
Proof.
  intros [Hn Hm Hs Hw Hl Hst] Hnew Htop Hc Hsub. unfold update_structure. fold (paths new).
  destruct (add_paths_spec (w_config w) sp (paths new) (w_paths w) (w_cxx w) ps Hn Hm Hs Hc) as (m' & cx' & ps' & E & Hp & Hn' & Hm' & Hs' & Hc' & Hel).
  rewrite E.
  assert (HP : paths new ≡ₚ ps').
  { apply NoDup_Permutation; [by apply NoDup_paths|done|]. intros p. rewrite Hel. split; [by right|]. intros [H|H]; [|done].
    destruct Hsub as [->|Hsub]; [by apply elem_of_nil in H|]. by apply Hsub. }
  assert (HL : length (paths new) = length ps') by (by apply Permutation_length).
  exists ps'. cbn. rewrite HL, Hl.
  assert (Hle : (length ps <= length ps')%nat) by (by apply prefix_length).
  split; [|split; [done|]; split; [done|]; split; [done|]; split; [done|]; split; [done|intros p H; by rewrite <- HP]].
  constructor; cbn; try done.
  - rewrite app_length, replicate_length, Hl. lia.
  - right. done.
Qed.

(** reorder puts every value into the column of its path. *)
Lemma reorder_into_spec m l out fd : NoDup (fst <$> l) -> (forall p q i, m !! p = Some i -> m !! q = Some i -> p = q) ->
  (forall p i, m !! p = Some i -> (i < length out)%nat) ->
  reorder_into (V := V) m l out = Some fd ->
  length fd = length out /\
  (forall p v, (p, v) ∈ l -> exists i, m !! p = Some i /\ fd !! i = Some v) /\
  (forall i, (forall p v, (p, v) ∈ l -> m !! p <> Some i) -> fd !! i = out !! i).
Proof.
  intros Hn Hinj. revert out Hn. induction l as [|[p v] l IH]; intros out Hn Hlt; cbn.
  - intros [= <-]. split; [done|]. split; [intros p v H; by apply elem_of_nil in H|done].
  - cbn in Hn. apply NoDup_cons in Hn as [Hp Hn]. destruct (m !! p) as [c|] eqn:Ec; [|done]. cbn. intros E.
    apply IH in E as (H1 & H2 & H3); [|done|intros q i Hq; rewrite insert_length; by apply (Hlt q)].
    rewrite insert_length in H1. split; [done|]. split.
    + intros q u [H|H]%elem_of_cons; [|by apply H2]. injection H as -> ->. exists c. split; [done|].
      rewrite H3; [apply list_lookup_insert; by apply (Hlt p)|]. intros q u Hq Eq. assert (q = p) as -> by (by apply (Hinj q p c)).
      apply Hp. apply (elem_of_list_fmap_1 fst) in Hq. done.
    + intros i Hi. rewrite H3; [|intros q u Hq; apply (Hi q u); by apply elem_of_list_further].
      apply list_lookup_insert_ne. intros ->. apply (Hi p v); [apply elem_of_list_here|done].
Qed.

Lemma reorder_spec w ps d fd : (forall p i, w_paths (R := R) (O := O) w !! p = Some i <-> ps !! i = Some p) -> size (w_paths w) = length ps ->
  wf_tree d -> reorder w d = Some fd ->
  length fd = length ps /\ (forall i p, ps !! i = Some p -> fd !! i = Some (value_at d p)) /\ (forall p, p ∈ paths d -> p ∈ ps).
Proof.
  intros Hm Hs Hd. unfold reorder. intros E. apply reorder_into_spec in E as (H1 & H2 & H3).
  - rewrite replicate_length, Hs in H1. split; [done|]. split.
    + intros i p Hp. unfold value_at. destruct (at_path d p) as [v|] eqn:Ev; cbn.
      * apply flat_spec in Ev; [|done]. destruct (H2 p v Ev) as (j & Hj & Hv). apply Hm in Hp. rewrite Hp in Hj. by injection Hj as ->.
      * rewrite H3.
        -- apply lookup_lt_Some in Hp as Hlt. rewrite lookup_replicate. split; [done|]. by rewrite Hs.
        -- intros q u Hq Eq. apply Hm in Eq. rewrite Hp in Eq. injection Eq as ->. apply flat_spec in Hq; [|done]. congruence.
    + intros p Hp. unfold paths in Hp. change (List.map fst (flat d)) with (fst <$> flat d) in Hp. apply elem_of_list_fmap in Hp as ([q v] & -> & Hq).
      destruct (H2 q v Hq) as (i & Hi & _). apply Hm in Hi. by apply elem_of_list_lookup_2 in Hi.
  - apply (NoDup_paths d Hd).
  - intros p q i Hp Hq. apply Hm in Hp, Hq. congruence.
  - intros p i Hp. apply Hm, lookup_lt_Some in Hp. by rewrite replicate_length, Hs.
Qed.

(** ** Histories *)

Definition content (s : episode) (ps : list ppath) (cols : list (list (option R))) : Prop :=
  forall i p c, ps !! i = Some p -> cols !! i = Some c -> fmap (M := option) val <$> c = (fun st => st p) <$> ep_steps s.

Record inv (top : bool) (l : list (ev * pres)) (w : pw) (ps : list ppath) : Prop := {
  v_core : core top w ps;
  v_cfg : cfg_ok (w_paths w) (w_cxx w) (w_config w) (cfg_of l);
  v_open : w_open w = match ep_cur (ep_of l) with Some _ => true | None => false end;
  v_content : content (ep_of l) ps (w_cols w);
  v_seen : forall st p v, st ∈ ep_steps (ep_of l) -> st p = Some v -> p ∈ ps;
  v_known : forall d partial call p, (EAppend d partial call, PyOk) ∈ l -> is_Some (at_path d p) -> p ∈ ps;
  v_ne : ep_steps (ep_of l) <> [] -> ps <> [];
}.

Lemma ep_of_snoc l x : ep_of (l ++ [x]) = ep_step (ep_of l) x.
Proof. unfold ep_of. by rewrite foldl_app. Qed.
Lemma cfg_of_snoc l x : cfg_of (l ++ [x]) = cfg_step (cfg_of l) x.
Proof. unfold cfg_of. by rewrite foldl_app. Qed.

(** Padding of new columns. *)
Lemma update_inv top l w ps new : inv top l w ps -> wf_tree new -> is_leaf new = top ->
  (ps = [] \/ forall p, p ∈ ps -> p ∈ paths new) ->
  exists ps', inv top l (update_structure w new) ps' /\ (forall p, p ∈ paths new -> p ∈ ps') /\ (forall p, p ∈ ps -> p ∈ ps') /\ w_struct (update_structure w new) = new.
Proof.
  intros [Hcore Hcfg Ho Hc Hs Hk Hne] Hnew Htop Hsub.
  destruct (update_core top w ps new (cfg_of l) Hcore Hnew Htop Hcfg Hsub) as (ps' & Hcore' & Hp & Hcfg' & Ecfg & Eo & Ec & Hin).
  destruct Hp as [ex ->].
  exists (ps ++ ex). split; [|split; [done|split; [intros p H; apply elem_of_app; by left|]]].
  - constructor; [done|by rewrite Ecfg|by rewrite Eo| | | |].
    + intros i p c. rewrite Ec, app_length, Nat.add_comm, Nat.add_sub. pose proof (k_len _ _ _ Hcore) as Hl.
      intros H1 H2. apply lookup_app_Some in H1 as [H1|[H1 H1']].
      * apply lookup_lt_Some in H1 as Hlt. rewrite lookup_app_l in H2 by lia. by apply (Hc i p).
      * rewrite lookup_app_r in H2 by lia. apply lookup_replicate in H2 as [-> _].
        assert (Hnp : p ∉ ps).
        { intros H. pose proof (k_nodup _ _ _ Hcore') as Hn. apply NoDup_app in Hn as (_ & Hn & _). apply (Hn p H). by apply elem_of_list_lookup_2 in H1'. }
        (* the length of the first column is the number of steps *)
        assert (Hlen : (match w_cols w with c :: _ => length c | [] => 0%nat end) = length (ep_steps (ep_of l))).
        { destruct (w_cols w) as [|c cs] eqn:Ew.
          - destruct (ep_steps (ep_of l)) eqn:Es; [done|]. exfalso. apply Hne; [done|]. apply nil_length_inv. by rewrite <- Hl.
          - destruct ps as [|p0 ps]; [done|]. specialize (Hc 0%nat p0 c eq_refl eq_refl).
            apply (f_equal length) in Hc. by rewrite !fmap_length in Hc. }
        rewrite Hlen. assert (Hst : Forall (fun st => st p = None) (ep_steps (ep_of l))).
        { rewrite Forall_forall. intros st Hst. destruct (st p) as [v|] eqn:Ev; [|done]. exfalso. apply Hnp. by apply (Hs st p v). }
        revert Hst. generalize (ep_steps (ep_of l)). induction 1 as [|st sts E1 _ IH]; [done|]. cbn. by rewrite IH, E1.
    + intros st p v H1 H2. apply elem_of_app. left. by apply (Hs st p v).
    + intros d partial call p H1 H2. apply elem_of_app. left. by apply (Hk d partial call p).
    + intros H. specialize (Hne H). destruct ps; [done|]. done.
  - unfold update_structure. by destruct (foldl _ _ _).
Qed.

(** ** Appending *)

Lemma add_refs_lookup open (cols : list (list (option R))) refs cols' : add_refs open cols refs = Some cols' -> length refs = length cols ->
  length cols' = length cols /\
  forall i c r, cols !! i = Some c -> refs !! i = Some r -> exists c', cols' !! i = Some c' /\
    (if open then match r with Some r => set_last (R := R) c r | None => Some c end else Some (c ++ [r])) = Some c'.
Proof.
  revert refs cols'. induction cols as [|c cols IH]; intros [|r refs] cols'; cbn; try done.
  - intros [= <-] _. done.
  - destruct (if open then _ else _) as [c'|] eqn:E; [|done]. cbn. destruct (add_refs open cols refs) as [cs|] eqn:E2; [|done]. cbn.
    intros [= <-] Hl. injection Hl as Hl. destruct (IH refs cs E2 Hl) as [H1 H2]. split; [cbn; by rewrite H1|].
    intros [|i] x y; cbn; [|apply H2]. intros [= <-] [= <-]. by exists c'.
Qed.
Lemma add_refs_some open (cols : list (list (option R))) refs :
  (open = true -> forall i c r, cols !! i = Some c -> refs !! i = Some (Some r) -> can_set_last c = true) ->
  is_Some (add_refs open cols refs).
Proof.
  revert refs. induction cols as [|c cols IH]; intros [|r refs] H; cbn; try (by eexists).
  assert (H1 : is_Some (if open then match r with Some r => set_last (R := R) c r | None => Some c end else Some (c ++ [r]))).
  { destruct open; [|by eexists]. destruct r as [r|]; [|by eexists]. specialize (H eq_refl 0%nat c r eq_refl eq_refl).
    unfold can_set_last in H. unfold set_last. destruct (last c) as [[]|]; [done|by eexists|done]. }
  destruct H1 as [c' ->]. cbn. destruct (IH refs) as [cs ->]; [|by eexists]. intros Ho i x y Hx Hy. apply (H Ho (S i) x y Hx Hy).
Qed.

Lemma last_fmap_eq {A B} (f : A -> B) l : last (f <$> l) = f <$> last l.
Proof. apply fmap_last. Qed.

Lemma set_last_val (c c' : list (option R)) r xs y :
  set_last c r = Some c' -> fmap (M := option) val <$> c = xs ++ [y] -> fmap (M := option) val <$> c' = xs ++ [Some (val r)] /\ y = None.
Proof.
  unfold set_last. destruct (last c) as [[]|] eqn:E; try done. intros [= <-] Hc.
  apply last_Some in E as [c0 ->]. rewrite fmap_app in Hc. cbn in Hc. apply app_inj_tail in Hc as [<- <-].
  split; [|done]. rewrite app_length. cbn. rewrite Nat.add_1_r. cbn.
  rewrite insert_app_r_alt by lia. rewrite Nat.sub_diag. cbn. by rewrite fmap_app.
Qed.

Lemma mid_append_inv top l w ps (d : ptree (option V)) :
  inv top l w ps -> wf_tree d -> is_leaf d = top ->
  let w1 := match w_struct w with PLeaf _ => update_structure w (tmap (fun _ => tt) d) | _ => w end in
  exists ps1, inv top l w1 ps1 /\ forall w2 s, w2 = update_structure w1 s -> tree_union (w_struct w1) (tmap (fun _ => tt) d) = Some s ->
    exists ps2, inv top l w2 ps2.
Proof.
  intros Hinv Hd Htop w1.
  assert (H1 : exists ps1, inv top l w1 ps1 /\ is_leaf (w_struct w1) = top).
  { unfold w1. destruct (w_struct w) as [u|la|la|la] eqn:Es.
    - destruct (update_inv top l w ps (tmap (fun _ => tt) d)) as (ps' & H1 & _ & _ & Hst); [done|by apply wf_tmap|by destruct d| |].
      + destruct (k_struct _ _ _ (v_core _ _ _ _ Hinv)) as [[-> _]|(HP & _ & Ht)]; [by left|]. right. intros p Hp.
        rewrite Es in HP, Ht. cbn in HP. rewrite <- HP in Hp. apply elem_of_list_singleton in Hp as ->. rewrite paths_tmap.
        rewrite <- Ht in Htop. destruct d; try done. apply elem_of_list_here.
      + exists ps'. split; [done|]. rewrite Hst. by destruct d.
    - exists ps. split; [done|]. destruct (k_struct _ _ _ (v_core _ _ _ _ Hinv)) as [[-> E]|(_ & _ & Ht)]; [by rewrite Es in E|done].
    - exists ps. split; [done|]. destruct (k_struct _ _ _ (v_core _ _ _ _ Hinv)) as [[-> E]|(_ & _ & Ht)]; [by rewrite Es in E|done].
    - exists ps. split; [done|]. destruct (k_struct _ _ _ (v_core _ _ _ _ Hinv)) as [[-> E]|(_ & _ & Ht)]; [by rewrite Es in E|done]. }
  destruct H1 as (ps1 & H1 & Hlf). exists ps1. split; [done|]. intros w2 s -> Eu.
  pose proof (k_wf _ _ _ (v_core _ _ _ _ H1)) as Hw1.
  destruct (tree_union_spec _ _ _ Hw1 (wf_tmap _ _ Hd) Eu) as [Hs Hcov].
  destruct (update_inv top l w1 ps1 s) as (ps' & H2 & _); [done|done| | |by exists ps'].
  - revert Eu. clear -Hlf Htop. rewrite <- Hlf. destruct (w_struct w1) as [u|la|la|la]; cbn [tree_union].
    + by intros [= <-].
    + destruct (tmap _ _) as [|lb|lb|lb]; try done. by destruct (merge_dicts _ _ _); [intros [= <-]|].
    + destruct (tmap _ _) as [|lb|lb|lb]; try done. destruct (forallb _ _); [|done]. by destruct (merge_dicts _ _ _); [intros [= <-]|].
    + destruct (tmap _ _) as [|lb|lb|lb]; try done; by destruct (zip_union _ _); [intros [= <-]|].
  - destruct (k_struct _ _ _ (v_core _ _ _ _ H1)) as [[-> _]|(HP & _ & _)]; [by left|]. right. intros p Hp. rewrite <- HP in Hp.
    apply (paths_spec _ _ Hw1) in Hp as [u Hu]. apply (paths_spec _ _ Hs). destruct (Hcov p) as [u' Hu']; [by eexists|]. by exists u'.
Qed.

(** An event that changes neither the steps nor the configuration. *)
Lemma inv_quiet top l w ps er : inv top l w ps -> ep_step (ep_of l) er = ep_of l -> cfg_step (cfg_of l) er = cfg_of l -> snd er <> PyOk ->
  inv top (l ++ [er]) w ps.
Proof.
  intros [Hcore Hcfg Ho Hc Hs Hk Hne] E1 E2 Hr. constructor; rewrite ?ep_of_snoc, ?cfg_of_snoc, ?E1, ?E2; try done.
  intros d partial call p [H|H]%elem_of_app Hp; [by apply (Hk d partial call)|]. apply elem_of_list_singleton in H as <-. done.
Qed.

Lemma append_inv top l w ps d partial call r w' :
  inv top l w ps -> py_ok top l (EAppend d partial call) -> append w d partial call = (r, w') ->
  r <> PyRuntimeError /\ exists ps', inv top (l ++ [(EAppend d partial call, r)]) w' ps'.
Proof.
  intros Hinv (Hd & Hh & Htop & pl & Hpl) E. unfold append in E.
  destruct (mid_append_inv top l w ps d Hinv Hd Htop) as (ps1 & H1 & Hun). revert E.
  set (w1 := match w_struct w with PLeaf _ => update_structure w (tmap (fun _ => tt) d) | _ => w end) in *.
  (* after the first half *)
  assert (Hgo : forall w2 ps2 fd, inv top l w2 ps2 -> reorder w2 d = Some fd ->
    (if negb (step_free w2 fd) then (PyValueError, w2)
     else match call fd with
      | None => (PyCxxError, w2)
      | Some refs => match add_refs (w_open w2) (w_cols w2) refs with
        | None => (PyRuntimeError, w2)
        | Some cols => (PyOk, mkPw (w_struct w2) cols (w_paths w2) (w_flat w2) (w_config w2) partial (w_cxx w2)) end end) = (r, w') ->
    r <> PyRuntimeError /\ exists ps', inv top (l ++ [(EAppend d partial call, r)]) w' ps').
  { intros w2 ps2 fd H2 Ef. destruct (reorder_spec w2 ps2 d fd (k_map _ _ _ (v_core _ _ _ _ H2)) (k_size _ _ _ (v_core _ _ _ _ H2)) Hd Ef) as (Hlf & Hfd & Hin).
    destruct (step_free w2 fd) eqn:Efree; cbn [negb]; [|intros [= <- <-]; split; [done|]; exists ps2; by apply inv_quiet].
    destruct (call fd) as [refs|] eqn:Ecall; [|intros [= <- <-]; split; [done|]; exists ps2; by apply inv_quiet].
    pose proof (Hh fd refs Ecall) as Hval.
    assert (Hlr : length refs = length fd) by (rewrite <- Hval; by rewrite fmap_length).
    destruct H2 as [Hcore Hcfg Ho Hc Hs Hk Hne]. pose proof (k_len _ _ _ Hcore) as Hlc.
    assert (Hcan : w_open w2 = true -> forall i c rf, w_cols w2 !! i = Some c -> refs !! i = Some (Some rf) -> can_set_last c = true).
    { intros Hop i c rf Hci Hri. unfold step_free in Efree. rewrite Hop in Efree. cbn in Efree. rewrite forallb_forall in Efree.
      assert (Hfi : fd !! i = Some (Some (val rf))). { rewrite <- Hval. by rewrite list_lookup_fmap, Hri. }
      specialize (Efree (c, Some (val rf))). cbn in Efree. apply Efree. apply elem_of_list_In. apply elem_of_list_lookup. exists i.
      rewrite lookup_zip_with. rewrite Hci. cbn. by rewrite Hfi. }
    destruct (add_refs_some (w_open w2) (w_cols w2) refs Hcan) as [cols Ecols]. rewrite Ecols. intros [= <- <-]. split; [done|].
    destruct (add_refs_lookup _ _ _ _ Ecols) as [Hl2 Hlook]; [lia|].
    exists ps2. constructor; cbn.
    - destruct Hcore. constructor; cbn; try done. lia.
    - rewrite cfg_of_snoc. done.
    - rewrite ep_of_snoc. cbn. by destruct partial.
    - intros i p c' Hp Hc'. rewrite ep_of_snoc.
      assert (Hi : exists c, w_cols w2 !! i = Some c). { apply lookup_lt_is_Some. apply lookup_lt_Some in Hp. lia. }
      destruct Hi as [c Hci]. assert (Hi : exists rf, refs !! i = Some rf). { apply lookup_lt_is_Some. apply lookup_lt_Some in Hp. lia. }
      destruct Hi as [rf Hri]. destruct (Hlook i c rf Hci Hri) as (c2 & Hc2 & Ec2). rewrite Hc' in Hc2. injection Hc2 as <-.
      assert (Hv : fmap val rf = value_at d p).
      { pose proof (Hfd i p Hp) as H. rewrite <- Hval, list_lookup_fmap, Hri in H. cbn in H. by injection H. }
      pose proof (Hc i p c Hp Hci) as Hold. rewrite Ho in Ec2.
      destruct (ep_cur (ep_of l)) as [st|] eqn:Ecur.
      + assert (Hst : ep_steps (ep_of l) = ep_done (ep_of l) ++ [st]) by (unfold ep_steps; by rewrite Ecur).
        rewrite Hst, fmap_app in Hold. cbn in Hold.
        assert (Hnew : ep_steps (ep_step (ep_of l) (EAppend d partial call, PyOk)) = ep_done (ep_of l) ++ [fun p => match value_at d p with Some v => Some v | None => st p end]).
        { unfold ep_steps, ep_step. rewrite Ecur. destruct partial; cbn; [done|by rewrite app_nil_r]. }
        rewrite Hnew, fmap_app. cbn. destruct rf as [rf|].
        * apply (set_last_val c c' rf) in Hold as [-> _]; [|done]. rewrite <- Hv. done.
        * injection Ec2 as <-. rewrite <- Hv. cbn. done.
      + assert (Hst : ep_steps (ep_of l) = ep_done (ep_of l)) by (unfold ep_steps; rewrite Ecur; apply app_nil_r).
        rewrite Hst in Hold. injection Ec2 as <-.
        assert (Hnew : ep_steps (ep_step (ep_of l) (EAppend d partial call, PyOk)) = ep_done (ep_of l) ++ [fun p => match value_at d p with Some v => Some v | None => None end]).
        { unfold ep_steps, ep_step. rewrite Ecur. destruct partial; cbn; [done|by rewrite app_nil_r]. }
        rewrite Hnew, !fmap_app, Hold. cbn. rewrite Hv. by destruct (value_at d p).
    - intros st p v. rewrite ep_of_snoc. intros Hst Ev.
      assert (Hst' : st ∈ ep_steps (ep_of l) \/ st = (fun p => match value_at d p with Some v => Some v | None => st ← ep_cur (ep_of l); st p end)).
      { revert Hst. unfold ep_steps, ep_step. destruct partial; cbn; rewrite ?app_nil_r, ?elem_of_app, ?elem_of_list_singleton; tauto. }
      destruct Hst' as [H|H]; [by apply (Hs st p v)|]. subst st. destruct (value_at d p) as [v'|] eqn:Evd.
      + apply Hin. apply (paths_spec d p Hd). unfold value_at in Evd. destruct (at_path d p) as [x|]; [by exists x|done].
      + destruct (ep_cur (ep_of l)) as [st|] eqn:Ecur; [|done]. apply (Hs st p v); [|done]. unfold ep_steps. rewrite Ecur. apply elem_of_app. right. apply elem_of_list_here.
    - intros d' partial' call' p [H|H]%elem_of_app Hp; [by apply (Hk d' partial' call')|]. apply elem_of_list_singleton in H.
      injection H as -> -> ->. apply Hin. apply (paths_spec d p Hd). destruct Hp as [x Hx]. by exists x.
    - intros _ ->. assert (Hx : pl ∈ paths d) by (apply (paths_spec d pl Hd); destruct Hpl as [x Hx]; by exists x). apply Hin in Hx. by apply elem_of_nil in Hx. }
  destruct (reorder w1 d) as [fd|] eqn:Ef; [by apply (Hgo w1 ps1)|].
  destruct (tree_union (w_struct w1) (tmap (fun _ => tt) d)) as [s|] eqn:Eu.
  - destruct (Hun (update_structure w1 s) s eq_refl eq_refl) as [ps2 H2].
    destruct (reorder (update_structure w1 s) d) as [fd|] eqn:Ef2; [by apply (Hgo _ ps2)|].
    intros [= <- <-]. split; [done|]. exists ps2. by apply inv_quiet.
  - intros [= <- <-]. split; [done|]. exists ps1. by apply inv_quiet.
Qed.

Lemma trace_inv top l w : py_trace top l w -> exists ps, inv top l w ps.
Proof.
  induction 1 as [|l w e r w' Ht [ps IH] Hok E].
  - exists []. split.
    + constructor; try done; [constructor|constructor|by left].
    + split; [done|]. split; done.
    + done.
    + intros i p c H. by rewrite lookup_nil in H.
    + intros st p v H. by apply elem_of_nil in H.
    + intros d partial call p H. by apply elem_of_nil in H.
    + done.
  - destruct e as [d partial call|clear ok|p o ok]; cbn [py_step] in E.
    + by apply (append_inv top l w ps) in E as [_ H].
    + unfold end_episode in E. destruct ok; cbn [negb] in E; [|injection E as <- <-; exists ps; apply inv_quiet; [done|by destruct clear|done|done]].
      cbn in Hok. specialize (Hok eq_refl). injection E as <- <-. exists ps. destruct IH as [Hcore Hcfg Ho Hc Hs Hk Hne].
      assert (Hk' : forall d partial call p, (EAppend d partial call, PyOk) ∈ l ++ [(EEnd clear true, PyOk)] -> is_Some (at_path d p) -> p ∈ ps).
      { intros d partial call p [H|H]%elem_of_app Hp; [by apply (Hk d partial call)|]. apply elem_of_list_singleton in H. done. }
      rewrite Hok in Ho. destruct clear.
      * constructor; rewrite ?ep_of_snoc, ?cfg_of_snoc; cbn; try done.
        -- destruct Hcore. constructor; cbn; try done. by rewrite List.map_length.
        -- intros i p c Hp Hci. change (List.map ?f ?x) with (f <$> x) in Hci. rewrite list_lookup_fmap in Hci. destruct (w_cols w !! i); [|done]. by injection Hci as <-.
        -- intros st p v Hst. by apply elem_of_nil in Hst.
      * assert (Est : ep_steps (ep_step (ep_of l) (EEnd false true, PyOk)) = ep_steps (ep_of l)) by (unfold ep_step, ep_steps; cbn; by rewrite !app_nil_r).
        constructor; rewrite ?ep_of_snoc, ?cfg_of_snoc, ?Est; try done.
        intros i p c Hp Hci. rewrite Est. by apply (Hc i p).
    + unfold configure in E. destruct (w_paths w !! p) as [c|] eqn:Ep.
      * destruct ok; injection E as <- <-; exists ps; [|by apply inv_quiet].
        destruct IH as [Hcore Hcfg Ho Hc Hs Hk Hne]. constructor; rewrite ?ep_of_snoc, ?cfg_of_snoc; cbn; try done.
        -- destruct Hcore. by constructor.
        -- destruct Hcfg as (Hc1 & Hc2 & Hc3). split; [|split].
           ++ intros q c'. intros Hq. destruct (decide (q = p)) as [->|Hqp].
              ** rewrite Ep in Hq. injection Hq as <-. by rewrite lookup_insert.
              ** rewrite lookup_insert_ne; [by apply Hc1|]. intros <-. apply Hqp. apply (k_map _ _ _ Hcore) in Hq, Ep. congruence.
           ++ intros q Hq. destruct (decide (q = p)) as [->|Hqp]; [congruence|]. by apply Hc2.
           ++ intros c' Hle. rewrite lookup_insert_ne; [by apply Hc3|]. intros <-. apply (k_map _ _ _ Hcore), lookup_lt_Some in Ep. rewrite (k_size _ _ _ Hcore) in Hle. lia.
        -- intros d partial call q [H|H]%elem_of_app Hp; [by apply (Hk d partial call)|]. apply elem_of_list_singleton in H. done.
      * injection E as <- <-. exists ps. destruct IH as [Hcore Hcfg Ho Hc Hs Hk Hne]. constructor; rewrite ?ep_of_snoc, ?cfg_of_snoc; cbn; try done.
        -- destruct Hcore. by constructor.
        -- destruct Hcfg as (Hc1 & Hc2 & Hc3). split; [|split; [|done]].
           ++ intros q c' Hq. destruct (decide (q = p)) as [->|Hqp]; [congruence|]. by apply Hc1.
           ++ intros q Hq. destruct (decide (q = p)) as [->|Hqp]; [by rewrite lookup_insert|]. rewrite lookup_insert_ne by done. by apply Hc2.
        -- intros d partial call q [H|H]%elem_of_app Hp; [by apply (Hk d partial call)|]. apply elem_of_list_singleton in H. done.
Qed.

(** ** C66 *)

(** Something has been appended. *)
Definition appended (l : list (ev * pres)) (p : ppath) : Prop :=
  exists d partial call, (EAppend d partial call, PyOk) ∈ l /\ is_Some (at_path d p).

Lemma mapM_lookup {A B} (f : A -> option B) l : (forall x, x ∈ l -> is_Some (f x)) -> exists l', mapM f l = Some l' /\ Forall2 (fun x y => f x = Some y) l l'.
Proof.
  intros H. assert (Hs : is_Some (mapM f l)). { apply mapM_is_Some. rewrite Forall_forall. done. }
  destruct Hs as [l' E]. exists l'. split; [done|]. by apply mapM_Some in E.
Qed.

(** [history] has a column for every path that was ever appended.  Entry i of a
    column refers to the value that step i has there, and is None if it has none:
    entries with the same index belong to the same step.  [episode_steps] counts
    the finished steps. *)
Theorem C66_history_partial top l w p0 : py_trace top l w -> appended l p0 ->
  episode_steps w = Z.of_nat (length (ep_done (ep_of l))) /\
  exists h, history w = Some h /\
    (forall p, appended l p -> is_Some (at_path h p)) /\
    (forall p c, at_path h p = Some c -> fmap (M := option) val <$> c = (fun st => st p) <$> ep_steps (ep_of l)).
Proof.
  intros Ht (d0 & pa0 & ca0 & Hin0 & Hp0). destruct (trace_inv top l w Ht) as [ps [Hcore Hcfg Ho Hc Hs Hk Hne]].
  pose proof (Hk _ _ _ _ Hin0 Hp0) as Hps0. destruct Hcore as [Hn Hm Hsz Hw Hl Hst].
  destruct Hst as [[-> _]|(HP & Hfl & _)]; [by apply elem_of_nil in Hps0|].
  assert (Hcne : w_cols w <> []). { intros E. rewrite E in Hl. destruct ps; [by apply elem_of_nil in Hps0|done]. }
  split.
  - unfold episode_steps. destruct (w_cols w) as [|c cs] eqn:Ew; [done|]. destruct ps as [|p ps]; [done|].
    specialize (Hc 0%nat p c eq_refl eq_refl). apply (f_equal length) in Hc. rewrite !fmap_length in Hc. rewrite Hc, Ho.
    unfold ep_steps. rewrite app_length. destruct (ep_cur (ep_of l)); cbn; lia.
  - assert (HL : length (paths (w_struct w)) = length ps) by (by apply Permutation_length).
    assert (Hcol : forall i, i ∈ seq 0 (length (w_cols w)) -> is_Some (c ← w_flat w !! i; w_cols w !! c)).
    { intros i Hi. apply elem_of_seq in Hi. rewrite Hfl. change (List.map ?f ?x) with (f <$> x). rewrite list_lookup_fmap.
      destruct (lookup_lt_is_Some_2 (paths (w_struct w)) i) as [p Hp]; [lia|]. rewrite Hp. cbn.
      assert (Hpin : p ∈ ps) by (rewrite <- HP; by apply elem_of_list_lookup_2 in Hp). apply elem_of_list_lookup in Hpin as [j Hj].
      rewrite (proj2 (Hm p j) Hj). cbn. apply lookup_lt_is_Some. apply lookup_lt_Some in Hj. lia. }
    destruct (mapM_lookup _ _ Hcol) as (hs & Ehs & Hhs). apply Forall2_length in Hhs as Hlen. rewrite seq_length in Hlen.
    destruct (unflatten_spec (w_struct w) hs Hw) as (h & Eh & Hwh & Hfh); [lia|].
    exists h. split; [|split].
    + unfold history. destruct (w_cols w) eqn:Ew; [done|]. rewrite <- Ew in *. rewrite Ehs. done.
    + intros p (d & pa & ca & Hin & Hp). pose proof (Hk _ _ _ _ Hin Hp) as Hpin. rewrite <- HP in Hpin. apply elem_of_list_lookup in Hpin as [i Hi].
      destruct (lookup_lt_is_Some_2 hs i) as [c Hci]; [apply lookup_lt_Some in Hi; lia|]. exists c. apply flat_spec; [done|]. rewrite Hfh.
      apply elem_of_list_lookup. exists i. rewrite lookup_zip_with, Hi. cbn. by rewrite Hci.
    + intros p c Hpc. apply flat_spec in Hpc; [|done]. rewrite Hfh in Hpc. apply elem_of_list_lookup in Hpc as [i Hi].
      rewrite lookup_zip_with in Hi. destruct (paths (w_struct w) !! i) as [q|] eqn:Eq; [|done]. cbn in Hi. destruct (hs !! i) as [c'|] eqn:Ec; [|done].
      injection Hi as -> ->. apply (Forall2_lookup_r _ _ _ _ _ Hhs) in Ec as (j & Hj & Ej). apply lookup_seq in Hj as [-> Hj]. cbn in Ej.
      rewrite Hfl in Ej. change (List.map ?f ?x) with (f <$> x) in Ej. rewrite list_lookup_fmap, Eq in Ej. cbn in Ej.
      assert (Hpin : p ∈ ps) by (rewrite <- HP; by apply elem_of_list_lookup_2 in Eq). apply elem_of_list_lookup in Hpin as [k Hk'].
      rewrite (proj2 (Hm p k) Hk') in Ej. cbn in Ej. by apply (Hc k p c).
Qed.

(** A field of the open step cannot be set twice. *)
Theorem C66_set_once_partial top l w d partial call r w' st p v v' :
  py_trace top l w -> py_ok top l (EAppend d partial call) -> ep_cur (ep_of l) = Some st -> st p = Some v -> value_at d p = Some v' ->
  append w d partial call = (r, w') -> r <> PyOk.
Proof.
  intros Ht Hok Hcur Hst Hv E ->. destruct (trace_inv top l w Ht) as [ps Hinv]. destruct Hok as (Hd & Hh & Htop & _).
  unfold append in E. destruct (mid_append_inv top l w ps d Hinv Hd Htop) as (ps1 & H1 & Hun). revert E.
  set (w1 := match w_struct w with PLeaf _ => update_structure w (tmap (fun _ => tt) d) | _ => w end) in *.
  assert (Hgo : forall w2 ps2 fd, inv top l w2 ps2 -> reorder w2 d = Some fd -> step_free w2 fd = false).
  { intros w2 ps2 fd [Hcore Hcfg Ho Hc Hs Hk Hne] Ef. destruct (reorder_spec w2 ps2 d fd (k_map _ _ _ Hcore) (k_size _ _ _ Hcore) Hd Ef) as (Hlf & Hfd & _).
    destruct (step_free w2 fd) eqn:Efree; [|done]. unfold step_free in Efree. rewrite Ho, Hcur in Efree. cbn in Efree. rewrite forallb_forall in Efree.
    assert (Hp : p ∈ ps2). { apply (Hs st p v); [|done]. unfold ep_steps. rewrite Hcur. apply elem_of_app. right. apply elem_of_list_here. }
    apply elem_of_list_lookup in Hp as [i Hi]. pose proof (k_len _ _ _ Hcore) as Hl.
    destruct (lookup_lt_is_Some_2 (w_cols w2) i) as [c Hci]; [apply lookup_lt_Some in Hi; lia|].
    specialize (Efree (c, Some v')). cbn in Efree. assert (Hcl : can_set_last c = true).
    { apply Efree. apply elem_of_list_In, elem_of_list_lookup. exists i. rewrite lookup_zip_with, Hci. cbn. rewrite (Hfd i p Hi). cbn. by rewrite Hv. }
    pose proof (Hc i p c Hi Hci) as Hval. unfold ep_steps in Hval. rewrite Hcur, fmap_app in Hval. cbn in Hval. rewrite Hst in Hval.
    unfold can_set_last in Hcl. apply (f_equal last) in Hval. rewrite last_snoc, fmap_last in Hval. destruct (last c) as [[|]|]; done. }
  destruct (reorder w1 d) as [fd|] eqn:Ef; [by rewrite (Hgo w1 ps1 fd)|].
  destruct (tree_union (w_struct w1) (tmap (fun _ => tt) d)) as [s|] eqn:Eu; [|done].
  destruct (Hun (update_structure w1 s) s eq_refl eq_refl) as [ps2 H2].
  destruct (reorder (update_structure w1 s) d) as [fd|] eqn:Ef2; [by rewrite (Hgo _ ps2 fd)|done].
Qed.

(** *** Indexing *)

Lemma all_refs_val (l : list (option R)) refs : all_refs l = Some refs <-> l = Some <$> refs.
Proof.
  unfold all_refs. rewrite mapM_Some. split.
  - induction 1 as [|x y l refs H _ IH]; [done|]. cbn. unfold id in H. by rewrite H, IH.
  - intros ->. induction refs as [|r refs IH]; [constructor|]. cbn. by constructor.
Qed.
Lemma all_refs_steps (c : list (option R)) (steps : list (ppath -> option V)) p refs :
  fmap (M := option) val <$> c = (fun st => st p) <$> steps -> all_refs c = Some refs ->
  (fun st => st p) <$> steps = (fun r => Some (val r)) <$> refs.
Proof. intros E H. apply all_refs_val in H as ->. rewrite <- E, <- list_fmap_compose. done. Qed.
Lemma all_refs_none (c : list (option R)) (steps : list (ppath -> option V)) p :
  fmap (M := option) val <$> c = (fun st => st p) <$> steps -> (all_refs c = None <-> exists st, st ∈ steps /\ st p = None).
Proof.
  intros E. destruct (all_refs c) as [refs|] eqn:Er.
  - split; [done|]. intros (st & H1 & H2). pose proof (all_refs_steps c steps p refs E Er) as H3.
    assert (H4 : st p ∈ (fun st => st p) <$> steps) by (apply (elem_of_list_fmap_1 (fun st => st p)); done). rewrite H3, H2 in H4.
    by apply elem_of_list_fmap in H4 as (r & ? & _).
  - split; [|done]. intros _. unfold all_refs in Er. apply eq_None_not_Some in Er. rewrite mapM_is_Some in Er.
    apply not_Forall_Exists in Er; [|intros x; apply _]. apply Exists_exists in Er as (x & Hx & Hn). unfold id in Hn. destruct x as [x|]; [exfalso; apply Hn; by eexists|].
    assert (H : None ∈ fmap (M := option) val <$> c) by (apply elem_of_list_fmap; by exists None). rewrite E in H. apply elem_of_list_fmap in H as (st & ? & ?). by exists st.
Qed.

(** history[p][-n:] passes to CreateItem references to the values of the last n
    steps, in order; it raises if one of them has no value there. *)
Theorem C66_last_partial top l w h p c n : py_trace top l w -> history w = Some h -> at_path h p = Some c -> (exists q, appended l q) ->
  (0 < n <= length (ep_steps (ep_of l)))%nat ->
  let steps := drop (length (ep_steps (ep_of l)) - n) (ep_steps (ep_of l)) in
  match col_slice c (Some (- Z.of_nat n)) None with
  | Some refs => (fun st => st p) <$> steps = (fun r => Some (val r)) <$> refs
  | None => exists st, st ∈ steps /\ st p = None
  end.
Proof.
  intros Ht Hh Hc [q Hq] Hn steps. destruct (C66_history_partial top l w q Ht Hq) as [_ (h' & Hh' & _ & Hv)]. rewrite Hh in Hh'. injection Hh' as <-.
  specialize (Hv p c Hc). assert (Hlen : length c = length (ep_steps (ep_of l))) by (apply (f_equal length) in Hv; by rewrite !fmap_length in Hv).
  unfold col_slice. assert (Hclip : clip (length c) (- Z.of_nat n) = (length c - n)%nat).
  { unfold clip. destruct (Z.ltb_spec (- Z.of_nat n) 0); lia. }
  rewrite Hclip. assert (E : fmap (M := option) val <$> take (length c - (length c - n)) (drop (length c - n) c) = (fun st => st p) <$> steps).
  { rewrite take_ge by (rewrite drop_length; lia). rewrite fmap_drop, Hv, Hlen. unfold steps. by rewrite fmap_drop. }
  destruct (all_refs _) as [refs|] eqn:Er; [by apply (all_refs_steps _ _ _ _ E)|]. by apply (all_refs_none _ _ _ E).
Qed.
(** history[p][-n] is the value of the n-th step from the end. *)
Theorem C66_index_partial top l w h p c n refs : py_trace top l w -> history w = Some h -> at_path h p = Some c -> (exists q, appended l q) ->
  (0 < n <= length (ep_steps (ep_of l)))%nat -> col_index c (- Z.of_nat n) = Some refs ->
  exists r st, refs = [r] /\ ep_steps (ep_of l) !! (length (ep_steps (ep_of l)) - n)%nat = Some st /\ st p = Some (val r).
Proof.
  intros Ht Hh Hc [q Hq] Hn. destruct (C66_history_partial top l w q Ht Hq) as [_ (h' & Hh' & _ & Hv)]. rewrite Hh in Hh'. injection Hh' as <-.
  specialize (Hv p c Hc). assert (Hlen : length c = length (ep_steps (ep_of l))) by (apply (f_equal length) in Hv; by rewrite !fmap_length in Hv).
  unfold col_index. destruct (Z.ltb_spec (- Z.of_nat n) 0); [|lia]. destruct (Z.ltb_spec (- Z.of_nat n + Z.of_nat (length c)) 0); [lia|].
  assert (Ei : Z.to_nat (- Z.of_nat n + Z.of_nat (length c)) = (length (ep_steps (ep_of l)) - n)%nat) by lia. rewrite Ei.
  set (i := (length (ep_steps (ep_of l)) - n)%nat). destruct (c !! i) as [x|] eqn:Ex; [|done]. cbn.
  destruct x as [r|]; [|done]. cbn. intros [= <-].
  assert (H1 : ((fmap (M := option) val <$> c) !! i) = Some (Some (val r))) by (by rewrite list_lookup_fmap, Ex).
  rewrite Hv, list_lookup_fmap in H1. destruct (ep_steps (ep_of l) !! i) as [st|] eqn:Est; [|done]. injection H1 as H1. by exists r, st.
Qed.

(** ** C67 *)

(** Runs without restriction: any data, calls that fail, episodes ended at any
    time. *)
Definition py_any (e : ev) : Prop := match e with EAppend d _ _ => wf_tree d | _ => True end.
Inductive any_trace : list (ev * pres) -> pw -> Prop :=
| any_nil : any_trace [] w_init
| any_snoc l w e r w' : any_trace l w -> py_any e -> py_step w e = (r, w') -> any_trace (l ++ [(e, r)]) w'.

Record inv0 (l : list (ev * pres)) (w : pw) (ps : list ppath) : Prop := {
  z_nodup : NoDup ps;
  z_map : forall p i, w_paths w !! p = Some i <-> ps !! i = Some p;
  z_size : size (w_paths w) = length ps;
  z_cfg : cfg_ok (w_paths w) (w_cxx w) (w_config w) (cfg_of l);
}.

Lemma update_inv0 l w ps new : inv0 l w ps -> exists ps', inv0 l (update_structure w new) ps' /\ ps `prefix_of` ps'.
Proof.
  intros [Hn Hm Hs Hc]. unfold update_structure. fold (paths new).
  destruct (add_paths_spec (w_config w) (cfg_of l) (paths new) (w_paths w) (w_cxx w) ps Hn Hm Hs Hc) as (m' & cx' & ps' & E & Hp & Hn' & Hm' & Hs' & Hc' & Hel).
  rewrite E. exists ps'. split; [|done]. by constructor.
Qed.
(** What an accepted append did. *)
Lemma append_shape l w ps (d : ptree (option V)) partial (call : cxx V R) r w' : inv0 l w ps -> append w d partial call = (r, w') ->
  exists ps', inv0 l w' ps' /\ ps `prefix_of` ps' /\ (r = PyOk -> exists fd refs, call fd = Some refs /\ reorder w' d = Some fd).
Proof.
  intros H0 E. unfold append in E. revert E.
  set (w1 := match w_struct w with PLeaf _ => update_structure w (tmap (fun _ => tt) d) | _ => w end) in *.
  assert (H1 : exists ps1, inv0 l w1 ps1 /\ ps `prefix_of` ps1). { unfold w1. destruct (w_struct w); try (by exists ps). by apply update_inv0. }
  destruct H1 as (ps1 & H1 & Hp1).
  assert (Hgo : forall w2 ps2 fd, inv0 l w2 ps2 -> ps `prefix_of` ps2 -> reorder w2 d = Some fd ->
    (if negb (step_free w2 fd) then (PyValueError, w2)
     else match call fd with
      | None => (PyCxxError, w2)
      | Some refs => match add_refs (w_open w2) (w_cols w2) refs with
        | None => (PyRuntimeError, w2)
        | Some cols => (PyOk, mkPw (w_struct w2) cols (w_paths w2) (w_flat w2) (w_config w2) partial (w_cxx w2)) end end) = (r, w') ->
    exists ps', inv0 l w' ps' /\ ps `prefix_of` ps' /\ (r = PyOk -> exists fd refs, call fd = Some refs /\ reorder w' d = Some fd)).
  { intros w2 ps2 fd H2 Hp2 Ef. destruct (step_free w2 fd); cbn [negb]; [|intros [= <- <-]; by exists ps2].
    destruct (call fd) as [refs|] eqn:Ec; [|intros [= <- <-]; by exists ps2].
    destruct (add_refs _ _ _) as [cols|]; intros [= <- <-]; exists ps2; (split; [|split; [done|]]); try done.
    - destruct H2. by constructor.
    - intros _. exists fd, refs. split; [done|]. unfold reorder in *. done. }
  destruct (reorder w1 d) as [fd|] eqn:Ef; [by apply (Hgo w1 ps1)|].
  destruct (tree_union (w_struct w1) (tmap (fun _ => tt) d)) as [s|] eqn:Eu; [|intros [= <- <-]; by exists ps1].
  destruct (update_inv0 l w1 ps1 s H1) as (ps2 & H2 & Hp2).
  destruct (reorder (update_structure w1 s) d) as [fd|] eqn:Ef2.
  - apply (Hgo _ ps2); [done|by etrans|done].
  - intros [= <- <-]. exists ps2. split; [done|]. split; [by etrans|done].
Qed.
Lemma step_inv0 l w ps e r w' : inv0 l w ps -> py_step w e = (r, w') -> exists ps', inv0 (l ++ [(e, r)]) w' ps' /\ ps `prefix_of` ps'.
Proof.
  intros H0 E. destruct e as [d partial call|clear ok|p o ok]; cbn [py_step] in E.
  - apply (append_shape l w ps) in E as (ps' & [Hn Hm Hs Hc] & Hp & _); [|done]. exists ps'. split; [|done]. constructor; try done.
    by rewrite cfg_of_snoc.
  - exists ps. split; [|done]. destruct H0 as [Hn Hm Hs Hc]. unfold end_episode in E. destruct ok; cbn [negb] in E.
    + injection E as <- <-. destruct clear; constructor; cbn; try done; by rewrite cfg_of_snoc.
    + injection E as <- <-. constructor; try done. rewrite cfg_of_snoc. done.
  - exists ps. split; [|done]. destruct H0 as [Hn Hm Hs Hcfg]. unfold configure in E. destruct (w_paths w !! p) as [c|] eqn:Ep.
    + destruct ok; injection E as <- <-; [|constructor; try done; by rewrite cfg_of_snoc].
      constructor; cbn; try done. rewrite cfg_of_snoc. cbn. destruct Hcfg as (Hc1 & Hc2 & Hc3). split; [|split].
      * intros q c'. intros Hq. destruct (decide (q = p)) as [->|Hqp].
        -- rewrite Ep in Hq. injection Hq as <-. by rewrite lookup_insert.
        -- rewrite lookup_insert_ne; [by apply Hc1|]. intros <-. apply Hqp. apply Hm in Hq, Ep. congruence.
      * intros q Hq. destruct (decide (q = p)) as [->|Hqp]; [congruence|]. by apply Hc2.
      * intros c' Hle. rewrite lookup_insert_ne; [by apply Hc3|]. intros <-. apply Hm, lookup_lt_Some in Ep. rewrite Hs in Hle. lia.
    + injection E as <- <-. constructor; cbn; try done. rewrite cfg_of_snoc. cbn. destruct Hcfg as (Hc1 & Hc2 & Hc3). split; [|split; [|done]].
      * intros q c' Hq. destruct (decide (q = p)) as [->|Hqp]; [congruence|]. by apply Hc1.
      * intros q Hq. destruct (decide (q = p)) as [->|Hqp]; [by rewrite lookup_insert|]. rewrite lookup_insert_ne by done. by apply Hc2.
Qed.
Lemma any_inv0 l w : any_trace l w -> exists ps, inv0 l w ps.
Proof.
  induction 1 as [|l w e r w' Ht [ps IH] Hok E].
  - exists []. constructor; [constructor|done|done|]. split; [done|]. by split.
  - apply (step_inv0 l w ps) in E as (ps' & H & _); [|done]. by exists ps'.
Qed.

(** An accepted append hands every value to the C++ writer, in a column that is
    set up with the last configuration of its path; nothing else is handed over,
    and two paths never share a column. *)
Theorem C67_configure l w d partial call w' : any_trace l w -> wf_tree d -> append w d partial call = (PyOk, w') ->
  exists fd refs col, call fd = Some refs /\
    (forall p v, value_at d p = Some v -> fd !! col p = Some (Some v) /\ w_cxx w' !! col p = cfg_of l p) /\
    (forall c v, fd !! c = Some (Some v) -> exists p, value_at d p = Some v /\ col p = c) /\
    (forall p q, is_Some (at_path d p) -> is_Some (at_path d q) -> col p = col q -> p = q).
Proof.
  intros Ht Hd E. destruct (any_inv0 l w Ht) as [ps H0]. destruct (append_shape l w ps d partial call PyOk w' H0 E) as (ps' & H1 & _ & Hok).
  destruct (Hok eq_refl) as (fd & refs & Ec & Er). destruct H1 as [Hn Hm Hs (Hc1 & _ & _)].
  destruct (reorder_spec w' ps' d fd Hm Hs Hd Er) as (Hlf & Hfd & Hin).
  exists fd, refs, (fun p => default 0%nat (w_paths w' !! p)). split; [done|].
  assert (Hcol : forall p, is_Some (at_path d p) -> exists i, w_paths w' !! p = Some i /\ ps' !! i = Some p).
  { intros p [x Hx]. assert (Hp : p ∈ ps') by (apply Hin, (paths_spec d p Hd); by exists x). apply elem_of_list_lookup in Hp as [i Hi]. exists i. split; [by apply Hm|done]. }
  split; [|split].
  - intros p v Hv. destruct (Hcol p) as (i & Hi & Hps); [unfold value_at in Hv; destruct (at_path d p); [by eexists|done]|]. rewrite Hi. cbn.
    split; [rewrite (Hfd i p Hps); by rewrite Hv|by apply Hc1].
  - intros c v Hv. destruct (lookup_lt_is_Some_2 ps' c) as [p Hp]; [apply lookup_lt_Some in Hv; lia|]. exists p.
    rewrite (Hfd c p Hp) in Hv. injection Hv as Hv. split; [done|]. by rewrite (proj2 (Hm p c) Hp).
  - intros p q Hp Hq. destruct (Hcol p Hp) as (i & Hi & Hpi). destruct (Hcol q Hq) as (j & Hj & Hqj). rewrite Hi, Hj. cbn. intros ->. congruence.
Qed.
(** The column of a path never changes. *)
Theorem C67_stable l w e r w' p c : any_trace l w -> py_step w e = (r, w') -> w_paths w !! p = Some c -> w_paths w' !! p = Some c.
Proof.
  intros Ht E Hp. destruct (any_inv0 l w Ht) as [ps H0]. destruct (step_inv0 l w ps e r w' H0 E) as (ps' & H1 & Hpre).
  apply (z_map _ _ _ H0) in Hp. apply (z_map _ _ _ H1). destruct Hpre as [k ->]. by apply lookup_app_l_Some.
Qed.
End Spec.

(** ** Violations *)

Section Refuted.
Notation ev := (pyev Z Z Z).
(** A C++ writer whose references are the values. *)
Definition call0 : cxx Z Z := fun fd => Some fd.
Lemma call0_honest : honest (fun r : Z => r) call0.
Proof. intros fd refs [= <-]. unfold call0. rewrite <- (list_fmap_id fd) at 2. apply list_fmap_ext. by intros i [x|]. Qed.

Definition da (v : Z) : ptree (option Z) := PDict [("a"%string, PLeaf (Some v))].
Definition play (l : list ev) : list pres * pw Z Z := foldl (fun s e => let '(r, w) := py_step (snd s) e in (fst s ++ [r], w)) ([], w_init) l.

(** An episode that is ended while a step is open: [episode_steps] is -1, and from
    then on no value can be appended, whatever the C++ writer does. *)
Theorem C66_open_end_refuted :
  let w := snd (play [EAppend (da 1) true call0; EEnd true true]) in
  fst (play [EAppend (da 1) true call0; EEnd true true]) = [PyOk; PyOk] /\
  episode_steps w = -1 /\
  forall v partial call, fst (append w (da v) partial call) = PyValueError.
Proof. split; [vm_compute; reflexivity|]. split; [vm_compute; reflexivity|]. intros v partial call. vm_compute. reflexivity. Qed.

(** A bare value first, a dictionary later: both are accepted, the second is not in
    the history, and the history cannot be read any more. *)
Theorem C66_bare_refuted :
  let s := play [EAppend (PLeaf (Some 1)) false call0; EAppend (da 2) false call0] in
  fst s = [PyOk; PyOk] /\ history (snd s) = None.
Proof. vm_compute. done. Qed.

(** Steps without any leaf are not counted before the first field is seen. *)
Theorem C66_empty_refuted :
  let s := play [EAppend (PDict []) false call0; EAppend (da 2) false call0] in
  fst s = [PyOk; PyOk] /\ episode_steps (snd s) = 1.
Proof. vm_compute. done. Qed.

(** The documentation of [end_episode] says that the buffers are reset also when
    the timeout is exceeded; they are not. *)
Theorem C66_timeout_refuted :
  let s := play [EAppend (da 1) false call0; EEnd true false] in
  fst s = [PyOk; PyCxxError] /\ episode_steps (snd s) = 1.
Proof. vm_compute. done. Qed.

(** ** Examples *)

(** The structure grows, a step is built from two calls, dictionaries are sorted:
    the columns are c, a, then b; the history is sorted by name. *)
Definition d1 : ptree (option Z) := PDict [("c"%string, PLeaf (Some 1)); ("a"%string, PSeq [PLeaf (Some 2); PLeaf (Some 3)])].
Definition d2 : ptree (option Z) := PDict [("b"%string, PNamed [("x"%string, PLeaf (Some 4))]); ("a"%string, PSeq [PLeaf (Some 5); PLeaf None])].
Definition d3 : ptree (option Z) := PDict [("c"%string, PLeaf (Some 6)); ("a"%string, PSeq [PLeaf None; PLeaf (Some 7)])].
Definition ev_demo : list ev :=
  [EConfigure [PStr "b"; PStr "x"] 77 true; EAppend d1 false call0; EAppend d2 true call0; EAppend d3 false call0; EAppend (da 9) false call0].
Example C66_example :
  let s := play ev_demo in
  fst s = [PyOk; PyOk; PyOk; PyOk; PyTypeError] /\
  history (snd s) = Some (PDict [("a"%string, PSeq [PLeaf [Some 2; Some 5]; PLeaf [Some 3; Some 7]]);
    ("b"%string, PNamed [("x"%string, PLeaf [None; Some 4])]); ("c"%string, PLeaf [Some 1; Some 6])]) /\
  episode_steps (snd s) = 2 /\ w_cxx (snd s) !! 3%nat = Some 77.
Proof. vm_compute. done. Qed.

Lemma play_trace l rs w : (forall k e, l !! k = Some e -> match e with EAppend d _ call => wf_tree d /\ honest (fun r : Z => r) call /\ is_leaf d = false /\ (exists p, is_Some (at_path d p)) | EEnd _ _ => False | _ => True end) ->
  play l = (rs, w) -> length rs = length l /\ py_trace (fun r : Z => r) false (zip l rs) w.
Proof.
  revert rs w. induction l as [|e l IH] using rev_ind; intros rs w Hok.
  - intros [= <- <-]. split; [done|constructor].
  - unfold play. rewrite foldl_app. cbn. fold (play l). destruct (play l) as [rs0 w0] eqn:E0. cbn.
    destruct (py_step w0 e) as [r w1] eqn:E1. intros [= <- <-].
    destruct (IH rs0 w0) as [Hl Ht]; [intros k e' Hk; apply (Hok k); by apply lookup_app_l_Some|done|].
    split; [rewrite !app_length; cbn; lia|]. rewrite zip_with_app by done. cbn. apply (py_snoc _ _ _ w0); [done| |done].
    specialize (Hok (length l) e). rewrite lookup_app_r, Nat.sub_diag in Hok by lia. specialize (Hok eq_refl). destruct e; try done.
Qed.

Ltac wf_tac := unfold d1, d2, d3, da; repeat (cbn; first [apply (bool_decide_unpack (NoDup _)); vm_compute; exact I | constructor]).
Lemma demo_ok k e : ev_demo !! k = Some e -> match e with EAppend d _ call => wf_tree d /\ honest (fun r : Z => r) call /\ is_leaf d = false /\ (exists p, is_Some (at_path d p)) | EEnd _ _ => False | _ => True end.
Proof.
  intros Hk. assert (Hin : e ∈ ev_demo) by (by apply elem_of_list_lookup_2 in Hk). clear Hk.
  assert (H1 : wf_tree d1) by wf_tac. assert (H2 : wf_tree d2) by wf_tac. assert (H3 : wf_tree d3) by wf_tac. assert (H4 : wf_tree (da 9)) by wf_tac.
  unfold ev_demo in Hin. apply elem_of_cons in Hin as [->|Hin]; [exact I|].
  apply elem_of_cons in Hin as [->|Hin]; [split; [exact H1|]; split; [apply call0_honest|]; split; [reflexivity|]; exists [PStr "c"]; by eexists|].
  apply elem_of_cons in Hin as [->|Hin]; [split; [exact H2|]; split; [apply call0_honest|]; split; [reflexivity|]; exists [PStr "b"; PStr "x"]; by eexists|].
  apply elem_of_cons in Hin as [->|Hin]; [split; [exact H3|]; split; [apply call0_honest|]; split; [reflexivity|]; exists [PStr "c"]; by eexists|].
  apply elem_of_cons in Hin as [->|Hin]; [split; [exact H4|]; split; [apply call0_honest|]; split; [reflexivity|]; exists [PStr "a"]; by eexists|].
  by apply elem_of_nil in Hin.
Qed.
Example C66_example_hypotheses : exists (l : list (ev * pres)) w, py_trace (fun r : Z => r) false l w /\ length (ep_steps (ep_of l)) = 2%nat /\
  appended l [PStr "b"; PStr "x"] /\ (exists h c, history w = Some h /\ at_path h [PStr "c"] = Some c /\ col_slice c (Some (-2)) None = Some [1; 6]).
Proof.
  exists (zip ev_demo (fst (play ev_demo))), (snd (play ev_demo)).
  assert (Hrs : fst (play ev_demo) = [PyOk; PyOk; PyOk; PyOk; PyTypeError]) by (vm_compute; reflexivity).
  split; [|split; [|split]].
  - apply (play_trace ev_demo); [exact demo_ok|]. destruct (play ev_demo). reflexivity.
  - rewrite Hrs. vm_compute. reflexivity.
  - exists d2, true, call0. split; [|by eexists]. rewrite Hrs. cbn. apply elem_of_list_further, elem_of_list_further, elem_of_list_here.
  - exists (PDict [("a"%string, PSeq [PLeaf [Some 2; Some 5]; PLeaf [Some 3; Some 7]]);
      ("b"%string, PNamed [("x"%string, PLeaf [None; Some 4])]); ("c"%string, PLeaf [Some 1; Some 6])]), [Some 1; Some 6].
    split; [vm_compute; reflexivity|]. split; vm_compute; reflexivity.
Qed.
Example C67_example : exists (l : list (ev * pres)) w w', any_trace l w /\ append w d2 true call0 = (PyOk, w') /\ wf_tree d2 /\ cfg_of (V := Z) (R := Z) l [PStr "b"; PStr "x"] = Some 77.
Proof.
  eexists [(EConfigure [PStr "b"; PStr "x"] 77 true, PyOk)], _, _. split; [|split; [|split; [|done]]].
  - apply (any_snoc [] w_init (EConfigure [PStr "b"; PStr "x"] 77 true)); [constructor|done|reflexivity].
  - vm_compute. reflexivity.
  - wf_tac.
Qed.
End Refuted.

Print Assumptions C66_history_partial.
Print Assumptions C66_set_once_partial.
Print Assumptions C66_last_partial.
Print Assumptions C66_index_partial.
Print Assumptions C66_open_end_refuted.
Print Assumptions C66_bare_refuted.
Print Assumptions C66_empty_refuted.
Print Assumptions C66_timeout_refuted.
Print Assumptions C67_configure.
Print Assumptions C67_stable.
