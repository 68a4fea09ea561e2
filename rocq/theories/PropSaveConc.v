(** Property C82: several Saves at the same time. *)
From stdpp Require Import sorting.
From Verif Require Import Base RateLimiter Selector Trajectory Table Checkpoint CkptDir EventLog TableProofs TableLog
  SelSpec TableSpec LogFacts PropTable CheckpointProofs PropCheckpoint PropSave SaveConc.

(** ** Specification *)

(** The entries without DONE in front of the newest one with DONE. *)
Fixpoint unfinished (fs : fsys) (ns : list Z) : nat :=
  match ns with
  | [] => 0
  | n :: ns => match fs !! n with Some d => if d_done d then 0 else S (unfinished fs ns) | None => S (unfinished fs ns) end
  end.
(** When a Save begins to delete, there are fewer than keep_latest of them.  These are
    directories of later Saves that are still running, or have failed. *)
Definition roomy (s : cst) (e : cev) : Prop :=
  match e with
  | CGo i None => forall v, sc_savers s !! i = Some v -> v_pos v = VList -> (unfinished (sc_fs s) (names_desc (sc_fs s)) < Z.to_nat (v_keep v))%nat
  | _ => True
  end.
(** The same in terms of calls: fewer than keep_latest of the Saves that began later have
    not returned with success (they are running, have failed or have died). *)
Definition succeeded (v : saver) : bool := match v_pos v with VReturned Ok => true | _ => false end.
Definition later (s : cst) (v : saver) : nat := length (List.filter (fun v' => (v_name v <? v_name v') && negb (succeeded v')) (sc_savers s)).
Definition few (s : cst) (e : cev) : Prop :=
  match e with
  | CGo i None => forall v, sc_savers s !! i = Some v -> v_pos v = VList -> (later s v < Z.to_nat (v_keep v))%nat
  | _ => True
  end.
(** No Save begins before the others have returned (or died). *)
Definition alone (s : cst) (e : cev) : Prop :=
  match e with CBegin _ _ _ _ _ => Forall (fun v => running v = false) (sc_savers s) | _ => True end.
Definition anything (s : cst) (e : cev) : Prop := True.

(** The newest checkpoint with DONE is the one of the Save [v], and it is complete. *)
Definition newest (s : cst) (v : saver) : Prop :=
  v ∈ sc_savers s /\ latest (sc_fs s) = Some (v_name v, full (v_ks v) (v_cs v)).

(** Its DONE has been written. *)
Definition past_done (v : saver) : Prop := match v_pos v with VList | VDelete _ | VFiles _ _ _ | VReturned Ok => True | _ => False end.

(** ** File systems that differ in one entry *)

Definition touch (fs fs' : fsys) (k : Z) : Prop := forall m, m <> k -> fs' !! m = fs !! m.
Definition undone (fs : fsys) (n : Z) : Prop := forall d, fs !! n = Some d -> d_done d = false.
Definition newer (fs : fsys) (n : Z) : Prop := forall N d, latest fs = Some (N, d) -> N < n.

Lemma latest_ext fs fs' : (forall n d, is_latest fs n d <-> is_latest fs' n d) -> latest fs' = latest fs.
Proof.
  intros H. destruct (latest fs) as [[n d]|] eqn:E.
  - apply C19_latest in E. apply C19_latest. by apply H.
  - destruct (latest fs') as [[n d]|] eqn:E'; [|done]. apply C19_latest, H, C19_latest in E'. congruence.
Qed.
Lemma latest_undone fs fs' k : touch fs fs' k -> undone fs k -> undone fs' k -> latest fs' = latest fs.
Proof.
  intros T U U'. apply latest_ext. intros n d.
  assert (Hl : forall m d, (fs' !! m = Some d /\ d_done d = true) <-> (fs !! m = Some d /\ d_done d = true)).
  { intros a b. destruct (decide (a = k)) as [->|Hne]; [|by rewrite T]. split; intros [Hb Hd]; [apply U' in Hb|apply U in Hb]; congruence. }
  unfold is_latest. split; intros (A & B & C).
  - destruct (proj2 (Hl n d) (conj A B)) as [A' B']. split; [done|]. split; [done|]. intros n' d' H1 H2. destruct (proj1 (Hl n' d') (conj H1 H2)) as [H3 H4]. by eapply C.
  - destruct (proj1 (Hl n d) (conj A B)) as [A' B']. split; [done|]. split; [done|]. intros n' d' H1 H2. destruct (proj2 (Hl n' d') (conj H1 H2)) as [H3 H4]. by eapply C.
Qed.
Lemma latest_behind fs fs' k N d : touch fs fs' k -> latest fs = Some (N, d) -> k < N -> latest fs' = Some (N, d).
Proof.
  intros T H Hk. apply C19_latest in H as (A & B & C). apply C19_latest. split; [rewrite T; [done|lia]|]. split; [done|].
  intros n' d' H1 H2. destruct (decide (n' = k)) as [->|Hne]; [lia|]. rewrite T in H1 by done. by eapply C.
Qed.
Lemma first_done_some fs ns n d : n ∈ ns -> fs !! n = Some d -> d_done d = true -> exists x, first_done fs ns = Some x.
Proof.
  induction ns as [|a ns IH]; intros Hn E Hd; [by apply elem_of_nil in Hn|]. cbn. destruct (fs !! a) as [da|] eqn:Ea.
  - destruct (d_done da) eqn:Eda; [by eexists|]. apply elem_of_cons in Hn as [->|Hn]; [congruence|by apply IH].
  - apply elem_of_cons in Hn as [->|Hn]; [congruence|by apply IH].
Qed.
Lemma latest_front fs fs' k d : touch fs fs' k -> newer fs k -> fs' !! k = Some d -> d_done d = true -> latest fs' = Some (k, d).
Proof.
  intros T H Hk Hd. apply C19_latest. split; [done|]. split; [done|]. intros n' d' H1 H2. destruct (decide (n' = k)) as [->|Hne]; [lia|]. rewrite T in H1 by done.
  destruct (latest fs) as [[N dN]|] eqn:E.
  - specialize (H _ _ E). apply C19_latest in E as (_ & _ & C). specialize (C _ _ H1 H2). lia.
  - exfalso. destruct (first_done_some fs (names_desc fs) n' d') as [x Hx]; [apply names_desc_elem; eauto|done|done|]. unfold latest in E. congruence.
Qed.

(** ** Invariant *)

Definition saved_by (fs : fsys) (n : Z) (l : list Z) : Prop := exists N d, latest fs = Some (N, d) /\ n <= N /\ Forall (fun m => m < N) l.
Definition sv_ok (fs : fsys) (v : saver) : Prop :=
  let n := v_name v in
  match v_pos v with
  | VTables => undone fs n /\ (newer fs n -> fs !! n = Some (mkDir None None false))
  | VTablesOpen => undone fs n /\ (newer fs n -> exists l, fs !! n = Some (mkDir (Some l) None false))
  | VChunks => undone fs n /\ (newer fs n -> fs !! n = Some (mkDir (Some (v_ks v)) None false))
  | VChunksOpen => undone fs n /\ (newer fs n -> exists l, fs !! n = Some (mkDir (Some (v_ks v)) (Some l) false))
  | VDone => undone fs n /\ (newer fs n -> fs !! n = Some (mkDir (Some (v_ks v)) (Some (v_cs v)) false))
  | VList => saved_by fs n []
  | VDelete l => saved_by fs n l
  | VFiles m _ l => saved_by fs n (m :: l)
  | VReturned Ok => saved_by fs n []
  | _ => True
  end.
Record cinv (s : cst) : Prop := {
  ci_nodup : NoDup (v_name <$> sc_savers s);
  ci_clock : Forall (fun v => v_name v <= sc_clock s) (sc_savers s);
  ci_dom : forall m, is_Some (sc_fs s !! m) -> m ∈ v_name <$> sc_savers s;
  ci_new : forall N d, latest (sc_fs s) = Some (N, d) -> exists v, v ∈ sc_savers s /\ v_name v = N /\ d = full (v_ks v) (v_cs v);
  ci_sv : Forall (sv_ok (sc_fs s)) (sc_savers s) }.

(** The newest checkpoint is only replaced by a newer one. *)
Definition onward (fs fs' : fsys) : Prop := forall N d, latest fs = Some (N, d) -> exists N' d', latest fs' = Some (N', d') /\ N <= N'.
Lemma onward_same fs fs' : latest fs' = latest fs -> onward fs fs'.
Proof. intros E N d H. exists N, d. rewrite E. split; [done|lia]. Qed.
Lemma newer_back fs fs' n : onward fs fs' -> newer fs' n -> newer fs n.
Proof. intros O H N d E. destruct (O _ _ E) as (N' & d' & E' & Hle). specialize (H _ _ E'). lia. Qed.
Lemma saved_on fs fs' n l : onward fs fs' -> saved_by fs n l -> saved_by fs' n l.
Proof.
  intros O (N & d & E & Hn & Hl). destruct (O _ _ E) as (N' & d' & E' & Hle). exists N', d'. split; [done|]. split; [lia|]. eapply Forall_impl; [exact Hl|]. cbn. lia.
Qed.
Lemma sv_ok_on fs fs' v : onward fs fs' -> (newer fs' (v_name v) -> fs' !! v_name v = fs !! v_name v) -> (undone fs (v_name v) -> undone fs' (v_name v)) -> sv_ok fs v -> sv_ok fs' v.
Proof.
  intros O F U. unfold sv_ok. destruct (v_pos v) as [| | | | | |l|m b l|[]|]; try done; try (by apply saved_on);
    (intros [H1 H2]; split; [by apply U|]; intros Hn; rewrite (F Hn); apply H2; by eapply newer_back).
Qed.

Lemma savers_update fs fs' savers i v p : savers !! i = Some v -> NoDup (v_name <$> savers) -> Forall (sv_ok fs) savers -> onward fs fs' ->
  (forall n, n ∈ v_name <$> savers -> n <> v_name v -> (newer fs' n -> fs' !! n = fs !! n) /\ (undone fs n -> undone fs' n)) ->
  sv_ok fs' (sv_at v p) -> Forall (sv_ok fs') (<[i := sv_at v p]> savers).
Proof.
  intros Hi N F O H Hp. apply Forall_forall. intros x (j & Hj)%elem_of_list_lookup. destruct (decide (i = j)) as [<-|Hij].
  - rewrite list_lookup_insert in Hj by (by eapply lookup_lt_Some). by injection Hj as <-.
  - rewrite list_lookup_insert_ne in Hj by done. rewrite Forall_forall in F. pose proof (F x (elem_of_list_lookup_2 _ _ _ Hj)) as Hx.
    destruct (H (v_name x)) as [H1 H2].
    + apply elem_of_list_fmap. exists x. split; [done|by eapply elem_of_list_lookup_2].
    + intros E. apply Hij. eapply (NoDup_lookup _ i j _ N); rewrite list_lookup_fmap; [by rewrite Hi|]. rewrite Hj. cbn. by rewrite E.
    + by eapply sv_ok_on.
Qed.
Lemma update_names (savers : list saver) (i : nat) v p : savers !! i = Some v -> v_name <$> <[i := sv_at v p]> savers = v_name <$> savers.
Proof. intros Hi. rewrite list_fmap_insert. apply list_insert_id. rewrite list_lookup_fmap, Hi. done. Qed.

Lemma cinv_update s i v p fs' : cinv s -> sc_savers s !! i = Some v -> (forall m, is_Some (fs' !! m) -> is_Some (sc_fs s !! m)) -> onward (sc_fs s) fs' ->
  (forall n, n ∈ v_name <$> sc_savers s -> n <> v_name v -> (newer fs' n -> fs' !! n = sc_fs s !! n) /\ (undone (sc_fs s) n -> undone fs' n)) ->
  (forall N d, latest fs' = Some (N, d) -> latest (sc_fs s) = Some (N, d) \/ N = v_name v /\ d = full (v_ks v) (v_cs v)) ->
  sv_ok fs' (sv_at v p) -> cinv (mkCst fs' (<[i := sv_at v p]> (sc_savers s)) (sc_clock s)).
Proof.
  intros [C1 C2 C3 C4 C5] Hi Hd O H Hl Hp.
  assert (Hin : forall x, x ∈ sc_savers s -> exists y, y ∈ <[i := sv_at v p]> (sc_savers s) /\ v_name y = v_name x /\ v_ks y = v_ks x /\ v_cs y = v_cs x).
  { intros x (j & Hj)%elem_of_list_lookup. destruct (decide (i = j)) as [<-|Hij].
    - exists (sv_at v p). rewrite Hi in Hj. injection Hj as ->. split; [|done]. eapply (elem_of_list_lookup_2 _ i). apply list_lookup_insert. by eapply lookup_lt_Some.
    - exists x. split; [|done]. eapply (elem_of_list_lookup_2 _ j). by rewrite list_lookup_insert_ne. }
  split; cbn.
  - by rewrite update_names.
  - apply Forall_insert; [done|]. cbn. rewrite Forall_forall in C2. apply C2. by eapply elem_of_list_lookup_2.
  - intros m Hm. rewrite update_names by done. by apply C3, Hd.
  - intros N d E. destruct (Hl _ _ E) as [E'|[-> ->]].
    + destruct (C4 _ _ E') as (x & Hx & <- & ->). destruct (Hin x Hx) as (y & Hy & <- & <- & <-). by exists y.
    + destruct (Hin v) as (y & Hy & E1 & <- & <-); [by eapply elem_of_list_lookup_2|]. by exists y.
  - by eapply savers_update.
Qed.

Lemma touch_other fs fs' k n : touch fs fs' k -> n <> k -> (newer fs' n -> fs' !! n = fs !! n) /\ (undone fs n -> undone fs' n).
Proof. intros T Hn. split; [intros _; by apply T|]. intros U d. rewrite T by done. apply U. Qed.
(** Own writes: the entry has no DONE before or after. *)
Lemma cinv_own s i v p fs' : cinv s -> sc_savers s !! i = Some v -> touch (sc_fs s) fs' (v_name v) -> undone (sc_fs s) (v_name v) -> undone fs' (v_name v) ->
  (is_Some (fs' !! v_name v) -> is_Some (sc_fs s !! v_name v)) -> sv_ok fs' (sv_at v p) ->
  cinv (mkCst fs' (<[i := sv_at v p]> (sc_savers s)) (sc_clock s)) /\ latest fs' = latest (sc_fs s).
Proof.
  intros C Hi T U U' Hd Hp. pose proof (latest_undone _ _ _ T U U') as L. split; [|done]. apply cinv_update; try done.
  - intros m. destruct (decide (m = v_name v)) as [->|Hne]; [done|by rewrite T].
  - by apply onward_same.
  - intros n _ Hn. by eapply touch_other.
  - intros N d. rewrite L. by left.
Qed.
(** Deletions: behind the newest one. *)
Lemma cinv_behind s i v p fs' m N d : cinv s -> sc_savers s !! i = Some v -> touch (sc_fs s) fs' m -> latest (sc_fs s) = Some (N, d) -> m < N ->
  (is_Some (fs' !! m) -> is_Some (sc_fs s !! m)) -> (undone (sc_fs s) m -> undone fs' m) -> sv_ok fs' (sv_at v p) ->
  cinv (mkCst fs' (<[i := sv_at v p]> (sc_savers s)) (sc_clock s)) /\ latest fs' = latest (sc_fs s).
Proof.
  intros C Hi T L Hm Hd U Hp. pose proof (latest_behind _ _ _ _ _ T L Hm) as L'. split; [|congruence]. apply cinv_update; try done.
  - intros k. destruct (decide (k = m)) as [->|Hne]; [done|by rewrite T].
  - apply onward_same. congruence.
  - intros n _ Hn. destruct (decide (n = m)) as [->|Hne]; [|by eapply touch_other]. split; [|done]. intros Hw. specialize (Hw _ _ L'). lia.
  - intros N' d'. rewrite L', L. by left.
Qed.

Lemma insert_touch (fs : fsys) n d : touch fs (<[n := d]> fs) n.
Proof. intros m Hm. by rewrite lookup_insert_ne. Qed.
Lemma alter_touch (fs : fsys) n f : touch fs (alter f n fs) n.
Proof. intros m Hm. by rewrite lookup_alter_ne. Qed.
Lemma delete_touch (fs : fsys) n : touch fs (delete n fs) n.
Proof. intros m Hm. by rewrite lookup_delete_ne. Qed.
Lemma alter_undone (fs : fsys) n f : (forall d, d_done (f d) = d_done d \/ d_done (f d) = false) -> undone fs n -> undone (alter f n fs) n.
Proof. intros Hf U d. rewrite lookup_alter. destruct (fs !! n) as [d'|] eqn:E; [|done]. cbn. intros [= <-]. destruct (Hf d') as [-> | ->]; [by apply U|done]. Qed.
Lemma alter_dom (fs : fsys) n f : is_Some (alter f n fs !! n) -> is_Some (fs !! n).
Proof. rewrite lookup_alter. by destruct (fs !! n). Qed.

(** The entries beyond the first keep_latest are behind the newest with DONE. *)
Lemma drop_behind fs ns n d k : StronglySorted Z.ge ns -> NoDup ns -> first_done fs ns = Some (n, d) -> (unfinished fs ns < k)%nat -> Forall (fun m => m < n) (drop k ns).
Proof.
  intros Hs. revert k. induction Hs as [|x ns Hs IH F]; intros k N E Hk; [done|]. apply NoDup_cons in N as [Hx N]. cbn in E, Hk. destruct k as [|k]; [lia|]. cbn [drop].
  destruct (fs !! x) as [dx|] eqn:Ex; [destruct (d_done dx) eqn:Ed|].
  - injection E as -> ->. apply Forall_drop, Forall_forall. intros m Hm. rewrite Forall_forall in F. specialize (F _ Hm). assert (m <> n) by (by intros ->). lia.
  - apply IH; [done|done|lia].
  - apply IH; [done|done|lia].
Qed.

Lemma cinv_step s e s' : cinv s -> sc_can e -> roomy s e -> sc_step s e = Some s' -> cinv s' /\ onward (sc_fs s) (sc_fs s').
Proof.
  intros C Hc Hr E. pose proof C as [C1 C2 C3 C4 C5]. destruct e as [n keep ks cs io|i io|i ks cs|i f|]; cbn [sc_step] in E.
  - destruct (Z.ltb_spec (sc_clock s) n) as [Hn|]; [|done].
    assert (NEW : n ∉ v_name <$> sc_savers s). { intros (v & -> & Hv)%elem_of_list_fmap. rewrite Forall_forall in C2. specialize (C2 _ Hv). lia. }
    assert (NONE : sc_fs s !! n = None). { destruct (sc_fs s !! n) eqn:Ed; [|done]. exfalso. apply NEW, C3. by eexists. }
    assert (G : forall fs' v, v_name v = n -> touch (sc_fs s) fs' n -> undone fs' n -> sv_ok fs' v -> cinv (mkCst fs' (sc_savers s ++ [v]) n) /\ onward (sc_fs s) fs').
    { intros fs' v Hv T U Hok. assert (L : latest fs' = latest (sc_fs s)) by (eapply latest_undone; [done| |done]; intros d; by rewrite NONE).
      split; [|by apply onward_same]. split; cbn.
      - rewrite fmap_app. apply NoDup_app. split; [done|]. split; [|apply NoDup_singleton]. intros x Hx Hx2. apply elem_of_list_singleton in Hx2 as ->. rewrite Hv in Hx. done.
      - apply Forall_app. split; [|constructor; [lia|done]]. eapply Forall_impl; [exact C2|]. cbn. lia.
      - intros m Hm. rewrite fmap_app. apply elem_of_app. destruct (decide (m = n)) as [->|Hne]; [right; apply elem_of_list_singleton; by rewrite Hv|]. rewrite T in Hm by done. left. by apply C3.
      - intros N d. rewrite L. intros (x & Hx & ?)%C4. exists x. split; [apply elem_of_app; by left|done].
      - apply Forall_app. split; [|constructor; [done|done]]. rewrite Forall_forall in C5 |- *. intros x Hx.
        assert (v_name x <> n) by (intros <-; apply NEW, elem_of_list_fmap; by exists x).
        destruct (touch_other _ _ _ _ T H). eapply sv_ok_on; [by apply onward_same| | |by apply C5]; done. }
    assert (U0 : undone (sc_fs s) n) by (intros d; by rewrite NONE).
    destruct (keep <=? 0); [|destruct io as [st|]]; injection E as <-.
    + apply G; [done|by intros m|done|done].
    + apply G; [done|by intros m|done|]. cbn. cbn in Hc. by destruct st.
    + assert (E1 : forall d, fs_op (sc_fs s) (FMkdir n) !! n = Some d -> d = mkDir None None false).
      { cbn [fs_op]. rewrite NONE. intros d. rewrite lookup_insert. by intros [= <-]. }
      assert (U1 : undone (fs_op (sc_fs s) (FMkdir n)) n) by (intros d Hd; by rewrite (E1 _ Hd)).
      apply G; [done| |done|]; [cbn [fs_op]; rewrite NONE; apply insert_touch|]. split; [exact U1|]. intros _. cbn. rewrite NONE. apply lookup_insert.
  - destruct (sc_savers s !! i) as [v|] eqn:Ei; [|done]. cbn [mbind option_bind] in E. destruct (running v) eqn:Er; [|done].
    pose proof (proj1 (Forall_lookup _ _) C5 i v Ei) as Hv. destruct io as [st|].
    { injection E as <-. cbn. split; [|by apply onward_same]. apply cinv_update; try done; [by apply onward_same|by left|]. cbn. cbn in Hc. by destruct st. }
    destruct (v_go (sc_fs s) v) as [[fs' p]|] eqn:Eg; [|done]. cbn [mbind option_bind] in E. injection E as <-. cbn [sc_fs].
    assert (SAME : forall p, sv_ok (sc_fs s) (sv_at v p) -> cinv (mkCst (sc_fs s) (<[i:=sv_at v p]> (sc_savers s)) (sc_clock s)) /\ onward (sc_fs s) (sc_fs s)).
    { intros q Hq. split; [|by apply onward_same]. apply cinv_update; try done; [by apply onward_same|by left]. }
    assert (OWN : forall fs' q, touch (sc_fs s) fs' (v_name v) -> undone (sc_fs s) (v_name v) -> undone fs' (v_name v) -> (is_Some (fs' !! v_name v) -> is_Some (sc_fs s !! v_name v)) ->
      (latest fs' = latest (sc_fs s) -> sv_ok fs' (sv_at v q)) -> cinv (mkCst fs' (<[i:=sv_at v q]> (sc_savers s)) (sc_clock s)) /\ onward (sc_fs s) fs').
    { intros fs1 q T U U' D Hq. destruct (cinv_own s i v q fs1 C Ei T U U' D) as [H1 H2]; [apply Hq; by eapply latest_undone|]. split; [done|by apply onward_same]. }
    assert (NW : forall fs', latest fs' = latest (sc_fs s) -> newer fs' (v_name v) -> newer (sc_fs s) (v_name v)) by (intros fs1 H1 H2 N d; rewrite <- H1; apply H2).
    unfold v_go in Eg. unfold sv_ok in Hv. destruct (v_pos v) as [| | | | | |[|m l]|m bad l|st|] eqn:Ep; try done.
    + destruct (sc_fs s !! v_name v) as [d|] eqn:Ed; injection Eg as <- <-; [|by apply SAME]. destruct Hv as [U Hw].
      apply OWN; [apply insert_touch|done|intros d'; rewrite lookup_insert; intros [= <-]; cbn; by apply U|intros _; try rewrite Ed; by eexists|]. intros L. split; cbn [v_name sv_at].
      * intros d'; rewrite lookup_insert; intros [= <-]; cbn; by apply U.
      * intros H%NW; [|done]. exists []. rewrite lookup_insert. apply Hw in H. try rewrite Ed in H. by injection H as ->.
    + injection Eg as <- <-. destruct Hv as [U Hw].
      assert (U' : undone (alter (write_tables (v_ks v)) (v_name v) (sc_fs s)) (v_name v)) by (apply alter_undone; [by left|done]).
      apply OWN; [apply alter_touch|done|done|apply alter_dom|]. intros L. split; [done|]. cbn. intros H%NW; [|done]. destruct (Hw H) as [l E]. rewrite lookup_alter, E. done.
    + destruct (sc_fs s !! v_name v) as [d|] eqn:Ed; injection Eg as <- <-; [|by apply SAME]. destruct Hv as [U Hw].
      apply OWN; [apply insert_touch|done|intros d'; rewrite lookup_insert; intros [= <-]; cbn; by apply U|intros _; try rewrite Ed; by eexists|]. intros L. split; cbn [v_name sv_at].
      * intros d'; rewrite lookup_insert; intros [= <-]; cbn; by apply U.
      * intros H%NW; [|done]. exists []. rewrite lookup_insert. apply Hw in H. try rewrite Ed in H. by injection H as ->.
    + injection Eg as <- <-. destruct Hv as [U Hw].
      assert (U' : undone (alter (write_chunks (v_cs v)) (v_name v) (sc_fs s)) (v_name v)) by (apply alter_undone; [by left|done]).
      apply OWN; [apply alter_touch|done|done|apply alter_dom|]. intros L. split; [done|]. cbn. intros H%NW; [|done]. destruct (Hw H) as [l E]. rewrite lookup_alter, E. done.
    + destruct (sc_fs s !! v_name v) as [d|] eqn:Ed; injection Eg as <- <-; [|by apply SAME]. destruct Hv as [U Hw]. cbn [fs_op].
      set (fs1 := alter _ _ _). assert (T : touch (sc_fs s) fs1 (v_name v)) by apply alter_touch.
      assert (E1 : fs1 !! v_name v = Some (mkDir (d_tables d) (d_chunks d) true)) by (unfold fs1; by rewrite lookup_alter, Ed).
      assert (DOM : forall m, is_Some (fs1 !! m) -> is_Some (sc_fs s !! m)).
      { intros m. destruct (decide (m = v_name v)) as [->|Hne]; [by rewrite Ed|by rewrite T]. }
      assert (OTH : forall n, n ∈ v_name <$> sc_savers s -> n <> v_name v -> (newer fs1 n -> fs1 !! n = sc_fs s !! n) /\ (undone (sc_fs s) n -> undone fs1 n)) by (intros n _ Hn; by eapply touch_other).
      assert (FRONT : newer (sc_fs s) (v_name v) \/ exists N dN, latest (sc_fs s) = Some (N, dN) /\ v_name v < N).
      { destruct (latest (sc_fs s)) as [[N dN]|] eqn:EL; [|left; intros N dN; by rewrite EL]. destruct (Z.lt_trichotomy N (v_name v)) as [H|[H|H]]; [left; intros N' dN'; rewrite EL; by intros [= <- <-]| |right; by exists N, dN].
        apply C19_latest in EL as (E2 & E3 & _). rewrite H in E2. apply U in E2. congruence. }
      destruct FRONT as [Hf|(N & dN & EL & HN)].
      * pose proof (latest_front _ _ _ _ T Hf E1 eq_refl) as L. specialize (Hw Hf). try rewrite Ed in Hw. injection Hw as ->. cbn in E1, L.
        assert (O : onward (sc_fs s) fs1). { intros N dN EL. eexists _, _. split; [exact L|]. specialize (Hf _ _ EL). lia. }
        split; [|done]. apply cinv_update; try done.
        -- intros N dN. rewrite L. intros [= <- <-]. by right.
        -- cbn. exists (v_name v), (full (v_ks v) (v_cs v)). split; [exact L|]. split; [lia|done].
      * pose proof (latest_behind _ _ _ _ _ T EL HN) as L. assert (O : onward (sc_fs s) fs1) by (apply onward_same; congruence).
        split; [|done]. apply cinv_update; try done.
        -- intros N' dN'. rewrite L, EL. by left.
        -- cbn. exists N, dN. split; [exact L|]. split; [lia|done].
    + injection Eg as <- <-. apply SAME. destruct Hv as (N & d & EL & Hn & _). exists N, d. split; [done|]. split; [done|]. eapply drop_behind; [apply names_desc_sorted|apply names_desc_nodup|exact EL|]. by eapply Hr.
    + injection Eg as <- <-. apply SAME. exact Hv.
    + destruct (sc_fs s !! m) as [d|] eqn:Ed; injection Eg as <- <-; apply SAME; [exact Hv|done].
    + destruct Hv as (N & dN & EL & Hn & [Hm Hl]%Forall_cons). destruct (sc_fs s !! m) as [d|] eqn:Ed; [|injection Eg as <- <-; by apply SAME].
      destruct (_ || _); [injection Eg as <- <-; by apply SAME|]. injection Eg as <- <-. cbn [fs_op].
      destruct (cinv_behind s i v (if bad then VReturned NotFound else VDelete l) (delete m (sc_fs s)) m N dN C Ei (delete_touch _ _) EL Hm) as [H1 H2].
      * by rewrite lookup_delete; intros [? ?].
      * intros _ d'. by rewrite lookup_delete.
      * destruct bad; [done|]. cbn. exists N, dN. split; [|done]. by eapply latest_behind; [apply delete_touch|..].
      * split; [done|by apply onward_same].
  - destruct (sc_savers s !! i) as [v|] eqn:Ei; [|done]. cbn [mbind option_bind] in E. pose proof (proj1 (Forall_lookup _ _) C5 i v Ei) as Hv.
    assert (EQ : forall fs', mkCst fs' (sc_savers s) (sc_clock s) = mkCst fs' (<[i := sv_at v (v_pos v)]> (sc_savers s)) (sc_clock s)).
    { intros fs'. f_equal. symmetry. apply list_insert_id. rewrite Ei. by destruct v. }
    unfold sv_ok in Hv. destruct (v_pos v) as [| | | | | |[|m l]|m bad l|st|] eqn:Ep; try done; injection E as <-; rewrite EQ; destruct Hv as [U Hw].
    + assert (T : touch (sc_fs s) (alter (write_tables ks) (v_name v) (sc_fs s)) (v_name v)) by apply alter_touch.
      assert (U' : undone (alter (write_tables ks) (v_name v) (sc_fs s)) (v_name v)) by (apply alter_undone; [by left|done]). pose proof (latest_undone _ _ _ T U U') as L.
      destruct (cinv_own s i v VTablesOpen (alter (write_tables ks) (v_name v) (sc_fs s)) C Ei T U U' (alter_dom _ _ _)) as [H1 H2].
      * split; [done|]. cbn. intros H. destruct Hw as [l Hl]; [intros N d; rewrite <- L; apply H|]. exists ks. by rewrite lookup_alter, Hl.
      * split; [done|by apply onward_same].
    + assert (T : touch (sc_fs s) (alter (write_chunks cs) (v_name v) (sc_fs s)) (v_name v)) by apply alter_touch.
      assert (U' : undone (alter (write_chunks cs) (v_name v) (sc_fs s)) (v_name v)) by (apply alter_undone; [by left|done]). pose proof (latest_undone _ _ _ T U U') as L.
      destruct (cinv_own s i v VChunksOpen (alter (write_chunks cs) (v_name v) (sc_fs s)) C Ei T U U' (alter_dom _ _ _)) as [H1 H2].
      * split; [done|]. cbn. intros H. destruct Hw as [l Hl]; [intros N d; rewrite <- L; apply H|]. exists cs. by rewrite lookup_alter, Hl.
      * split; [done|by apply onward_same].
  - destruct (sc_savers s !! i) as [v|] eqn:Ei; [|done]. cbn [mbind option_bind] in E. pose proof (proj1 (Forall_lookup _ _) C5 i v Ei) as Hv.
    assert (EQ : forall fs', mkCst fs' (sc_savers s) (sc_clock s) = mkCst fs' (<[i := sv_at v (v_pos v)]> (sc_savers s)) (sc_clock s)).
    { intros fs'. f_equal. symmetry. apply list_insert_id. rewrite Ei. by destruct v. }
    unfold sv_ok in Hv. destruct (v_pos v) as [| | | | | |[|m' l']|m bad l|st|] eqn:Ep; try done.
    assert (BAD : cinv (mkCst (sc_fs s) (<[i := sv_at v (VFiles m true l)]> (sc_savers s)) (sc_clock s)) /\ onward (sc_fs s) (sc_fs s)).
    { split; [|by apply onward_same]. apply cinv_update; try done; [by apply onward_same|by left]. }
    destruct (sc_fs s !! m) as [d|] eqn:Ed; [|by injection E as <-]. destruct (has_file d f); injection E as <-; [|done]. rewrite EQ. cbn [sc_fs].
    pose proof Hv as (N & dN & EL & Hn & [Hm Hl]%Forall_cons).
    assert (T : touch (sc_fs s) (fs_op (sc_fs s) (unlink_op f m)) m) by (destruct f; apply alter_touch).
    destruct (cinv_behind s i v (VFiles m bad l) (fs_op (sc_fs s) (unlink_op f m)) m N dN C Ei T EL Hm) as [H1 H2].
    + intros _. by rewrite Ed.
    + destruct f; apply alter_undone; auto.
    + cbn. exists N, dN. split; [by eapply latest_behind|]. split; [done|]. apply Forall_cons. done.
    + split; [done|by apply onward_same].
  - injection E as <-. cbn [sc_fs]. split; [|by apply onward_same].
    assert (N1 : v_name <$> ((fun v => if running v then sv_at v VKilled else v) <$> sc_savers s) = v_name <$> sc_savers s).
    { rewrite <- list_fmap_compose. apply list_fmap_ext. intros j v _. cbn. by destruct (running v). }
    split; cbn [sc_fs sc_savers sc_clock].
    + by rewrite N1.
    + apply Forall_fmap. eapply Forall_impl; [exact C2|]. intros v Hv. cbn. by destruct (running v).
    + by rewrite N1.
    + intros N d (v & Hv & H1 & H2)%C4. exists (if running v then sv_at v VKilled else v). split; [apply elem_of_list_fmap; by exists v|]. by destruct (running v).
    + apply Forall_fmap. eapply Forall_impl; [exact C5|]. intros v Hv. cbn. destruct (running v); [done|exact Hv].
Qed.

Lemma cinv_init : cinv sc_init.
Proof. split; cbn; [constructor|constructor| |done|constructor]. intros m [d E]. by rewrite lookup_empty in E. Qed.
Lemma cinv_trace s0 tr s : cinv s0 -> sc_trace roomy s0 tr s -> cinv s /\ onward (sc_fs s0) (sc_fs s).
Proof.
  intros C T. induction T as [|tr s e s' T [IH O] Hc Hr E]; [split; [done|by apply onward_same]|]. destruct (cinv_step _ _ _ IH Hc Hr E) as [H1 H2]. split; [done|].
  intros N d EL. destruct (O _ _ EL) as (N' & d' & EL' & Hle). destruct (H2 _ _ EL') as (N2 & d2 & EL2 & Hle2). exists N2, d2. split; [done|lia].
Qed.
Lemma newest_of s N d : cinv s -> latest (sc_fs s) = Some (N, d) -> exists v, newest s v /\ v_name v = N.
Proof. intros C E. destruct (ci_new _ C _ _ E) as (v & Hv & <- & ->). by exists v. Qed.

(** ** Theorems *)

(** Proved under [roomy]; what is missing is false, see C82_lost_refuted. *)
Theorem C82_safe_partial tr s v : sc_trace roomy sc_init tr s -> v ∈ sc_savers s -> past_done v ->
  exists v', newest s v' /\ v_name v <= v_name v'.
Proof.
  intros T Hv Hp. destruct (cinv_trace _ _ _ cinv_init T) as [C _]. pose proof (ci_sv _ C) as F. rewrite Forall_forall in F. specialize (F _ Hv).
  assert (H : exists l, saved_by (sc_fs s) (v_name v) l). { unfold sv_ok in F. unfold past_done in Hp. destruct (v_pos v) as [| | | | | |l|m b l|[]|]; try done; by eexists. }
  destruct H as (l & N & d & E & Hn & _). destruct (newest_of _ _ _ C E) as (v' & Hv' & <-). by exists v'.
Qed.

(** Whatever happens later, crashes included, the newest checkpoint is only replaced by a newer one. *)
Theorem C82_kept_partial tr s tr' s' v : sc_trace roomy sc_init tr s -> sc_trace roomy s tr' s' -> newest s v ->
  exists v', newest s' v' /\ v_name v <= v_name v'.
Proof.
  intros T T' [_ E]. destruct (cinv_trace _ _ _ cinv_init T) as [C _]. destruct (cinv_trace _ _ _ C T') as [C' O]. destruct (O _ _ E) as (N & d & E' & Hle).
  destruct (newest_of _ _ _ C' E') as (v' & Hv' & <-). by exists v'.
Qed.

(** The newest one can be loaded: with C17, a new server gets back the tables that this Save has found. *)
Theorem C82_restart {fp : FP} {laws : FPLaws fp} s v ts f ss :
  newest s v -> tables_reached ts -> chunks_consistent ts -> NoDup ts.*1 -> saved ts f -> v_ks v = f_tables f -> v_cs v = f_chunks f ->
  NoDup ss.*1 -> Forall (fun s => t_size s.2 = 0) ss -> (forall n, n ∈ ts.*1 -> n ∈ ss.*1) ->
  exists d f' ss', latest (sc_fs s) = Some (v_name v, d) /\ files_of d = Some f' /\ load f' ss = Some (Ok, ss') /\
    forall name t, (name, t) ∈ ts -> exists t', (name, t') ∈ ss' /\ same_table t t'.
Proof.
  intros [_ E] Hr Hc Hnt Hs E1 E2 Hns Hemp Hsub. destruct (C17_save_load ts f ss Hr Hc Hnt Hs Hns Hemp Hsub) as (ss' & El & _ & Ht & _).
  exists (full (v_ks v) (v_cs v)), f, ss'. split; [done|]. split; [rewrite E1, E2; cbn; destruct Hs as (Hdone & _); destruct f; cbn in *; by subst|].
  split; [done|]. intros name t Hin. destruct (Ht name t Hin) as (t' & ? & ? & _). eauto.
Qed.

(** *** [few] is enough *)
Fixpoint front (fs : fsys) (ns : list Z) : list Z :=
  match ns with
  | [] => []
  | n :: ns => match fs !! n with Some d => if d_done d then [] else n :: front fs ns | None => n :: front fs ns end
  end.
Lemma front_length fs ns : length (front fs ns) = unfinished fs ns.
Proof. induction ns as [|n ns IH]; [done|]. cbn. destruct (fs !! n) as [d|]; [destruct (d_done d)|]; cbn; congruence. Qed.
Lemma front_sub fs ns : front fs ns `sublist_of` ns.
Proof. induction ns as [|n ns IH]; [done|]. cbn. destruct (fs !! n) as [d|]; [destruct (d_done d)|]; [apply sublist_nil_l|by constructor..]. Qed.
Lemma front_nodup fs ns : NoDup ns -> NoDup (front fs ns).
Proof.
  induction ns as [|n ns IH]; [done|]. intros [Hn N]%NoDup_cons. cbn.
  assert (G : NoDup (n :: front fs ns)). { apply NoDup_cons. split; [|by apply IH]. intros H. apply Hn. eapply elem_of_submseteq; [exact H|]. apply sublist_submseteq, front_sub. }
  destruct (fs !! n) as [d|]; [destruct (d_done d)|]; [constructor|done..].
Qed.
Lemma front_above fs ns N d : StronglySorted Z.ge ns -> NoDup ns -> first_done fs ns = Some (N, d) -> Forall (fun m => N < m) (front fs ns).
Proof.
  intros Hs. induction Hs as [|x ns Hs IH F]; intros ND E; [done|]. apply NoDup_cons in ND as [Hx ND]. cbn in E |- *.
  assert (HN : first_done fs ns = Some (N, d) -> N < x).
  { intros E'. assert (Hin : N ∈ ns). { clear -E'. induction ns as [|a ns IH]; [done|]. cbn in E'. apply elem_of_cons. destruct (fs !! a) as [da|]; [destruct (d_done da)|]; [injection E' as <- <-; by left|right; by apply IH..]. }
    rewrite Forall_forall in F. pose proof (F _ Hin). assert (x <> N) by (by intros ->). lia. }
  destruct (fs !! x) as [dx|]; [destruct (d_done dx)|]; [done|constructor; [by apply HN|by apply IH]..].
Qed.
Lemma few_roomy s e : cinv s -> few s e -> roomy s e.
Proof.
  intros C. destruct e as [|i [st|]| | |]; try done. intros H v Hi Hp. specialize (H v Hi Hp). cbn.
  pose proof (ci_sv _ C) as F. rewrite Forall_forall in F. pose proof (F v (elem_of_list_lookup_2 _ _ _ Hi)) as Hv. unfold sv_ok in Hv. rewrite Hp in Hv. destruct Hv as (N & d & EL & Hn & _).
  eapply Nat.le_lt_trans; [|exact H]. rewrite <- front_length. unfold later. rewrite <- (fmap_length v_name). apply submseteq_length, NoDup_submseteq.
  { apply front_nodup, names_desc_nodup. }
  intros m Hm. pose proof (front_above _ _ _ _ (names_desc_sorted _) (names_desc_nodup _) EL) as FA. rewrite Forall_forall in FA. specialize (FA _ Hm).
  assert (Hm' : m ∈ names_desc (sc_fs s)) by (eapply elem_of_submseteq; [exact Hm|]; apply sublist_submseteq, front_sub).
  apply names_desc_elem, (ci_dom _ C), elem_of_list_fmap in Hm' as (x & -> & Hx). apply elem_of_list_fmap. exists x. split; [done|].
  apply elem_of_list_In, filter_In. split; [by apply elem_of_list_In|]. apply andb_true_intro. split; [apply Z.ltb_lt; lia|].
  specialize (F _ Hx). unfold sv_ok in F. unfold succeeded. destruct (v_pos x) as [| | | | | |l|a b l|[]|]; try done. destruct F as (N' & d' & EL' & Hn' & _). rewrite EL in EL'. injection EL' as <- <-. lia.
Qed.

Theorem C82_few tr s : sc_trace few sc_init tr s -> sc_trace roomy sc_init tr s.
Proof.
  intros T. induction T as [|tr s e s' T IH Hc Hf E]; [constructor|]. econstructor; [exact IH|done| |done]. apply few_roomy; [|done]. by apply (cinv_trace _ _ _ cinv_init IH).
Qed.

(** *** One Save at a time is enough *)
Definition ainv (s : cst) : Prop := forall i v, sc_savers s !! i = Some v -> running v = true ->
  v_name v = sc_clock s /\ 0 < v_keep v /\ forall j v', sc_savers s !! j = Some v' -> running v' = true -> j = i.
Lemma ainv_at s i v p fs' : ainv s -> sc_savers s !! i = Some v -> running v = true -> ainv (mkCst fs' (<[i := sv_at v p]> (sc_savers s)) (sc_clock s)).
Proof.
  intros A Hi Hr j v' Hj Hr'. cbn in *. destruct (A i v Hi Hr) as (H1 & H2 & H3).
  assert (HU : forall k x, <[i := sv_at v p]> (sc_savers s) !! k = Some x -> running x = true -> k = i).
  { intros k x Hk Hx. destruct (decide (k = i)) as [->|Hne]; [done|]. rewrite list_lookup_insert_ne in Hk by done. by eapply H3. }
  assert (j = i) as -> by (by eapply HU). rewrite list_lookup_insert in Hj by (by eapply lookup_lt_Some). injection Hj as <-. done.
Qed.
Lemma ainv_step s e s' : ainv s -> alone s e -> sc_step s e = Some s' -> ainv s'.
Proof.
  intros A Hal E. destruct e as [n keep ks cs io|i io|i ks cs|i f|]; cbn [sc_step] in E.
  - destruct (sc_clock s <? n); [|done]. cbn in Hal. rewrite Forall_forall in Hal.
    assert (G : forall fs' v, (running v = true -> v_name v = n /\ 0 < v_keep v) -> ainv (mkCst fs' (sc_savers s ++ [v]) n)).
    { intros fs' v Hv i x Hi Hx. cbn in *.
      assert (HU : forall k y, (sc_savers s ++ [v]) !! k = Some y -> running y = true -> k = length (sc_savers s) /\ y = v).
      { intros k y Hk Hy. apply lookup_app_Some in Hk as [Hk|[Hk1 Hk]]; [apply elem_of_list_lookup_2, Hal in Hk; congruence|]. apply list_lookup_singleton_Some in Hk as [Hk ->]. split; [lia|done]. }
      destruct (HU _ _ Hi Hx) as [-> ->]. destruct (Hv Hx) as [-> ?]. split; [done|]. split; [done|]. intros j y Hj Hy. by apply (HU j y). }
    destruct (Z.leb_spec keep 0); [|destruct io as [st|]]; injection E as <-; apply G; cbn; [done|done|]. intros _. split; [done|lia].
  - destruct (sc_savers s !! i) as [v|] eqn:Ei; [|done]. cbn [mbind option_bind] in E. destruct (running v) eqn:Er; [|done].
    destruct io as [st|]; [injection E as <-; by apply ainv_at|]. destruct (v_go (sc_fs s) v) as [[fs' p]|]; [|done]. cbn [mbind option_bind] in E. injection E as <-. by apply ainv_at.
  - destruct (sc_savers s !! i) as [v|] eqn:Ei; [|done]. cbn [mbind option_bind] in E. destruct (v_pos v); try done; injection E as <-; exact A.
  - destruct (sc_savers s !! i) as [v|] eqn:Ei; [|done]. cbn [mbind option_bind] in E. destruct (v_pos v) as [| | | | | | |m bad l| |] eqn:Ep; try done.
    assert (Hr : running v = true) by (unfold running; by rewrite Ep).
    destruct (sc_fs s !! m) as [d|]; [destruct (has_file d f)|]; injection E as <-; [exact A|by apply ainv_at..].
  - injection E as <-. intros i v Hi Hr. cbn in Hi. rewrite list_lookup_fmap in Hi. destruct (sc_savers s !! i) as [x|]; [|done]. cbn in Hi. injection Hi as <-. by destruct (running x) eqn:Ex; [|congruence].
Qed.
Theorem C82_one_at_a_time tr s : sc_trace alone sc_init tr s -> sc_trace few sc_init tr s.
Proof.
  intros T. assert (G : sc_trace few sc_init tr s /\ ainv s); [|apply G]. induction T as [|tr s e s' T [IH A] Hc Hal E]; [split; [constructor|]; intros i v Hi; done|].
  split; [|by eapply ainv_step]. econstructor; [exact IH|done| |done]. destruct e as [|i [st|]| | |]; try done. intros v Hi Hp.
  assert (Hr : running v = true) by (unfold running; by rewrite Hp). destruct (A i v Hi Hr) as (H1 & H2 & _).
  assert (later s v = 0%nat) as ->; [|lia]. destruct (cinv_trace _ _ _ cinv_init (C82_few _ _ IH)) as [C _]. pose proof (ci_clock _ C) as F. unfold later.
  rewrite H1. clear -F. induction F as [|x l Hx F IH]; [done|]. cbn. destruct (Z.ltb_spec (sc_clock s) (v_name x)); [lia|]. done.
Qed.

(** ** Concrete cases *)

Lemma sc_run_app s es es' : sc_run s (es ++ es') = s' ← sc_run s es; sc_run s' es'.
Proof. revert s. induction es as [|e es IH]; intros s; [done|]. cbn. destruct (sc_step s e); cbn; [apply IH|done]. Qed.
Lemma sc_run_trace s0 tr s : Forall sc_can tr -> sc_run s0 tr = Some s -> sc_trace anything s0 tr s.
Proof.
  revert s. induction tr as [|e tr IH] using rev_ind; intros s F E; [injection E as <-; constructor|]. rewrite sc_run_app in E. destruct (sc_run s0 tr) as [s1|]; [|done]. cbn in E.
  apply Forall_app in F as [F1 [F2 _]%Forall_cons]. destruct (sc_step s1 e) as [s2|] eqn:E2; [|done]. injection E as <-. econstructor; [by apply IH|done|done|done].
Qed.
(** Test of [few]. *)
Definition few_b (s : cst) (e : cev) : bool :=
  match e with
  | CGo i None => match sc_savers s !! i with Some v => match v_pos v with VList => (later s v <? Z.to_nat (v_keep v))%nat | _ => true end | None => true end
  | _ => true
  end.
Lemma few_b_ok s e : few_b s e = true -> few s e.
Proof. destruct e as [|i [st|]| | |]; try done. cbn. intros H v Hi Hp. rewrite Hi, Hp in H. by apply Nat.ltb_lt. Qed.
Fixpoint few_run (s : cst) (es : list cev) : bool :=
  match es with [] => true | e :: es => few_b s e && match sc_step s e with Some s' => few_run s' es | None => false end end.
Lemma few_run_app s es es' s' : sc_run s es = Some s' -> few_run s (es ++ es') = true -> few_run s es = true /\ few_run s' es' = true.
Proof.
  revert s. induction es as [|e es IH]; intros s E H; [by injection E as <-|]. cbn in E, H |- *. destruct (sc_step s e) as [s1|]; [|done]. cbn in E. apply andb_prop in H as [H1 H2]. rewrite H1. by apply IH.
Qed.
Lemma few_run_trace s0 tr s : Forall sc_can tr -> sc_run s0 tr = Some s -> few_run s0 tr = true -> sc_trace few s0 tr s.
Proof.
  revert s. induction tr as [|e tr IH] using rev_ind; intros s F E H; [injection E as <-; constructor|]. rewrite sc_run_app in E. destruct (sc_run s0 tr) as [s1|] eqn:E1; [|done]. cbn in E.
  destruct (few_run_app _ _ _ _ E1 H) as [H1 H2]. cbn in H2. apply andb_prop in H2 as [H2 _].
  apply Forall_app in F as [F1 [F2 _]%Forall_cons]. destruct (sc_step s1 e) as [s2|] eqn:E2; [|done]. injection E as <-. econstructor; [by apply IH|done|by apply few_b_ok|done].
Qed.

(** The checkpoints are told apart by one chunk. *)
Definition cks (k : Z) : list chunk := [Trajectory.mkChunk k 0].
(** Save number [i] from its beginning up to before DONE; DONE; then the deletion of one entry. *)
Definition go (i : nat) : cev := CGo i None.
Definition upto_done (i : nat) : list cev := [go i; CWrite i [] []; go i; go i; CWrite i [] []; go i].
Definition delete_one (i : nat) : list cev := [go i; CUnlink i KTables; CUnlink i KChunks; CUnlink i KDone; go i].
Definition begin (n keep k : Z) : cev := CBegin n keep [] (cks k) None.
(** A whole Save that has nothing to delete. *)
Definition save0 (i : nat) (n keep k : Z) : list cev := begin n keep k :: upto_done i ++ [go i; go i; go i].

(** keep_latest = 1 as in the Checkpoint RPC, no error of the file system.  A Save has
    returned with success; a second one is finished and deletes, while a third one, later
    than it, is still writing.  The deletion takes the two that are complete.  The second
    Save returns with success; then the process dies: nothing is left to load. *)
Definition lost_script : list cev :=
  save0 0 1 1 10 ++ [begin 2 1 20] ++ upto_done 1 ++ [begin 3 1 30] ++ [go 1] ++ [go 1] ++ delete_one 1 ++ delete_one 1 ++ [go 1; CCrash].
Theorem C82_lost_refuted : exists s v v', sc_trace anything sc_init lost_script s /\
  v ∈ sc_savers s /\ v_pos v = VReturned Ok /\ v' ∈ sc_savers s /\ v_pos v' = VReturned Ok /\ v <> v' /\ v_keep v = 1 /\ v_keep v' = 1 /\
  latest (sc_fs s) = None.
Proof.
  destruct (sc_run sc_init lost_script) as [s|] eqn:E; [|by vm_compute in E].
  exists s, (mkSaver 1 1 [] (cks 10) (VReturned Ok)), (mkSaver 2 1 [] (cks 20) (VReturned Ok)).
  split; [apply sc_run_trace; [repeat constructor|done]|]. vm_compute in E. injection E as <-.
  split; [by left|]. split; [done|]. split; [right; by left|]. repeat (split; [done|]). vm_compute. reflexivity.
Qed.

(** No error of the file system again: two Saves that finish at the same time both want to
    delete the same old checkpoint.  One of them returns NotFound, although its checkpoint
    is complete and the newest. *)
Definition raced_script : list cev :=
  save0 0 1 1 10 ++ [begin 2 2 20] ++ upto_done 1 ++ [begin 3 2 30] ++ upto_done 2 ++ [go 1; go 2; go 1; go 2] ++ delete_one 1 ++ [go 2].
Theorem C82_error_refuted : exists s v, sc_trace few sc_init raced_script s /\ newest s v /\ v_pos v = VReturned NotFound.
Proof.
  destruct (sc_run sc_init raced_script) as [s|] eqn:E; [|by vm_compute in E]. exists s, (mkSaver 3 2 [] (cks 30) (VReturned NotFound)).
  split; [apply few_run_trace; [repeat constructor|done|by vm_compute]|]. vm_compute in E. injection E as <-.
  split; [|done]. split; [right; right; by left|]. vm_compute. reflexivity.
Qed.

(** Two at the same time that meet [few], since keep_latest = 2: the earlier one finishes
    and deletes while the later one writes; the later one dies. *)
Definition two_script : list cev :=
  save0 0 1 2 10 ++ [begin 2 2 20; begin 3 2 30] ++ upto_done 1 ++ [go 2; go 1] ++ [go 1] ++ delete_one 1 ++ [go 1; CCrash].
Example C82_example : exists s v, sc_trace few sc_init two_script s /\ v ∈ sc_savers s /\ v_pos v = VReturned Ok /\ newest s v /\ v_name v = 2 /\
  sc_fs s !! 1 = None /\ sc_fs s !! 3 = Some (mkDir (Some []) None false).
Proof.
  destruct (sc_run sc_init two_script) as [s|] eqn:E; [|by vm_compute in E]. exists s, (mkSaver 2 2 [] (cks 20) (VReturned Ok)).
  split; [apply few_run_trace; [repeat constructor|done|by vm_compute]|]. vm_compute in E. injection E as <-.
  split; [right; by left|]. split; [done|]. split; [split; [right; by left|vm_compute; reflexivity]|]. split; [done|]. split; vm_compute; reflexivity.
Qed.
(** One after the other. *)
Example C82_alone_example : exists s, sc_trace alone sc_init [begin 1 1 10; CCrash; begin 2 1 20] s /\ length (sc_savers s) = 2%nat.
Proof.
  eexists. split; [|shelve]. change [begin 1 1 10; CCrash; begin 2 1 20] with ((([] ++ [begin 1 1 10]) ++ [CCrash]) ++ [begin 2 1 20]).
  econstructor; [econstructor; [econstructor; [constructor|done|by cbn|reflexivity]|done|done|reflexivity]|done|cbn; repeat constructor|reflexivity]. Unshelve. reflexivity.
Qed.

Print Assumptions C82_safe_partial.
Print Assumptions C82_kept_partial.
Print Assumptions C82_restart.
Print Assumptions C82_few.
Print Assumptions C82_one_at_a_time.
Print Assumptions C82_lost_refuted.
Print Assumptions C82_error_refuted.
Print Assumptions C82_example.
Print Assumptions C82_alone_example.
