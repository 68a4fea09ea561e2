(** C84: starting from a checkpoint directory whatever its files hold: damaged,
    cut off, or written by an older version. *)
From Verif Require Import Base RateLimiter Selector SelSpec Trajectory Tensor TrajUtil Table PropTable Checkpoint CheckpointProofs
  PropCheckpoint PropTraj LoadFull.
Local Open Scope Z_scope.

(** ** Specification *)

(** The record is the first one of its key in the file. *)
Definition first_of_key (l : list chunk_rec) (r : chunk_rec) : Prop :=
  exists l1 l2, l = l1 ++ r :: l2 /\ cr_key r ∉ cr_key <$> l1.

(** The chunk of a record: its tensors are those of the field that is in use. *)
Definition chunk_loaded (r c : chunk_rec) : Prop :=
  cr_key c = cr_key r /\ cr_ep c = cr_ep r /\ num_rows c = num_rows r /\ cr_len c = cr_len r /\
  cr_data c = (if decide (cr_old r = []) then cr_data r else cr_old r) /\
  (cr_old r = [] \/ cr_data r = []).

(** [tr] has [n] columns, and column number c reads, in the chunks [keys] and there
    in column number c, the rows [offset, offset + length) of the chunks one after
    the other.  [rows]: whatever the rows of a chunk are. *)
Definition reads_window (m : gmap Z chunk_rec) (keys : list Z) (offset length : Z) (tr : list (list slice)) : Prop :=
  forall (A : Type) (rows : Z -> list A),
    (forall k c, m !! k = Some c -> Z.of_nat (base.length (rows k)) = num_rows c) ->
    window_of rows keys offset length ->
    (exists k first, head keys = Some k /\ m !! k = Some first /\ base.length tr = num_columns first) /\
    forall c col, tr !! c = Some col ->
      sl_key <$> col = keys /\ Forall (fun s => slice_within rows s /\ sl_idx s = Z.of_nat c) col /\
      concat (slice_rows rows <$> col) = take (Z.to_nat length) (drop (Z.to_nat offset) (all_rows rows keys)).

(** The item of a record: everything as recorded, and all chunks it refers to are
    there. *)
Record item_loaded (m : gmap Z chunk_rec) (r : item_rec) (it : item) : Prop := {
  il_key : it_key it = ir_key r;
  il_prio : it_prio it = ir_prio r;
  il_times : it_times it = ir_times r;
  il_at : it_at it = ir_at r;
  il_traj : match ir_range r with
            | None => it_traj it = default [] (ir_traj r)
            | Some (offset, length) => ir_traj r = None /\ reads_window m (ir_keys r) offset length (it_traj it)
            end;
  il_chunks : forall k, k ∈ sl_key <$> concat (it_traj it) <-> exists c, m !! k = Some c /\ as_chunk c ∈ it_chunks it;
  il_uses : forall k, k ∈ sl_key <$> concat (it_traj it) -> is_Some (m !! k) }.

(** The table of a record. *)
Record table_loaded (m : gmap Z chunk_rec) (k : table_rec) (t : table) : Prop := {
  tl_max : t_max_size t = k_max_size (tr_head k);
  tl_times : t_max_times t = k_max_times (tr_head k);
  tl_eps : t_del_eps t = k_del_eps (tr_head k);
  tl_unique : t_unique t = k_unique (tr_head k);
  tl_limiter : t_limiter t = mkLimiter (k_spi (tr_head k)) (k_min_diff (tr_head k)) (k_max_diff (tr_head k)) (k_min_size (tr_head k))
                 (k_inserts (tr_head k)) (k_samples (tr_head k)) (k_deletes (tr_head k)) false;
  tl_nodup : NoDup (ir_key <$> tr_items k);
  tl_items : forall r, r ∈ tr_items k -> exists it, t_data t !! ir_key r = Some it /\ item_loaded m r it;
  tl_only : forall i it, t_data t !! i = Some it -> i ∈ ir_key <$> tr_items k }.

(** ** Chunks *)

Definition store_ok (m : gmap Z chunk_rec) : Prop := forall k c, m !! k = Some c -> cr_key c = k.

Lemma store_insert_ok m r : store_ok m -> store_ok (store_insert m r).
Proof.
  intros H k c. unfold store_insert. destruct (m !! cr_key r) eqn:E; [apply H|].
  rewrite lookup_insert_Some. intros [[<- <-]|[_ Hk]]; [done|by apply H].
Qed.
Lemma store_insert_mono m r k c : m !! k = Some c -> store_insert m r !! k = Some c.
Proof.
  intros H. unfold store_insert. destruct (m !! cr_key r) eqn:E; [done|]. rewrite lookup_insert_ne; [done|]. intros <-. congruence.
Qed.
Lemma store_insert_here m r : m !! cr_key r = None -> store_insert m r !! cr_key r = Some r.
Proof. intros H. unfold store_insert. rewrite H. apply lookup_insert. Qed.
Lemma store_insert_in m r k c : store_insert m r !! k = Some c -> m !! k = Some c \/ (c = r /\ k = cr_key r /\ m !! k = None).
Proof.
  unfold store_insert. destruct (m !! cr_key r) eqn:E; [auto|]. rewrite lookup_insert_Some. intros [[<- <-]|[_ H]]; auto.
Qed.

Lemma chunk_current_ok r c : chunk_current r = Some c -> chunk_loaded r c.
Proof.
  unfold chunk_current, chunk_loaded. destruct (cr_old r) eqn:E.
  - intros [= <-]. repeat (split; [done|]). auto.
  - destruct (cr_data r) eqn:E'; [|done]. intros [= <-]. cbn. repeat (split; [done|]). auto.
Qed.

(** A chunk file that was read to its end. *)
Lemma read_chunks_ok l e : forall m m', read_chunks m l e = (Ok, m') -> store_ok m ->
  store_ok m' /\ (forall k c, m !! k = Some c -> m' !! k = Some c) /\
  (e = EndOfFile \/ e = ReadError Ok) /\
  exists rs, l = RGood <$> rs /\
    (forall r, r ∈ rs -> is_Some (m' !! cr_key r)) /\
    forall k c, m' !! k = Some c -> m !! k = Some c \/ (m !! k = None /\ exists r, first_of_key rs r /\ cr_key r = k /\ chunk_loaded r c).
Proof.
  induction l as [|x l IH]; intros m m' H Hm; cbn [read_chunks] in H.
  - injection H as H <-. split; [done|]. split; [auto|]. split; [destruct e; [auto|right; by f_equal]|].
    exists []. split; [done|]. split; [|auto]. intros r Hr. by apply elem_of_nil in Hr.
  - destruct x as [r|]; [|done]. destruct (chunk_current r) as [c0|] eqn:E; [|done].
    pose proof (chunk_current_ok _ _ E) as Hc0. assert (Hk0 : cr_key c0 = cr_key r) by apply Hc0.
    apply IH in H as (H1 & H2 & H3 & rs & -> & H4 & H5); [|by apply store_insert_ok].
    split; [done|]. split; [intros k c Hk; by apply H2, store_insert_mono|]. split; [done|].
    exists (r :: rs). split; [done|]. split.
    + intros x Hx. apply elem_of_cons in Hx as [->|Hx]; [|by apply H4].
      destruct (m !! cr_key r) as [c|] eqn:Em.
      * exists c. by apply H2, store_insert_mono.
      * exists c0. apply H2. rewrite <- Hk0. apply store_insert_here. by rewrite Hk0.
    + intros k c Hk. destruct (H5 k c Hk) as [H6|(H6 & r' & (l1 & l2 & -> & Hf) & Hr & Hl)].
      * apply store_insert_in in H6 as [H6|(-> & -> & H6)]; [auto|]. right. split; [done|]. exists r. split.
        { exists [], rs. split; [done|]. apply not_elem_of_nil. }
        split; [done|done].
      * assert (Hn : m !! k = None).
        { destruct (m !! k) eqn:Em; [|done]. rewrite (store_insert_mono _ _ _ _ Em) in H6. done. }
        right. split; [done|]. exists r'. split; [|done]. exists (r :: l1), l2. split; [done|].
        rewrite fmap_cons. apply not_elem_of_cons. split; [|done]. intros Heq.
        rewrite Hr in Heq. rewrite Heq, <- Hk0 in H6, Hn. rewrite store_insert_here in H6 by done. done.
Qed.

(** ** Items *)

Lemma get_all_some m ks cs : get_all m ks = Some cs ->
  (fun c => (cr_key c, num_rows c)) <$> cs = (fun c => (cr_key c, num_rows c)) <$> omap (m !!.) ks /\
  length cs = length ks /\ forall i k, ks !! i = Some k -> exists c, m !! k = Some c /\ cs !! i = Some c.
Proof.
  revert cs. induction ks as [|k ks IH]; intros cs H; cbn [get_all] in H.
  - injection H as <-. split; [done|]. split; [done|]. intros i k Hi. by rewrite lookup_nil in Hi.
  - destruct (m !! k) as [c|] eqn:E; [|done]. cbn [mbind option_bind] in H.
    destruct (get_all m ks) as [cs'|] eqn:E'; [|done]. cbn [mbind option_bind] in H. injection H as <-.
    destruct (IH cs' eq_refl) as (H1 & H2 & H3). cbn [omap list_omap]. rewrite E. rewrite !fmap_cons, H1. split; [done|].
    split; [cbn; lia|]. intros [|i] k' Hi; cbn in Hi; [injection Hi as <-; by exists c|]. by apply H3.
Qed.
Lemma get_all_lengths {A} (rows : Z -> list A) m ks cs : store_ok m ->
  (forall k c, m !! k = Some c -> Z.of_nat (length (rows k)) = num_rows c) -> get_all m ks = Some cs ->
  (fun c => (cr_key c, num_rows c)) <$> cs = with_lengths rows ks.
Proof.
  intros Hm Hr. revert cs. induction ks as [|k ks IH]; intros cs H; cbn [get_all] in H.
  - by injection H as <-.
  - destruct (m !! k) as [c|] eqn:E; [|done]. cbn [mbind option_bind] in H.
    destruct (get_all m ks) as [cs'|] eqn:E'; [|done]. cbn [mbind option_bind] in H. injection H as <-.
    unfold with_lengths. rewrite !fmap_cons. rewrite (Hm _ _ E), (Hr _ _ E). f_equal. by apply IH.
Qed.

Lemma old_window m r tr offset length : store_ok m -> ir_range r = Some (offset, length) -> item_traj m r = Some tr ->
  reads_window m (ir_keys r) offset length tr.
Proof.
  intros Hm Hr H A rows Hrows Hw. unfold item_traj in H. rewrite Hr in H.
  destruct (get_all m (ir_keys r)) as [cs|] eqn:E; [|done]. cbn [mbind option_bind] in H.
  destruct (head cs) as [first|] eqn:Eh; [|done]. cbn [mbind option_bind] in H.
  rewrite (get_all_lengths rows m _ _ Hm Hrows E) in H.
  destruct (C36_window_partial rows (ir_keys r) (num_columns first) offset length Hw) as (tr' & Htr & Hl & Hc).
  rewrite Htr in H. injection H as ->. split; [|done].
  destruct (get_all_some _ _ _ E) as (_ & Hlen & Hi). destruct cs as [|c0 cs]; [done|]. injection Eh as ->.
  destruct (ir_keys r) as [|k ks]; [done|]. destruct (Hi 0%nat k eq_refl) as (c & Hc0 & Hc1). injection Hc1 as ->.
  by exists k, c.
Qed.

Lemma find_chunks_elem m ks cs : find_chunks m ks = Some cs ->
  (forall k, k ∈ ks -> exists c, m !! k = Some c /\ c ∈ cs) /\ (forall c, c ∈ cs -> exists k, k ∈ ks /\ m !! k = Some c).
Proof.
  revert cs. induction ks as [|k ks IH]; intros cs H; cbn [find_chunks] in H.
  - injection H as <-. split; intros x Hx; by apply elem_of_nil in Hx.
  - destruct (m !! k) as [c|] eqn:E; [|done]. destruct (find_chunks m ks) as [cs'|]; [|done]. injection H as <-.
    destruct (IH cs' eq_refl) as [H1 H2]. split.
    + intros x Hx. apply elem_of_cons in Hx as [->|Hx]; [exists c; split; [done|left]|].
      destruct (H1 x Hx) as (c' & ? & ?). exists c'. split; [done|by right].
    + intros x Hx. apply elem_of_cons in Hx as [->|Hx]; [exists k; split; [left|done]|].
      destruct (H2 x Hx) as (k' & ? & ?). exists k'. split; [by right|done].
Qed.

Lemma item_loaded_ok m r tr cs : store_ok m -> ~ (is_Some (ir_range r) /\ is_Some (ir_traj r)) ->
  item_traj m r = Some tr -> find_chunks (as_chunk <$> m) (get_chunk_keys tr) = Some cs ->
  item_loaded m r (mkItem (ir_key r) (ir_prio r) (ir_times r) (ir_at r) cs tr).
Proof.
  intros Hm Hb Htr Hcs. destruct (find_chunks_elem _ _ _ Hcs) as [H1 H2].
  destruct (C50_keys tr) as (_ & Hk & _).
  assert (Hu : forall k, k ∈ sl_key <$> concat tr -> exists c, m !! k = Some c /\ as_chunk c ∈ cs).
  { intros k Hin. apply Hk in Hin. destruct (H1 k Hin) as (c & Hc & Hcc). rewrite lookup_fmap in Hc.
    apply fmap_Some in Hc as (c' & Hc' & ->). by exists c'. }
  split; cbn; try done.
  - destruct (ir_range r) as [[offset len]|] eqn:E.
    + split; [|by eapply old_window]. destruct (ir_traj r); [|done]. exfalso. apply Hb. split; by eexists.
    + unfold item_traj in Htr. rewrite E in Htr. by injection Htr as <-.
  - intros k. split; [apply Hu|]. intros (c & Hc & Hin). apply Hk.
    destruct (H2 _ Hin) as (k' & Hk' & Hc'). rewrite lookup_fmap in Hc'. apply fmap_Some in Hc' as (c' & Hc' & E).
    assert (k' = k) as <-; [|done]. rewrite <- (Hm _ _ Hc), <- (Hm _ _ Hc'). unfold as_chunk in E. by injection E.
  - intros k Hin. destruct (Hu k Hin) as (c & Hc & _). by exists c.
Qed.

Section WithFP.
Context {fp : FP}.

Lemma insert_ckpt_item_some t it t' : insert_ckpt_item t it = Some (Ok, t') ->
  t_data t !! it_key it = None /\ t_data t' = <[it_key it := it]> (t_data t) /\
  t_max_size t' = t_max_size t /\ t_max_times t' = t_max_times t /\ t_limiter t' = t_limiter t /\
  t_del_eps t' = t_del_eps t /\ t_unique t' = t_unique t.
Proof.
  unfold insert_ckpt_item. destruct (t_max_size t <? t_size t + 1); [done|]. destruct (t_data t !! it_key it) eqn:E; [done|].
  destruct (sel_insert (t_sampler t) (it_key it) (it_prio it)) as [st s]. destruct (decide (st = Ok)) as [->|Hs].
  2:{ rewrite bool_decide_false by done. cbn [negb]. intros [= -> _]. done. }
  rewrite bool_decide_true by done. cbn [negb with_sampler t_remover].
  destruct (sel_insert (t_remover t) (it_key it) (it_prio it)) as [st s']. destruct (decide (st = Ok)) as [->|Hs].
  2:{ rewrite bool_decide_false by done. cbn [negb]. intros [= -> _]. done. }
  rewrite bool_decide_true by done. cbn [negb]. intros [= <-]. done.
Qed.

Lemma restore_recs_ok m l : store_ok m -> forall t t', restore_recs m t l = Some (Ok, t') ->
  t_max_size t' = t_max_size t /\ t_max_times t' = t_max_times t /\ t_limiter t' = t_limiter t /\
  t_del_eps t' = t_del_eps t /\ t_unique t' = t_unique t /\
  NoDup (ir_key <$> l) /\
  (forall r, r ∈ l -> t_data t !! ir_key r = None /\ exists it, t_data t' !! ir_key r = Some it /\ item_loaded m r it) /\
  (forall k it, t_data t !! k = Some it -> t_data t' !! k = Some it) /\
  (forall k it, t_data t' !! k = Some it -> t_data t !! k = Some it \/ k ∈ ir_key <$> l).
Proof.
  intros Hm. induction l as [|r l IH]; intros t t' H; cbn [restore_recs] in H.
  - injection H as <-. repeat (split; [done|]). split; [constructor|]. split; [|auto]. intros r Hr. by apply elem_of_nil in Hr.
  - destruct (decide (is_Some (ir_range r) /\ is_Some (ir_traj r))) as [Hb|Hb].
    { rewrite bool_decide_true in H by done. done. }
    rewrite bool_decide_false in H by done. destruct (item_traj m r) as [tr|] eqn:Etr; [|done].
    destruct (find_chunks (as_chunk <$> m) (get_chunk_keys tr)) as [cs|] eqn:Ecs; [|done].
    destruct (insert_ckpt_item t (mkItem (ir_key r) (ir_prio r) (ir_times r) (ir_at r) cs tr)) as [[st t1]|] eqn:Ei; [|done].
    destruct st; try done. apply insert_ckpt_item_some in Ei as (I1 & I2 & I3 & I4 & I5 & I6 & I7). cbn [it_key] in I1, I2.
    apply IH in H as (J1 & J2 & J3 & J4 & J5 & J6 & J7 & J8 & J9).
    split; [congruence|]. split; [congruence|]. split; [congruence|]. split; [congruence|]. split; [congruence|].
    assert (Hnew : ir_key r ∉ ir_key <$> l).
    { intros Hin. apply elem_of_list_fmap in Hin as (r' & Hr' & Hin). destruct (J7 r' Hin) as [J _].
      rewrite I2, <- Hr', lookup_insert in J. done. }
    split; [rewrite fmap_cons; by constructor|]. split; [|split].
    + intros x Hx. apply elem_of_cons in Hx as [->|Hx].
      * split; [done|]. eexists. split; [apply J8; rewrite I2; apply lookup_insert|]. by apply item_loaded_ok.
      * destruct (J7 x Hx) as [J Hit]. split; [|done]. rewrite I2 in J. by apply lookup_insert_None in J as [J _].
    + intros k it Hk. apply J8. rewrite I2, lookup_insert_ne; [done|]. intros <-. congruence.
    + intros k it Hk. destruct (J9 k it Hk) as [J|J]; [|right; rewrite fmap_cons; by right].
      rewrite I2 in J. apply lookup_insert_Some in J as [[<- _]|[_ J]]; [right; rewrite fmap_cons; left|auto].
Qed.

Lemma empty_table_ok m k t0 t : store_ok m -> empty_table (tr_head k) = Some t0 -> restore_recs m t0 (tr_items k) = Some (Ok, t) ->
  table_loaded m k t.
Proof.
  intros Hm Hn Hr. unfold empty_table, limiter_of in Hn. destruct (0 <? k_min_size (tr_head k)); [|done].
  destruct (kind_okb _ && kind_okb _); [|done]. injection Hn as <-.
  apply (restore_recs_ok m _ Hm) in Hr as (J1 & J2 & J3 & J4 & J5 & J6 & J7 & J8 & J9). cbn in *.
  split; try done.
  - intros r Hin. destruct (J7 r Hin) as [_ H]. done.
  - intros i it Hi. destruct (J9 i it Hi) as [H|H]; [by rewrite lookup_empty in H|done].
Qed.

(** A table file that was read to its end. *)
Lemma load_recs_ok m l e : store_ok m -> forall ts ts', load_recs m ts l e = Some (Ok, ts') -> NoDup ts.*1 ->
  (e = EndOfFile \/ e = ReadError Ok) /\ ts'.*1 = ts.*1 /\
  exists ks, l = RGood <$> ks /\
    (forall k, k ∈ ks -> k_name (tr_head k) ∈ ts.*1) /\
    (NoDup ((fun k => k_name (tr_head k)) <$> ks) ->
     (forall k, k ∈ ks -> exists t, (k_name (tr_head k), t) ∈ ts' /\ table_loaded m k t)) /\
    (forall n t, (n, t) ∈ ts' -> n ∉ (fun k => k_name (tr_head k)) <$> ks -> (n, t) ∈ ts) /\
    (forall n t, (n, t) ∈ ts -> n ∉ (fun k => k_name (tr_head k)) <$> ks -> (n, t) ∈ ts').
Proof.
  intros Hm. induction l as [|x l IH]; intros ts ts' H Hnd; cbn [load_recs] in H.
  - injection H as H <-. split; [destruct e; [auto|right; by f_equal]|]. split; [done|]. exists []. split; [done|].
    split; [intros k Hk; by apply elem_of_nil in Hk|]. split; [intros _ k Hk; by apply elem_of_nil in Hk|]. auto.
  - destruct x as [k|]; [|done]. destruct (find_table (k_name (tr_head k)) ts) as [i|] eqn:Ef; [|done].
    destruct (find_table_some _ _ _ Ef) as [old Ho]. rewrite Ho in H. destruct (t_size old =? 0); [|done].
    destruct (empty_table (tr_head k)) as [t0|] eqn:En; [|done].
    destruct (restore_recs m t0 (tr_items k)) as [[st t]|] eqn:Er; [|done].
    destruct (decide (st = Ok)) as [->|Hst]; [|congruence].
    pose proof (empty_table_ok m k t0 t Hm En Er) as Hl.
    assert (Hnames : (<[i := (k_name (tr_head k), t)]> ts).*1 = ts.*1).
    { rewrite list_fmap_insert. apply list_insert_id. by rewrite list_lookup_fmap, Ho. }
    apply IH in H as (H1 & H2 & ks & -> & H3 & H4 & H5 & H6); [|by rewrite Hnames].
    split; [done|]. split; [congruence|]. exists (k :: ks). split; [done|]. rewrite Hnames in H3.
    assert (Hi : (k_name (tr_head k), t) ∈ <[i := (k_name (tr_head k), t)]> ts).
    { apply elem_of_list_lookup. exists i. apply list_lookup_insert. by eapply lookup_lt_Some. }
    split; [|split; [|split]].
    + intros x Hx. apply elem_of_cons in Hx as [->|Hx]; [|by apply H3]. apply elem_of_list_fmap.
      exists (k_name (tr_head k), old). split; [done|]. by eapply elem_of_list_lookup_2.
    + intros Hn x Hx. rewrite fmap_cons in Hn. apply NoDup_cons in Hn as [Hn1 Hn2]. apply elem_of_cons in Hx as [->|Hx].
      * exists t. split; [by apply H6|done].
      * by apply H4.
    + intros n t1 Hin Hn. rewrite fmap_cons in Hn. apply not_elem_of_cons in Hn as [Hn1 Hn2].
      apply (H5 n t1 Hin) in Hn2. apply elem_of_list_lookup in Hn2 as [j Hj].
      apply list_lookup_insert_Some in Hj as [(_ & Hj & _)|[_ Hj]]; [congruence|]. by eapply elem_of_list_lookup_2.
    + intros n t1 Hin Hn. rewrite fmap_cons in Hn. apply not_elem_of_cons in Hn as [Hn1 Hn2]. apply H6; [|done].
      apply elem_of_list_lookup in Hin as [j Hj]. apply elem_of_list_lookup. exists j. rewrite list_lookup_insert_ne; [done|].
      intros ->. rewrite Hj in Ho. congruence.
Qed.

(** ** C84 *)

(** A successful Load has read both files to the end; every table of the
    checkpoint has exactly its items with all the data they refer to, and the
    tables without a record are as they were. *)
Theorem C84_loaded d ts ts' m : load_full d ts = Some (Ok, ts', m) -> NoDup ts.*1 ->
  exists cs ks ce te,
    fd_done d = true /\
    fd_chunks d = Some (mkRFile (RGood <$> cs) ce) /\ fd_tables d = Some (mkRFile (RGood <$> ks) te) /\
    (ce = EndOfFile \/ ce = ReadError Ok) /\ (te = EndOfFile \/ te = ReadError Ok) /\
    (forall k c, m !! k = Some c -> exists r, first_of_key cs r /\ cr_key r = k /\ chunk_loaded r c) /\
    (forall r, r ∈ cs -> is_Some (m !! cr_key r)) /\
    ts'.*1 = ts.*1 /\
    (NoDup ((fun k => k_name (tr_head k)) <$> ks) ->
     forall k, k ∈ ks -> exists t, (k_name (tr_head k), t) ∈ ts' /\ table_loaded m k t) /\
    (forall n t, n ∉ (fun k => k_name (tr_head k)) <$> ks -> (n, t) ∈ ts' <-> (n, t) ∈ ts).
Proof.
  intros H Hnd. unfold load_full in H. destruct (fd_done d); [|done].
  destruct (fd_chunks d) as [[fr fe]|]; [|done]. cbn [rf_recs rf_end] in H.
  destruct (read_chunks ∅ fr fe) as [st m0] eqn:Ec. destruct (decide (st = Ok)) as [->|Hs]; [|congruence].
  destruct (fd_tables d) as [[gr ge]|]; [|done]. cbn [rf_recs rf_end] in H.
  destruct (load_recs m0 ts gr ge) as [[st ts0]|] eqn:Et; [|done]. injection H as -> -> ->.
  apply read_chunks_ok in Ec as (C1 & _ & C3 & cs & -> & C4 & C5); [|intros k c Hk; by rewrite lookup_empty in Hk].
  apply (load_recs_ok _ _ _ C1) in Et as (T1 & T2 & ks & -> & T3 & T4 & T5 & T6); [|done].
  exists cs, ks, fe, ge. repeat (split; [done|]). split.
  { intros k c Hk. destruct (C5 k c Hk) as [Hk'|[_ Hk']]; [by rewrite lookup_empty in Hk'|done]. }
  split; [done|]. split; [done|]. split; [done|]. intros n t Hn. split; intros Hin; [by apply T5|by apply T6].
Qed.

Lemma good_inj {A} (l l' : list A) : RGood <$> l = RGood <$> l' -> l = l'.
Proof.
  revert l'. induction l as [|x l IH]; intros [|y l'] H; try done. rewrite !fmap_cons in H. injection H as -> H. by rewrite (IH l' H).
Qed.

(** A file with a record that is no message, or on which reading fails. *)
Definition damaged {A} (f : rfile A) : Prop :=
  RUnparsable ∈ rf_recs f \/ exists st, rf_end f = ReadError st /\ st <> Ok.

Lemma damaged_not_good {A} (f : rfile A) l e : damaged f -> f = mkRFile (RGood <$> l) e -> e = EndOfFile \/ e = ReadError Ok -> False.
Proof.
  intros [Hd|(st & Hd & Hs)] -> He; cbn in Hd.
  - apply elem_of_list_fmap in Hd as (x & Hx & _). done.
  - destruct He as [-> | ->]; [done|]. congruence.
Qed.

(** Damage is noticed: Load does not succeed, and a server that would have to load
    the directory does not start. *)
Theorem C84_damaged d ts ts' m f g : NoDup ts.*1 -> fd_chunks d = Some f -> fd_tables d = Some g -> damaged f \/ damaged g ->
  load_full d ts <> Some (Ok, ts', m).
Proof.
  intros Hnd Hf Hg Hd H. destruct (C84_loaded _ _ _ _ H Hnd) as (cs & ks & ce & te & _ & Hc & Ht & Hce & Hte & _).
  rewrite Hf in Hc. rewrite Hg in Ht. injection Hc as Hc. injection Ht as Ht.
  destruct Hd as [Hd|Hd]; [by apply (damaged_not_good f cs ce)|by apply (damaged_not_good g ks te)].
Qed.

Lemma restore_recs_status m l : forall t st t', restore_recs m t l = Some (st, t') -> st = Ok \/ st = Internal.
Proof.
  induction l as [|r l IH]; intros t st t' H; cbn [restore_recs] in H; [injection H as <- _; auto|].
  destruct (bool_decide _); [injection H as <- _; auto|]. destruct (item_traj m r); [|done].
  destruct (find_chunks _ _); [|done]. destruct (insert_ckpt_item _ _) as [[[] t1]|]; try done. by eapply IH.
Qed.
Lemma load_recs_status m l e : forall ts st ts', load_recs m ts l e = Some (st, ts') ->
  st = Ok \/ st = Internal \/ st = DataLoss \/ st = InvalidArgument \/ e = ReadError st.
Proof.
  induction l as [|x l IH]; intros ts st ts' H; cbn [load_recs] in H.
  - injection H as <- _. destruct e; auto.
  - destruct x as [k|]; [|injection H as <- _; auto].
    destruct (find_table _ ts) as [i|]; [|injection H as <- _; auto 8].
    destruct (ts !! i) as [[n old]|]; [|done]. destruct (t_size old =? 0); [|done].
    destruct (empty_table _); [|done]. destruct (restore_recs _ _ _) as [[st' t1]|] eqn:Er; [|done].
    destruct (decide (st' = Ok)); [by eapply IH|]. injection H as <- _.
    apply restore_recs_status in Er as [->| ->]; auto.
Qed.
Lemma read_chunks_status l e : forall m st m', read_chunks m l e = (st, m') ->
  st = Ok \/ st = Internal \/ st = DataLoss \/ e = ReadError st.
Proof.
  induction l as [|x l IH]; intros m st m' H; cbn [read_chunks] in H.
  - injection H as <- _. destruct e; auto.
  - destruct x as [r|]; [|injection H as <- _; auto]. destruct (chunk_current r); [by eapply IH|injection H as <- _; auto].
Qed.

(** What reading a file fails with.  NotFound is what opening a missing file
    gives; reading an open file does not. *)
Definition no_notfound {A} (f : rfile A) : Prop := rf_end f <> ReadError NotFound.

Theorem C84_start_fails d ts ts' m f g : NoDup ts.*1 -> fd_chunks d = Some f -> fd_tables d = Some g ->
  no_notfound f -> no_notfound g -> damaged f \/ damaged g -> start_from d ts <> Some (Ok, ts', m).
Proof.
  intros Hnd Hf Hg Nf Ng Hd H. unfold start_from in H.
  destruct (load_full d ts) as [[[st ts1] m1]|] eqn:E; [|done]. destruct (decide (st = NotFound)) as [->|Hs].
  - unfold load_full in E. rewrite Hf, Hg in E. destruct (fd_done d); [|done].
    destruct (read_chunks ∅ (rf_recs f) (rf_end f)) as [st m0] eqn:Ec. destruct (decide (st = Ok)) as [->|Hs].
    + destruct (load_recs m0 ts (rf_recs g) (rf_end g)) as [[st ts0]|] eqn:Et; [|done]. injection E as -> _ _.
      apply load_recs_status in Et as [?|[?|[?|[?|?]]]]; try done.
    + injection E as -> _ _. apply read_chunks_status in Ec as [?|[?|[?|?]]]; try done.
  - injection H as -> -> ->. by apply (C84_damaged d ts ts' m f g) in E.
Qed.

(** A chunk that is missing in the file is noticed too: the process ends. *)
Theorem C84_chunk_missing d ts ts' m cs ce ks te k r tr key :
  NoDup ts.*1 -> fd_chunks d = Some (mkRFile (RGood <$> cs) ce) -> fd_tables d = Some (mkRFile (RGood <$> ks) te) ->
  NoDup ((fun k => k_name (tr_head k)) <$> ks) ->
  k ∈ ks -> r ∈ tr_items k -> ir_range r = None -> ir_traj r = Some tr -> key ∈ sl_key <$> concat tr -> key ∉ cr_key <$> cs ->
  load_full d ts <> Some (Ok, ts', m).
Proof.
  intros Hnd Hf Hg Hn Hk Hr Hrange Htraj Hkey Hno H.
  destruct (C84_loaded _ _ _ _ H Hnd) as (cs' & ks' & ce' & te' & _ & Hc & Ht & _ & _ & Hm & _ & _ & Hl & _).
  rewrite Hf in Hc. rewrite Hg in Ht. injection Hc as Hc _. injection Ht as Ht _.
  apply good_inj in Hc as <-. apply good_inj in Ht as <-.
  destruct (Hl Hn k Hk) as (t & _ & L). destruct (tl_items _ _ _ L r Hr) as (it & _ & I).
  pose proof (il_traj _ _ _ I) as Hti. rewrite Hrange, Htraj in Hti. cbn in Hti.
  destruct (il_uses _ _ _ I key) as [c Hc0]; [by rewrite Hti|]. destruct (Hm key c Hc0) as (x & (l1 & l2 & -> & _) & Hx & _).
  apply Hno. rewrite fmap_app, fmap_cons, Hx. apply elem_of_app. right. left.
Qed.

(** *** The same as loading a readable checkpoint in the present format *)

Definition modern_item (m : gmap Z chunk_rec) (r : item_rec) (p : pitem) : Prop :=
  pi_key p = ir_key r /\ pi_prio p = ir_prio r /\ pi_times p = ir_times r /\ pi_at p = ir_at r /\
  match ir_range r with
  | None => pi_traj p = default [] (ir_traj r)
  | Some (offset, length) => reads_window m (ir_keys r) offset length (pi_traj p)
  end.
Definition modern_table (m : gmap Z chunk_rec) (k : table_rec) (c : tckpt) : Prop :=
  let h := tr_head k in
  exists l, Forall2 (modern_item m) (tr_items k) l /\
    c = mkCkpt (k_name h) (k_max_size h) (k_max_times h) (k_del_eps h) (k_unique h) (k_sampler h) (k_remover h)
          (k_spi h) (k_min_diff h) (k_max_diff h) (k_min_size h) (k_samples h) (k_inserts h) (k_deletes h) l.

Lemma restore_recs_items m l : store_ok m -> forall t t', restore_recs m t l = Some (Ok, t') ->
  exists l', Forall2 (modern_item m) l l' /\ restore_items (as_chunk <$> m) t l' = Some t'.
Proof.
  intros Hm. induction l as [|r l IH]; intros t t' H; cbn [restore_recs] in H.
  - injection H as <-. exists []. by split; [constructor|].
  - destruct (bool_decide _); [done|]. destruct (item_traj m r) as [tr|] eqn:Etr; [|done].
    destruct (find_chunks (as_chunk <$> m) (get_chunk_keys tr)) as [cs|] eqn:Ecs; [|done].
    destruct (insert_ckpt_item t (mkItem (ir_key r) (ir_prio r) (ir_times r) (ir_at r) cs tr)) as [[st t1]|] eqn:Ei; [|done].
    destruct st; try done. destruct (IH _ _ H) as (l' & Hl & Hr).
    exists (mkPItem (ir_key r) (ir_prio r) (ir_times r) (ir_at r) tr :: l'). split.
    + constructor; [|done]. repeat (split; [done|]). destruct (ir_range r) as [[o n]|] eqn:E.
      * by eapply old_window.
      * unfold item_traj in Etr. rewrite E in Etr. by injection Etr as <-.
    + cbn [restore_items pi_traj]. rewrite Ecs. unfold of_proto. cbn [pi_key pi_prio pi_times pi_at pi_traj]. by rewrite Ei.
Qed.

Lemma empty_restore m k t0 l t : empty_table (tr_head k) = Some t0 -> restore_items m t0 l = Some t ->
  let h := tr_head k in
  restore m (mkCkpt (k_name h) (k_max_size h) (k_max_times h) (k_del_eps h) (k_unique h) (k_sampler h) (k_remover h)
          (k_spi h) (k_min_diff h) (k_max_diff h) (k_min_size h) (k_samples h) (k_inserts h) (k_deletes h) l) = Some t.
Proof.
  intros H1 H2 h. unfold restore, empty_table, limiter_of in *. cbn. fold h in H1. destruct (0 <? k_min_size h); [|done].
  destruct (kind_okb _ && kind_okb _); [|done]. injection H1 as <-. done.
Qed.

Lemma load_recs_tables m l e : store_ok m -> forall ts ts', load_recs m ts (RGood <$> l) e = Some (Ok, ts') ->
  exists cs, Forall2 (modern_table m) l cs /\ load_tables (as_chunk <$> m) ts cs = Some (Ok, ts').
Proof.
  intros Hm. induction l as [|k l IH]; intros ts ts' H; cbn [fmap list_fmap load_recs] in H.
  - exists []. split; [constructor|]. injection H as _ <-. done.
  - destruct (find_table (k_name (tr_head k)) ts) as [i|] eqn:Ef; [|done].
    destruct (ts !! i) as [[n old]|] eqn:Ei; [|done]. destruct (t_size old =? 0) eqn:Es; [|done].
    destruct (empty_table (tr_head k)) as [t0|] eqn:En; [|done].
    destruct (restore_recs m t0 (tr_items k)) as [[st t]|] eqn:Er; [|done].
    destruct (decide (st = Ok)) as [->|Hst]; [|congruence].
    destruct (restore_recs_items m _ Hm _ _ Er) as (l' & Hl & Hr).
    destruct (IH _ _ H) as (cs & Hcs & Hload). eexists (_ :: cs). split.
    + constructor; [|done]. exists l'. split; [done|reflexivity].
    + cbn [load_tables k_name]. rewrite Ef, Ei, Es. cbv zeta. rewrite (empty_restore _ _ _ _ _ En Hr). done.
Qed.

Lemma chunk_map_store rs e : forall m m' mc, read_chunks m (RGood <$> rs) e = (Ok, m') -> mc = as_chunk <$> m ->
  fold_left (fun m c => match m !! ck_key c with Some _ => m | None => <[ck_key c := c]> m end) (as_chunk <$> rs) mc = as_chunk <$> m'.
Proof.
  induction rs as [|r rs IH]; intros m m' mc H ->; cbn [fmap list_fmap read_chunks] in H.
  - injection H as _ <-. done.
  - destruct (chunk_current r) as [c|] eqn:E; [|done]. rewrite fmap_cons. cbn [fold_left]. apply (IH _ _ _ H).
    destruct (chunk_current_ok _ _ E) as (Hk & He & _). unfold store_insert. rewrite Hk. cbn [as_chunk ck_key].
    rewrite lookup_fmap. destruct (m !! cr_key r); [done|]. cbn [fmap option_fmap option_map].
    rewrite fmap_insert. f_equal. unfold as_chunk. by rewrite Hk, He.
Qed.

(** Whenever Load succeeds, the tables are those which the readable files in the
    present format with the same contents give.  What is known about those (C17)
    holds then. *)
Theorem C84_as_load d ts ts' m : load_full d ts = Some (Ok, ts', m) -> NoDup ts.*1 ->
  exists cs ks ce te f, fd_chunks d = Some (mkRFile (RGood <$> cs) ce) /\ fd_tables d = Some (mkRFile (RGood <$> ks) te) /\
    f_done f = true /\ f_chunks f = (fun r => mkChunk (cr_key r) (cr_ep r)) <$> cs /\
    Forall2 (modern_table m) ks (f_tables f) /\ load f ts = Some (Ok, ts').
Proof.
  intros H Hnd. destruct (C84_loaded d ts ts' m H Hnd) as (cs & ks & ce & te & Hd & Hc & Ht & _).
  unfold load_full in H. rewrite Hd, Hc, Ht in H. cbn [rf_recs rf_end] in H.
  destruct (read_chunks ∅ (RGood <$> cs) ce) as [st m0] eqn:Ec. destruct (decide (st = Ok)) as [->|Hs]; [|congruence].
  destruct (load_recs m0 ts (RGood <$> ks) te) as [[st ts0]|] eqn:Et; [|done]. injection H as -> -> ->.
  pose proof (chunk_map_store cs ce ∅ m (∅ : gmap Z chunk) Ec (eq_sym (fmap_empty as_chunk))) as Hmap.
  apply read_chunks_ok in Ec as (C1 & _); [|intros k c Hk; by rewrite lookup_empty in Hk].
  destruct (load_recs_tables m ks te C1 ts ts' Et) as (tb & Htb & Hload).
  exists cs, ks, ce, te, (mkFiles true (as_chunk <$> cs) tb). repeat (split; [done|]).
  unfold load. cbn [f_done f_chunks f_tables]. assert (chunk_map (as_chunk <$> cs) = as_chunk <$> m) as -> by exact Hmap. done.
Qed.

(** *** What Save wrote *)

(** The record of an item in the present format. *)
Definition rec_of (p : pitem) : item_rec := mkItemRec (pi_key p) (pi_prio p) (pi_times p) (pi_at p) (Some (pi_traj p)) None [].
(** The directory with the files [f] where chunk [c] has the data [payload c]. *)
Definition full_of (payload : chunk -> chunk_rec) (f : files) : fdir :=
  mkFDir (Some (mkRFile (RGood <$> (payload <$> f_chunks f)) EndOfFile))
    (Some (mkRFile (RGood <$> ((fun k => mkTableRec k (rec_of <$> k_items k)) <$> f_tables f)) EndOfFile)) (f_done f).
Definition payload_ok (payload : chunk -> chunk_rec) : Prop :=
  forall c, cr_key (payload c) = ck_key c /\ cr_ep (payload c) = ck_ep c /\ cr_old (payload c) = [].

Lemma restore_recs_of m l : forall t, restore_recs m t (rec_of <$> l) =
  (match restore_items (as_chunk <$> m) t l with Some t' => Some (Ok, t') | None => None end).
Proof.
  induction l as [|p l IH]; intros t; [done|]. rewrite fmap_cons. cbn [restore_recs restore_items].
  rewrite bool_decide_false; [|intros [[? [=]] _]]. cbn [item_traj rec_of ir_range ir_traj default id].
  destruct (find_chunks (as_chunk <$> m) (get_chunk_keys (pi_traj p))) as [cs|]; [|done].
  change (mkItem _ _ _ _ cs _) with (of_proto p cs).
  destruct (insert_ckpt_item t (of_proto p cs)) as [[[] t1]|]; try done.
Qed.
Lemma load_recs_of m ks : forall ts,
  load_recs m ts (RGood <$> ((fun k => mkTableRec k (rec_of <$> k_items k)) <$> ks)) EndOfFile = load_tables (as_chunk <$> m) ts ks.
Proof.
  induction ks as [|k ks IH]; intros ts; [done|]. rewrite !fmap_cons. cbn [load_recs load_tables tr_head tr_items].
  destruct (find_table (k_name k) ts) as [i|]; [|done]. destruct (ts !! i) as [[n old]|]; [|done].
  destruct (t_size old =? 0); [|done]. unfold restore, empty_table. destruct (limiter_of k); [|done].
  destruct (kind_okb _ && kind_okb _); [|done]. rewrite restore_recs_of. destruct (restore_items _ _ _); [|done].
  rewrite decide_True by done. apply IH.
Qed.
Lemma read_chunks_of payload cs : payload_ok payload -> forall m,
  exists m', read_chunks m (RGood <$> (payload <$> cs)) EndOfFile = (Ok, m') /\
    (forall k c, m !! k = Some c -> m' !! k = Some c) /\
    (forall k r, m' !! k = Some r -> m !! k = Some r \/ exists c, c ∈ cs /\ ck_key c = k /\ r = payload c).
Proof.
  intros Hp. induction cs as [|c cs IH]; intros m; [exists m; cbn; auto|]. rewrite !fmap_cons. cbn [read_chunks].
  destruct (Hp c) as (P1 & P2 & P3). unfold chunk_current. rewrite P3.
  destruct (IH (store_insert m (payload c))) as (m' & E & H1 & H2). exists m'. split; [done|]. split.
  - intros k r Hk. by apply H1, store_insert_mono.
  - intros k r Hk. destruct (H2 k r Hk) as [H|(c' & Hc & Hk' & ->)].
    + apply store_insert_in in H as [H|(-> & -> & _)]; [auto|]. right. exists c. split; [left|done].
    + right. exists c'. split; [by right|done].
Qed.

Theorem C84_saved payload f ts : payload_ok payload -> f_done f = true ->
  exists m, load_full (full_of payload f) ts = (match load f ts with Some (st, ts') => Some (st, ts', m) | None => None end) /\
    forall k r, m !! k = Some r -> exists c, c ∈ f_chunks f /\ ck_key c = k /\ r = payload c.
Proof.
  intros Hp Hd. destruct (read_chunks_of payload (f_chunks f) Hp ∅) as (m & E & _ & H). exists m. split.
  - unfold load_full, full_of. cbn [fd_done fd_chunks fd_tables rf_recs rf_end]. rewrite Hd, E. rewrite decide_True by done.
    rewrite load_recs_of. unfold load. rewrite Hd.
    pose proof (chunk_map_store (payload <$> f_chunks f) EndOfFile ∅ m (∅ : gmap Z chunk) E (eq_sym (fmap_empty as_chunk))) as Hmap.
    replace (as_chunk <$> (payload <$> f_chunks f)) with (f_chunks f) in Hmap.
    { assert (chunk_map (f_chunks f) = as_chunk <$> m) as -> by exact Hmap. done. }
    clear -Hp. induction (f_chunks f) as [|c cs IH]; [done|]. rewrite !fmap_cons, <- IH. f_equal.
    destruct (Hp c) as (P1 & P2 & _). unfold as_chunk. rewrite P1, P2. by destruct c.
  - intros k r Hk. destruct (H k r Hk) as [H'|H']; [by rewrite lookup_empty in H'|done].
Qed.

End WithFP.

(** What was saved and is undamaged starts with the same tables and the same data:
    the chunks of every item have the payload they were saved with. *)
Theorem C84_undamaged {fp : FP} {laws : FPLaws fp} payload ts f ss : payload_ok payload ->
  tables_reached ts -> chunks_consistent ts -> NoDup ts.*1 -> saved ts f ->
  NoDup ss.*1 -> Forall (fun s => t_size s.2 = 0) ss -> (forall n, n ∈ ts.*1 -> n ∈ ss.*1) ->
  exists ss' m, start_from (full_of payload f) ss = Some (Ok, ss', m) /\ ss'.*1 = ss.*1 /\
    (forall n t, (n, t) ∈ ts -> exists t', (n, t') ∈ ss' /\ same_table t t' /\
       forall i it ch, t_data t !! i = Some it -> ch ∈ it_chunks it -> m !! ck_key ch = Some (payload ch)) /\
    (forall n s, n ∉ ts.*1 -> (n, s) ∈ ss' -> (n, s) ∈ ss).
Proof.
  intros Hp Hr Hcons Hnt Hs Hns Hemp Hsub. pose proof Hs as (Hd & _ & Hch).
  destruct (C17_save_load ts f ss Hr Hcons Hnt Hs Hns Hemp Hsub) as (ss' & El & N & H1 & H2).
  destruct (C84_saved payload f ss Hp Hd) as (m & E & Hm). rewrite El in E. exists ss', m.
  split; [unfold start_from; rewrite E; by rewrite decide_False|]. split; [done|]. split; [|done].
  intros n t Ht. destruct (H1 n t Ht) as (t' & Hin & S & _). exists t'. split; [done|]. split; [done|].
  intros i it ch Hi Hc.
  destruct (C84_loaded _ _ _ _ E Hns) as (cs & ks & ce & te & _ & Hfc & _ & _ & _ & _ & Hall & _).
  unfold full_of in Hfc. cbn [fd_chunks] in Hfc. injection Hfc as Hfc _. apply good_inj in Hfc as <-.
  destruct (Hall (payload ch)) as [r Hr'].
  { apply elem_of_list_fmap_1, Hch. eauto 8. }
  destruct (Hp ch) as (P1 & _). rewrite P1 in Hr'. rewrite Hr'. f_equal.
  destruct (Hm _ _ Hr') as (c & Hc' & Hk & ->). f_equal. apply Hch in Hc' as (n2 & t2 & i2 & it2 & B1 & B2 & B3).
  by eapply (Hcons n2 t2 i2 it2 c n t i it ch).
Qed.

(** ** Concrete cases *)

(** The same directory with only the first [n] records of a file: what is left
    when the file ends at the end of a record. *)
Definition cut {A} (n : nat) (f : rfile A) : rfile A := mkRFile (take n (rf_recs f)) EndOfFile.
Definition cut_tables (n : nat) (d : fdir) : fdir := mkFDir (fd_chunks d) (cut n <$> fd_tables d) (fd_done d).
Definition cut_chunks (n : nat) (d : fdir) : fdir := mkFDir (cut n <$> fd_chunks d) (fd_tables d) (fd_done d).
Definition no_tables (d : fdir) : fdir := mkFDir (fd_chunks d) None (fd_done d).

Local Existing Instance fp_exact.
Local Existing Instance fp_exact_laws.
Local Existing Instance fp_exact_exact.

Lemma saved_two n1 t1 l1 n2 t2 l2 : sorted_items (t_data t1) l1 -> sorted_items (t_data t2) l2 ->
  saved [(n1, t1); (n2, t2)] (mkFiles true (chunks_of t1 ++ chunks_of t2) [some_checkpoint n1 t1 l1; some_checkpoint n2 t2 l2]).
Proof.
  intros H1 H2. destruct (saved_one n1 t1 l1 H1) as (_ & S1 & C1). destruct (saved_one n2 t2 l2 H2) as (_ & S2 & C2).
  split; [done|]. split.
  - cbn [f_tables] in *. apply Forall2_cons in S1 as [S1 _]. constructor; [done|exact S2].
  - intros ch. cbn [f_chunks] in *. rewrite elem_of_app, C1, C2. split.
    + intros [(n & t & i & it & Ht & H)|(n & t & i & it & Ht & H)]; exists n, t, i, it; (split; [|done]);
        apply elem_of_list_singleton in Ht; rewrite Ht; [left|right; left].
    + intros (n & t & i & it & Ht & H). apply elem_of_cons in Ht as [Ht|Ht]; [left|right]; exists n, t, i, it; (split; [|done]);
        [rewrite Ht; left|exact Ht].
Qed.

Definition ex_payload (c : chunk) : chunk_rec := mkChunkRec (ck_key c) (ck_ep c) 0 1 1 [mkTensor (TOther 1) [2%nat] [10; 11]] [].
Lemma ex_payload_ok : payload_ok ex_payload.
Proof. intros c. done. Qed.
Definition ex_t8 : table := (final ex_q_cfg ex_same_time).2.
Definition ex_t9 : table := (final ex_q_cfg ex_q_hist).2.
Definition ex_ts : list (Z * table) := [(8, ex_t8); (9, ex_t9)].
Definition ex_f : files :=
  mkFiles true (chunks_of ex_t8 ++ chunks_of ex_t9)
    [some_checkpoint 8 ex_t8 [q_item ex_t8 1; q_item ex_t8 2]; some_checkpoint 9 ex_t9 [q_item ex_t9 2; q_item ex_t9 3]].
Definition ex_ss : list (Z * table) := [(8, Table.new_table ex_q_cfg); (9, Table.new_table ex_q_cfg)].

Lemma ex_reached : tables_reached ex_ts.
Proof.
  constructor; [|constructor; [|constructor]].
  - exists ex_q_cfg, ex_same_time, (final ex_q_cfg ex_same_time).1.
    split; [split; [by repeat constructor|ops_ok|by vm_compute]|by repeat constructor].
  - exists ex_q_cfg, ex_q_hist, (final ex_q_cfg ex_q_hist).1.
    split; [split; [by repeat constructor|ops_ok|by vm_compute]|by repeat constructor].
Qed.
Lemma ex_saved : saved ex_ts ex_f.
Proof. apply saved_two; sorted_ok. Qed.
Lemma ex_consistent : chunks_consistent ex_ts.
Proof.
  assert (G : forall n t i it ch, (n, t) ∈ ex_ts -> Table.t_data t !! i = Some it -> ch ∈ it_chunks it -> ch = mkChunk 101 7 \/ ch = mkChunk 102 8 \/ ch = mkChunk 103 8).
  { intros n t i it ch Ht Hi Hc. assert (Hin : ch ∈ chunks_of t).
    { apply elem_of_list_In, in_concat. exists (it_chunks it). split; [|by apply elem_of_list_In].
      apply elem_of_list_In, elem_of_list_fmap. exists (i, it). split; [done|]. by apply elem_of_map_to_list. }
    apply elem_of_cons in Ht as [Ht|Ht]; [|apply elem_of_list_singleton in Ht]; injection Ht as -> ->; apply elem_of_list_In in Hin; vm_compute in Hin;
      repeat (destruct Hin as [Hin|Hin]; [symmetry in Hin; auto|]); destruct Hin. }
  intros n1 t1 i1 it1 ch1 n2 t2 i2 it2 ch2 A1 A2 A3 B1 B2 B3 E.
  destruct (G _ _ _ _ _ A1 A2 A3) as [-> |[-> | ->]]; destruct (G _ _ _ _ _ B1 B2 B3) as [-> |[-> | ->]]; done.
Qed.

(** The hypotheses of [C84_undamaged] hold for two tables with two items each. *)
Example C84_undamaged_example :
  payload_ok ex_payload /\ tables_reached ex_ts /\ chunks_consistent ex_ts /\ NoDup ex_ts.*1 /\ saved ex_ts ex_f /\
  NoDup ex_ss.*1 /\ Forall (fun s => t_size s.2 = 0) ex_ss /\
  exists ss' m, start_from (full_of ex_payload ex_f) ex_ss = Some (Ok, ss', m) /\ (fun s => t_size s.2) <$> ss' = [2; 2].
Proof.
  split; [exact ex_payload_ok|]. split; [exact ex_reached|]. split; [exact ex_consistent|].
  split; [apply (bool_decide_unpack _); vm_compute; exact I|]. split; [exact ex_saved|].
  split; [apply (bool_decide_unpack _); vm_compute; exact I|]. split; [by repeat constructor|].
  eexists _, _. split; [vm_compute; reflexivity|]. by vm_compute.
Qed.

(** All or nothing is false for a file that ends after a record: the server starts,
    and the tables whose records are gone are empty. *)
Theorem C84_cut_refuted :
  exists payload ts f ss n, payload_ok payload /\ tables_reached ts /\ saved ts f /\ Forall (fun s => t_size s.2 = 0) ss /\ ss.*1 = ts.*1 /\
    exists ss' m, start_from (cut_tables n (full_of payload f)) ss = Some (Ok, ss', m) /\
      (fun s => (s.1, t_size s.2)) <$> ts = [(8, 2); (9, 2)] /\ (fun s => (s.1, t_size s.2)) <$> ss' = [(8, 2); (9, 0)].
Proof.
  exists ex_payload, ex_ts, ex_f, ex_ss, 1%nat. split; [exact ex_payload_ok|]. split; [exact ex_reached|]. split; [exact ex_saved|].
  split; [by repeat constructor|]. split; [done|]. eexists _, _. split; [vm_compute; reflexivity|]. by vm_compute.
Qed.

(** And for a file that is gone: the server starts empty. *)
Theorem C84_no_file_refuted :
  exists payload ts f ss, payload_ok payload /\ tables_reached ts /\ saved ts f /\ Forall (fun s => t_size s.2 = 0) ss /\ ss.*1 = ts.*1 /\
    exists ss' m, start_from (no_tables (full_of payload f)) ss = Some (Ok, ss', m) /\
      (fun s => (s.1, t_size s.2)) <$> ts = [(8, 2); (9, 2)] /\ (fun s => (s.1, t_size s.2)) <$> ss' = [(8, 0); (9, 0)].
Proof.
  exists ex_payload, ex_ts, ex_f, ex_ss. split; [exact ex_payload_ok|]. split; [exact ex_reached|]. split; [exact ex_saved|].
  split; [by repeat constructor|]. split; [done|]. eexists _, _. split; [vm_compute; reflexivity|]. by vm_compute.
Qed.

(** A table file that is damaged after its first record: the status is DataLoss, and
    the first table has been replaced already. *)
Definition spoil_tables (n : nat) (d : fdir) : fdir :=
  mkFDir (fd_chunks d) ((fun f => mkRFile (take n (rf_recs f)) (ReadError DataLoss)) <$> fd_tables d) (fd_done d).
Example C84_damaged_example :
  let d := spoil_tables 1 (full_of ex_payload ex_f) in
  (exists f g, fd_chunks d = Some f /\ fd_tables d = Some g /\ no_notfound f /\ no_notfound g /\ damaged g) /\
  exists ss' m, start_from d ex_ss = Some (DataLoss, ss', m) /\ (fun s => t_size s.2) <$> ss' = [2; 0].
Proof.
  cbv zeta. split.
  - eexists _, _. split; [reflexivity|]. split; [reflexivity|]. split; [done|]. split; [done|]. right. by exists DataLoss.
  - eexists _, _. split; [vm_compute; reflexivity|]. by vm_compute.
Qed.

(** A chunk file that ends too early: the process ends. *)
Example C84_chunk_missing_example : start_from (cut_chunks 0 (full_of ex_payload ex_f)) ex_ss = None.
Proof. by vm_compute. Qed.

(** An old checkpoint: two chunks of two and three rows in two columns and an item
    of the rows 1 to 3. *)
Definition ex_old : fdir :=
  let ten l := mkTensor (TOther 1) [length l] l in
  mkFDir
    (Some (mkRFile [RGood (mkChunkRec 5 1 0 1 0 [] [ten [10; 11]; ten [20; 21]]);
                    RGood (mkChunkRec 6 1 2 4 0 [] [ten [12; 13; 14]; ten [22; 23; 24]])] EndOfFile))
    (Some (mkRFile [RGood (mkTableRec (some_checkpoint 9 (Table.new_table ex_q_cfg) [])
                       [mkItemRec 3 (Fin 1) 0 (1, 0) None (Some (1, 3)) [5; 6]])] EndOfFile)) true.
Definition ex_rows (column : nat) (k : Z) : list Z :=
  match column, k with 0%nat, 5 => [10; 11] | 0%nat, 6 => [12; 13; 14] | 1%nat, 5 => [20; 21] | 1%nat, 6 => [22; 23; 24] | _, _ => [] end.
Example C84_old_example :
  exists ss' m t it, start_from ex_old ex_ss = Some (Ok, ss', m) /\ ss' !! 1%nat = Some (9, t) /\ t_size t = 1 /\
    Table.t_data t !! 3 = Some it /\ it_chunks it = [mkChunk 5 1; mkChunk 6 1] /\
    (forall c, (c < 2)%nat -> window_of (ex_rows c) [5; 6] 1 3) /\
    (fun k => Tensor.t_data <$> (m !! k ≫= fun c => cr_data c !! 1%nat)) <$> [5; 6] = [Some [20; 21]; Some [22; 23; 24]] /\
    imap (fun c col => concat (slice_rows (ex_rows c) <$> col)) (it_traj it) = [[11; 12; 13]; [21; 22; 23]].
Proof.
  eexists _, _, _, _. split; [vm_compute; reflexivity|]. split; [reflexivity|]. split; [by vm_compute|]. split; [vm_compute; reflexivity|].
  split; [by vm_compute|]. split; [|by vm_compute].
  intros c Hc. exists 5. split; [done|]. destruct c as [|[|c]]; [| |lia]; vm_compute; repeat split; congruence.
Qed.

Print Assumptions C84_loaded.
Print Assumptions C84_damaged.
Print Assumptions C84_start_fails.
Print Assumptions C84_chunk_missing.
Print Assumptions C84_as_load.
Print Assumptions C84_saved.
Print Assumptions C84_undamaged.
Print Assumptions C84_undamaged_example.
Print Assumptions C84_cut_refuted.
Print Assumptions C84_no_file_refuted.
Print Assumptions C84_damaged_example.
Print Assumptions C84_chunk_missing_example.
Print Assumptions C84_old_example.
