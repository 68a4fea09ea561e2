(** Invariants of the TrajectoryWriter. *)
From Verif Require Import Base Trajectory Tensor TrajUtil ChunkerOptions Sample Stream Reactor PropTraj PropInsertStream Chunker PropChunker TrajWriter.

(** ** One Chunker *)

Definition cell_le (c c' : cell) : Prop :=
  ce_key c' = ce_key c /\ ce_off c' = ce_off c /\ ce_ep c' = ce_ep c /\ ce_step c' = ce_step c /\
  forall ch, ce_chunk c = Some ch -> ce_chunk c' = Some ch.
Lemma cell_le_refl c : cell_le c c.
Proof. done. Qed.
Lemma cell_le_trans a b c : cell_le a b -> cell_le b c -> cell_le a c.
Proof. intros (A1&A2&A3&A4&A5) (B1&B2&B3&B4&B5). split_and!; try congruence. intros ch H. by apply B5, A5. Qed.

(** Cells with the same key have the same chunk, and their offsets are as far apart
    as the cells are. *)
Definition one_chunk (k : chunker) : Prop := forall i j c d, k_cells k !! i = Some c -> k_cells k !! j = Some d ->
  ce_key c = ce_key d -> ce_off d - ce_off c = Z.of_nat j - Z.of_nat i /\ forall ch, ce_chunk c = Some ch -> ce_chunk d = Some ch.
Definition key_made (e : kev) : option Z := match e with KAppend _ _ _ nk | KFlush nk | KReset nk => Some nk | _ => None end.
(** The cell has its chunk or is in the buffer. *)
Definition k_pend (k : chunker) (i : nat) : Prop := exists c, k_cells k !! i = Some c /\ (ce_chunk c <> None \/ (k_first k <= i)%nat).

Definition k_le (k k' : chunker) : Prop := forall i c, k_cells k !! i = Some c -> exists c', k_cells k' !! i = Some c' /\ cell_le c c'.

Lemma flush_le k h nk st k' : kinv k h -> one_chunk k -> flush_locked k nk = Some (st, k') ->
  k_le k k' /\ one_chunk k' /\ (forall x, x ∈ chunk_keys_of k' -> x ∈ chunk_keys_of k \/ x = nk) /\
  (st = Ok -> forall i c', (k_first k <= i)%nat -> k_cells k' !! i = Some c' -> ce_chunk c' <> None) /\
  (st <> Ok -> k' = k).
Proof.
  intros I HO E. unfold flush_locked in E. destruct (k_buffer k) as [|b0 bs] eqn:Hbuf.
  { injection E as <- <-. split; [intros i c Hc; exists c; split; [done|apply cell_le_refl]|]. split; [done|]. split; [by left|]. split; [|done].
    intros _ i c' Hi Hc. apply lookup_lt_Some in Hc. unfold k_first in Hi. rewrite Hbuf in Hi. cbn in Hi. lia. }
  rewrite <- Hbuf in *. destruct (tf_concat (k_buffer k)) as [b|]; [|injection E as <- <-].
  2: { split; [intros i c Hc; exists c; split; [done|apply cell_le_refl]|]. split; [done|]. split; [by left|]. done. }
  destruct (if get_delta (k_opts k) then delta_encode b true else Some b) as [b'|]; [|done]. cbn [mbind option_bind] in E.
  destruct (range_of _ _ _) as [r|]; [|done]. cbn [mbind option_bind] in E. set (ch := mkChunk _ _ _) in *. injection E as <- <-.
  destruct (ki_act _ _ I) as (lo & Hact & Hlo).
  assert (L : forall i c, k_cells k !! i = Some c -> exists c', set_chunks ch (k_active k) (k_cells k) !! i = Some c' /\ cell_le c c' /\
     (((i < k_first k)%nat /\ c' = c /\ ce_key c <> k_next k) \/ ((k_first k <= i)%nat /\ ce_chunk c' = Some ch /\ ce_key c = k_next k))).
  { intros i c Hc. rewrite set_chunks_lookup, Hc. cbn [fmap option_fmap option_map]. eexists. split; [done|]. pose proof (lookup_lt_Some _ _ _ Hc) as Hi.
    destruct (decide (i < k_first k)%nat) as [Hlt|Hge].
    - pose proof (ki_old _ _ I _ _ Hlt Hc) as Hk. rewrite (proj2 (Z.eqb_neq _ _)) by done. rewrite andb_false_r.
      split; [apply cell_le_refl|]. by left.
    - destruct (ki_new _ _ I (i - k_first k) c) as (Hk & _ & Hn); [by replace (k_first k + (i - k_first k))%nat with i by lia|].
      rewrite (proj2 (Z.eqb_eq _ _)) by done. rewrite bool_decide_true; [|rewrite Hact; apply elem_of_seq; unfold k_first in Hge; lia].
      cbn [andb]. split; [|right; split; [lia|done]]. split_and!; try done. intros ch' H. congruence. }
  assert (L' : forall i c', set_chunks ch (k_active k) (k_cells k) !! i = Some c' -> exists c, k_cells k !! i = Some c /\ cell_le c c' /\
     (((i < k_first k)%nat /\ c' = c /\ ce_key c <> k_next k) \/ ((k_first k <= i)%nat /\ ce_chunk c' = Some ch /\ ce_key c = k_next k))).
  { intros i c' Hc'. destruct (lookup_lt_is_Some_2 (k_cells k) i) as [c Hc]; [apply lookup_lt_Some in Hc'; by rewrite set_chunks_length in Hc'|].
    destruct (L _ _ Hc) as (c2 & H2 & H). assert (c2 = c') as -> by congruence. by exists c. }
  split; [|split; [|split; [|split]]]; cbn [k_cells].
  - intros i c Hc. destruct (L _ _ Hc) as (c' & H1 & H2 & _). by exists c'.
  - intros i j c d Hc Hd Hk. destruct (L' _ _ Hc) as (c0 & Hc0 & (Hk1 & Ho1 & _) & Hcc), (L' _ _ Hd) as (d0 & Hd0 & (Hk2 & Ho2 & _) & Hdd).
    destruct (HO i j c0 d0 Hc0 Hd0) as [Hoff Hch0]; [congruence|]. rewrite Ho1, Ho2. split; [done|]. intros ch1 H1.
    destruct Hcc as [(_ & -> & Hcn)|(_ & Hch & Hcn)], Hdd as [(_ & -> & Hdn)|(_ & Hdh & Hdn)]; try congruence. by apply Hch0.
  - intros x. unfold chunk_keys_of. cbn [k_next k_cells]. intros [->|Hx]%elem_of_cons; [by right|]. left. right.
    apply elem_of_list_fmap in Hx as (c' & -> & Hc'). apply elem_of_list_lookup in Hc' as [i Hc'].
    destruct (L' _ _ Hc') as (c & Hc & (-> & _) & _). apply elem_of_list_fmap. exists c. split; [done|]. by eapply elem_of_list_lookup_2.
  - intros _ i c' Hi Hc'. destruct (L' _ _ Hc') as (c & Hc & _ & [[? _]|(_ & -> & _)]); [lia|done].
  - done.
Qed.

Lemma push_le k h t ep step : kinv k h -> one_chunk k -> k_le k (push k t ep step) /\ one_chunk (push k t ep step) /\
  (forall x, x ∈ chunk_keys_of (push k t ep step) -> x ∈ chunk_keys_of k) /\ k_first (push k t ep step) = k_first k.
Proof.
  intros I HO. destruct (ki_act _ _ I) as (lo & Hact & Hlo). unfold push. split; [|split; [|split]]; cbn [k_cells].
  - intros i c Hc. exists c. split; [by apply lookup_app_l_Some|apply cell_le_refl].
  - intros i j c d Hc Hd Hk. cbn [k_cells] in *.
    assert (N : forall i c, k_cells k !! i = Some c -> ce_key c = k_next k -> k_offset k - ce_off c = Z.of_nat (length (k_cells k)) - Z.of_nat i /\ ce_chunk c = None).
    { intros i' c' Hc' Hk'. pose proof (lookup_lt_Some _ _ _ Hc') as Hi'. destruct (decide (i' < k_first k)%nat) as [Hlt|Hge]; [by destruct (ki_old _ _ I _ _ Hlt Hc')|].
      destruct (ki_new _ _ I (i' - k_first k) c') as (_ & -> & Hn); [by replace (k_first k + (i' - k_first k))%nat with i' by lia|].
      rewrite (ki_off _ _ I). split; [|done]. unfold k_first in *. lia. }
    apply lookup_snoc in Hc as [[Hc _]|[-> ->]], Hd as [[Hd _]|[-> ->]]; cbn [ce_key ce_off ce_chunk] in *.
    + exact (HO i j c d Hc Hd Hk).
    + destruct (N _ _ Hc Hk) as [N1 N2]. split; [done|]. intros ch. by rewrite N2.
    + destruct (N _ _ Hd (eq_sym Hk)) as [N1 N2]. split; [lia|done].
    + split; [lia|done].
  - unfold chunk_keys_of. cbn [k_next k_cells]. intros x [->|Hx]%elem_of_cons; [by left|]. rewrite fmap_app in Hx.
    apply elem_of_app in Hx as [Hx|Hx%elem_of_list_singleton]; [by right|]. subst x. by left.
  - unfold k_first. cbn [k_cells k_buffer]. rewrite !app_length. cbn. lia.
Qed.

Lemma kstep_le k h e k' h' : kinv k h -> one_chunk k -> k_enabled k e -> k_step k h e = Some (k', h') ->
  k_le k k' /\ one_chunk k' /\ (forall x, x ∈ chunk_keys_of k' -> x ∈ chunk_keys_of k \/ key_made e = Some x) /\
  (exists t, h' = h ++ t) /\ (no_reset e -> forall i, k_pend k i -> k_pend k' i).
Proof.
  intros I HO He E.
  assert (R : k_le k k) by (intros i c Hc; exists c; split; [done|apply cell_le_refl]).
  assert (FL : forall k1 h1 nk st k2, kinv k1 h1 -> one_chunk k1 -> flush_locked k1 nk = Some (st, k2) ->
     k_le k1 k2 /\ one_chunk k2 /\ (forall x, x ∈ chunk_keys_of k2 -> x ∈ chunk_keys_of k1 \/ x = nk) /\ (forall i, k_pend k1 i -> k_pend k2 i)).
  { intros k1 h1 nk st k2 I1 O1 F. destruct (flush_le k1 h1 nk st k2 I1 O1 F) as (A1 & A2 & A3 & A4 & A5). split; [done|]. split; [done|]. split; [done|].
    intros i (c & Hc & Hp). destruct (decide (st = Ok)) as [->|Hst]; [|rewrite A5 by done; by exists c].
    destruct (A1 _ _ Hc) as (c' & Hc' & (_ & _ & _ & _ & Hch)). exists c'. split; [done|]. left. destruct Hp as [Hp|Hp].
    - destruct (ce_chunk c) as [ch|]; [|done]. by rewrite (Hch ch).
    - by apply (A4 eq_refl i). }
  destruct e as [t ep step nk|nk|nk|o'|a]; cbn [k_step k_enabled key_made] in *.
  - destruct He as (Ht & Hn1 & Hn2). destruct (push_le k h t ep step I HO) as (P1 & P2 & P3 & P4).
    assert (Pp : forall i, k_pend k i -> k_pend (push k t ep step) i).
    { intros i (c & Hc & Hp). destruct (P1 _ _ Hc) as (c' & Hc' & (_ & _ & _ & _ & Hch)). exists c'. split; [done|]. destruct Hp as [Hp|Hp].
      - left. destruct (ce_chunk c) as [ch|]; [|done]. by rewrite (Hch ch).
      - right. by rewrite P4. }
    destruct (append_cases k h t ep step nk I Ht Hn1 Hn2) as [(st & _ & Eq)|(I1 & [[Hl Eq]|[(_ & k1 & Hf & Eq)|(_ & st & _ & _ & Hf & Eq)]])];
      rewrite Eq in E; cbn [mbind option_bind] in E; injection E as <- Eh.
    + rewrite (proj2 (Nat.ltb_ge _ _)) in Eh by lia. subst h'. split; [done|]. split; [done|]. split; [by left|]. split; [exists []; by rewrite app_nil_r|done].
    + assert (exists t, h' = h ++ t) by (subst h'; destruct (_ <? _)%nat; [by eexists|exists []; by rewrite app_nil_r]).
      split; [exact P1|]. split; [exact P2|]. split; [left; by apply P3|]. split; [done|]. intros _. exact Pp.
    + assert (exists t, h' = h ++ t) by (subst h'; destruct (_ <? _)%nat; [by eexists|exists []; by rewrite app_nil_r]).
      destruct (FL _ _ _ _ _ I1 P2 Hf) as (A1 & A2 & A3 & A4).
      split; [|split; [exact A2|split; [|split; [done|]]]].
      * intros i c Hc. destruct (P1 _ _ Hc) as (c1 & Hc1 & L1). destruct (A1 _ _ Hc1) as (c2 & Hc2 & L2). exists c2. split; [done|]. by eapply cell_le_trans.
      * intros x Hx. destruct (A3 x Hx) as [H1| ->]; [left; by apply P3|by right].
      * intros _ i Hi. apply (A4 i), Pp, Hi.
    + assert (exists t, h' = h ++ t) by (subst h'; destruct (_ <? _)%nat; [by eexists|exists []; by rewrite app_nil_r]).
      split; [exact P1|]. split; [exact P2|]. split; [left; by apply P3|]. split; [done|]. intros _. exact Pp.
  - unfold k_flush in E. destruct (flush_locked k nk) as [[st k1]|] eqn:Hf; [|done]. injection E as <- <-.
    destruct (FL _ _ _ _ _ I HO Hf) as (A1 & A2 & A3 & A4). split; [done|]. split; [done|].
    split; [intros x Hx; destruct (A3 x Hx) as [?| ->]; [by left|by right]|]. split; [exists []; by rewrite app_nil_r|]. intros _. exact A4.
  - injection E as <- <-. split; [exact R|]. split; [exact HO|]. split; [|split; [exists []; by rewrite app_nil_r|intros []]].
    intros x [->|Hx]%elem_of_cons; [by right|]. left. by right.
  - injection E as <- <-. unfold k_apply_config. destruct (k_buffer k) as [|b0 bs] eqn:Hbuf.
    2: { split; [exact R|]. split; [exact HO|]. split; [by left|]. split; [exists []; by rewrite app_nil_r|done]. }
    destruct (bool_decide _); (split; [exact R|]; split; [exact HO|]; split; [by left|]; split; [exists []; by rewrite app_nil_r|]); [|done].
    intros _ i (c & Hc & Hp). exists c. split; [done|]. cbn [snd]. unfold k_first in *. cbn [k_cells k_buffer trim]. by rewrite Hbuf in Hp.
  - injection E as <- <-. split; [exact R|]. split; [exact HO|]. split; [by left|]. split; [exists []; by rewrite app_nil_r|].
    intros _ i (c & Hc & Hp). by exists c.
Qed.

(** ** The columns *)

Notation cmap := (gmap nat (chunker * hist)).
Definition cell_at (m : cmap) (r : ref) : option cell := '(k, _) ← m !! r.1; k_cells k !! r.2.
Definition tensor_at (m : cmap) (r : ref) : option tensor := '(_, h) ← m !! r.1; h_tensor <$> h !! r.2.
Definition spec_at (m : cmap) (r : ref) : option tspec := '(k, _) ← m !! r.1; Some (k_spec k).
Definition ready (m : cmap) (r : ref) : Prop := exists c ch, cell_at m r = Some c /\ ce_chunk c = Some ch.
Definition pend (m : cmap) (r : ref) : Prop := exists k h, m !! r.1 = Some (k, h) /\ k_pend k r.2.

Definition col_ok (p : chunker * hist) : Prop := kinv p.1 p.2 /\ one_chunk p.1 /\ fully_defined (k_spec p.1).
Definition no_key (m : cmap) (x : Z) : Prop := forall c k h, m !! c = Some (k, h) -> x ∉ chunk_keys_of k.
Definition colsinv (m : cmap) : Prop :=
  (forall c k h, m !! c = Some (k, h) -> col_ok (k, h)) /\
  (forall c d k h k' h' x, m !! c = Some (k, h) -> m !! d = Some (k', h') -> x ∈ chunk_keys_of k -> x ∈ chunk_keys_of k' -> c = d).
Definition cols_le (m m' : cmap) : Prop := forall c k h, m !! c = Some (k, h) ->
  exists k' h', m' !! c = Some (k', h') /\ k_le k k' /\ (exists t, h' = h ++ t) /\ k_spec k' = k_spec k.
Definition pend_le (m m' : cmap) : Prop := forall r, pend m r -> pend m' r.

Lemma k_le_refl k : k_le k k.
Proof. intros i c Hc. exists c. split; [done|apply cell_le_refl]. Qed.
Lemma cols_le_refl m : cols_le m m.
Proof. intros c k h H. exists k, h. split; [done|]. split; [apply k_le_refl|]. split; [exists []; by rewrite app_nil_r|done]. Qed.
Lemma cols_le_trans a b c : cols_le a b -> cols_le b c -> cols_le a c.
Proof.
  intros H1 H2 i k h Hi. destruct (H1 _ _ _ Hi) as (k1 & h1 & E1 & L1 & (t1 & ->) & S1). destruct (H2 _ _ _ E1) as (k2 & h2 & E2 & L2 & (t2 & ->) & S2).
  eexists _, _. split; [done|]. split; [|split; [exists (t1 ++ t2); by rewrite app_assoc|congruence]].
  intros j x Hx. destruct (L1 _ _ Hx) as (y & Hy & A). destruct (L2 _ _ Hy) as (z & Hz & B). exists z. split; [done|]. by eapply cell_le_trans.
Qed.
Lemma pend_le_refl m : pend_le m m. Proof. by intros r. Qed.
Lemma pend_le_trans a b c : pend_le a b -> pend_le b c -> pend_le a c.
Proof. intros H1 H2 r H. by apply H2, H1. Qed.

Lemma cell_le_at m m' r c : cols_le m m' -> cell_at m r = Some c -> exists c', cell_at m' r = Some c' /\ cell_le c c'.
Proof.
  intros L H. unfold cell_at in *. destruct (m !! r.1) as [[k h]|] eqn:E; [|done]. cbn [mbind option_bind] in H.
  destruct (L _ _ _ E) as (k' & h' & -> & L1 & _). cbn [mbind option_bind]. by apply L1.
Qed.
Lemma tensor_at_le m m' r t : cols_le m m' -> tensor_at m r = Some t -> tensor_at m' r = Some t.
Proof.
  intros L H. unfold tensor_at in *. destruct (m !! r.1) as [[k h]|] eqn:E; [|done]. cbn [mbind option_bind] in H.
  destruct (L _ _ _ E) as (k' & h' & -> & _ & (u & ->) & _). cbn [mbind option_bind]. destruct (h !! r.2) as [x|] eqn:Ex; [|done].
  by rewrite (lookup_app_l_Some _ _ _ _ Ex).
Qed.
Lemma ready_le m m' r : cols_le m m' -> ready m r -> ready m' r.
Proof. intros L (c & ch & H1 & H2). destruct (cell_le_at _ _ _ _ L H1) as (c' & H3 & (_ & _ & _ & _ & H4)). exists c', ch. split; [done|]. by apply H4. Qed.

Lemma insert_col m c k h e k' h' : colsinv m -> m !! c = Some (k, h) -> k_enabled k e ->
  (forall x, key_made e = Some x -> no_key m x) -> k_step k h e = Some (k', h') ->
  colsinv (<[c := (k', h')]> m) /\ cols_le m (<[c := (k', h')]> m) /\ (no_reset e -> pend_le m (<[c := (k', h')]> m)).
Proof.
  intros [I1 I2] Hc He Hf E. destruct (I1 _ _ _ Hc) as (Ik & Ok' & Fd). cbn [fst snd] in *.
  destruct (kstep_le k h e k' h' Ik Ok' He E) as (L1 & L2 & L3 & L4 & L5).
  destruct (step_inv k h e Ik He) as (k2 & h2 & E2 & Ik2 & Hs). rewrite E in E2. injection E2 as <- <-.
  split; [split|split].
  - intros d k1 h1 Hd. apply lookup_insert_Some in Hd as [[<- [= <- <-]]|[_ Hd]]; [|by apply (I1 _ _ _ Hd)].
    split; [done|]. split; [done|]. cbn [fst]. by rewrite Hs.
  - assert (D : forall d k1 h1 x, c <> d -> m !! d = Some (k1, h1) -> x ∈ chunk_keys_of k' -> x ∈ chunk_keys_of k1 -> False).
    { intros d k1 h1 x Hne Hd H1 H2. destruct (L3 x H1) as [H3|H3]; [by apply Hne, (I2 c d _ _ _ _ x Hc Hd)|]. by apply (Hf x H3 _ _ _ Hd). }
    intros a b k1 h1 k2 h2 x Ha Hb H1 H2.
    apply lookup_insert_Some in Ha as [[<- [= <- <-]]|[Hca Ha]], Hb as [[<- [= <- <-]]|[Hcb Hb]]; [done|..].
    + exfalso. by apply (D b k2 h2 x).
    + exfalso. by apply (D a k1 h1 x).
    + by apply (I2 a b _ _ _ _ x Ha Hb).
  - intros d k1 h1 Hd. destruct (decide (c = d)) as [<-|Hne].
    + assert (k1 = k /\ h1 = h) as [-> ->] by (split; congruence). exists k', h'. rewrite lookup_insert. done.
    + rewrite lookup_insert_ne by done. by apply cols_le_refl.
  - intros Hr r (k1 & h1 & Hd & Hp). unfold pend. destruct (decide (c = r.1)) as [->|Hne].
    + assert (k1 = k /\ h1 = h) as [-> ->] by (split; congruence). exists k', h'. rewrite lookup_insert. split; [done|]. by apply L5.
    + exists k1, h1. rewrite lookup_insert_ne by done. done.
Qed.

Lemma no_key_insert m c k h e k' h' x : colsinv m -> m !! c = Some (k, h) -> k_enabled k e -> k_step k h e = Some (k', h') ->
  key_made e <> Some x -> no_key m x -> no_key (<[c := (k', h')]> m) x.
Proof.
  intros [I1 I2] Hc He E Hx Hn d k1 h1 Hd. destruct (I1 _ _ _ Hc) as (Ik & Ok' & Fd).
  destruct (kstep_le k h e k' h' Ik Ok' He E) as (L1 & L2 & L3 & L4 & L5).
  apply lookup_insert_Some in Hd as [[<- [= <- <-]]|[_ Hd]]; [|by apply (Hn _ _ _ Hd)].
  intros H. destruct (L3 x H) as [H3|H3]; [|done]. by apply (Hn _ _ _ Hc).
Qed.
Lemma no_key_enabled m c k h x : no_key m x -> m !! c = Some (k, h) -> x <> k_next k /\ x ∉ (ce_key <$> k_cells k).
Proof. intros Hn Hc. specialize (Hn _ _ _ Hc). unfold chunk_keys_of in Hn. by apply not_elem_of_cons in Hn. Qed.

(** *** Append makes the Chunkers that are missing *)

Lemma clone_ok o : validate_options o = Ok -> validate_options (clone o) = Ok.
Proof.
  intros H. pose proof (opts_bounds _ H). unfold validate_options. destruct o as [m k d|a]; cbn in *.
  - destruct (Z.leb_spec m 0); [lia|]. destruct (Z.leb_spec k 0); [lia|]. destruct (Z.ltb_spec k m); [lia|]. done.
  - destruct (Z.leb_spec (au_keep a) 0); [lia|]. destruct (Z.ltb_spec (au_keep a) 1); [lia|]. done.
Qed.

Lemma set_cols_cols w m m' : set_cols (set_cols w m) m' = set_cols w m'. Proof. done. Qed.
Lemma set_cols_id w : set_cols w (w_cols w) = w. Proof. by destruct w. Qed.

Lemma add_chunkers_spec data nk : forall w i, colsinv (w_cols w) -> validate_options (w_defo w) = Ok ->
  (forall c o, w_over w !! c = Some o -> validate_options o = Ok) ->
  (forall c, no_key (w_cols w) (nk c) \/ (c < i)%nat) -> (forall c d, nk c = nk d -> c = d) ->
  exists m', add_chunkers w i data nk = Some (set_cols w m') /\ colsinv m' /\ cols_le (w_cols w) m' /\
    (forall c k h, w_cols w !! c = Some (k, h) -> m' !! c = Some (k, h)) /\
    (forall j t, data !! j = Some (Some t) -> is_Some (m' !! (i + j)%nat)).
Proof.
  induction data as [|[t|] data IH]; intros w i I Hd Ho Hf Hi; cbn [add_chunkers].
  - exists (w_cols w). split; [by rewrite set_cols_id|]. split; [done|]. split; [apply cols_le_refl|]. done.
  - destruct (w_cols w !! i) as [[k h]|] eqn:Ei.
    + destruct (IH w (S i) I Hd Ho) as (m' & E & I' & L & P & Q); [|done|].
      { intros c. destruct (Hf c); [by left|right; lia]. }
      exists m'. split; [done|]. split; [done|]. split; [done|]. split; [done|]. intros [|j] u Hj.
      * rewrite Nat.add_0_r. rewrite (P _ _ _ Ei). by eexists.
      * replace (i + S j)%nat with (S i + j)%nat by lia. by eapply Q.
    + set (o := default (w_defo w) (w_over w !! i)).
      assert (Hov : validate_options (clone o) = Ok).
      { apply clone_ok. unfold o. destruct (w_over w !! i) as [o'|] eqn:E; [by apply (Ho _ _ E)|done]. }
      pose proof (opts_bounds _ Hov) as Hb. unfold k_new. rewrite (proj2 (Z.leb_le _ _)) by lia. cbn [mbind option_bind].
      set (sp := mkTspec _ _). set (k := mkChunker sp (clone o) [] 0 (nk i) [] []).
      assert (Hk : k_new sp (clone o) (nk i) = Some k) by (unfold k_new; by rewrite (proj2 (Z.leb_le _ _)) by lia).
      assert (Hfi : no_key (w_cols w) (nk i)) by (destruct (Hf i); [done|lia]).
      assert (I2 : colsinv (<[i := (k, [])]> (w_cols w))).
      { destruct I as [I1 I2]. split.
        - intros d k1 h1 Hd'. apply lookup_insert_Some in Hd' as [[<- [= <- <-]]|[_ Hd']]; [|by apply (I1 _ _ _ Hd')].
          split; [by eapply new_inv|]. split; [by intros i' j' c' d'|]. by eexists.
        - intros a b k1 h1 k2 h2 x Ha Hb' H1 H2.
          apply lookup_insert_Some in Ha as [[<- [= <- <-]]|[Hca Ha]], Hb' as [[<- [= <- <-]]|[Hcb Hb']]; [done|..].
          + apply elem_of_list_singleton in H1 as ->. exfalso. by apply (Hfi _ _ _ Hb').
          + apply elem_of_list_singleton in H2 as ->. exfalso. by apply (Hfi _ _ _ Ha).
          + by apply (I2 a b _ _ _ _ x Ha Hb'). }
      destruct (IH (set_cols w (<[i := (k, [])]> (w_cols w))) (S i) I2 Hd Ho) as (m' & E & I' & L & P & Q); [|done|].
      { intros c. destruct (Hf c) as [Hc|]; [|right; lia]. destruct (decide (c = i)) as [->|Hne]; [right; lia|]. left.
        intros d k1 h1 Hd'. cbn [w_cols set_cols] in Hd'. apply lookup_insert_Some in Hd' as [[<- [= <- <-]]|[_ Hd']]; [|by apply (Hc _ _ _ Hd')].
        intros H%elem_of_list_singleton. cbn in H. apply Hi in H. done. }
      cbn [w_cols set_cols] in *. exists m'. split; [by rewrite set_cols_cols in E|]. split; [done|].
      assert (P' : forall c k1 h1, w_cols w !! c = Some (k1, h1) -> m' !! c = Some (k1, h1)).
      { intros c k1 h1 Hc. apply P. by rewrite lookup_insert_ne by congruence. }
      split; [|split; [exact P'|]].
      * intros c k1 h1 Hc. exists k1, h1. split; [by apply P'|]. split; [apply k_le_refl|]. split; [exists []; by rewrite app_nil_r|done].
      * intros [|j] u Hj.
        -- rewrite Nat.add_0_r. rewrite (P i k []) by (by rewrite lookup_insert). by eexists.
        -- replace (i + S j)%nat with (S i + j)%nat by lia. by eapply Q.
  - destruct (IH w (S i) I Hd Ho) as (m' & E & I' & L & P & Q); [|done|].
    { intros c. destruct (Hf c); [by left|right; lia]. }
    exists m'. split; [done|]. split; [done|]. split; [done|]. split; [done|]. intros [|j] u Hj; [done|].
    replace (i + S j)%nat with (S i + j)%nat by lia. by eapply Q.
Qed.

(** *** Flushing *)

Lemma flush_ok m c k h nk : colsinv m -> m !! c = Some (k, h) -> no_key m nk ->
  exists k', k_flush k nk = Some (Ok, k') /\ k_step k h (KFlush nk) = Some (k', h) /\ k_buffer k' = [] /\
    (forall i, k_pend k i -> exists c' ch, k_cells k' !! i = Some c' /\ ce_chunk c' = Some ch).
Proof.
  intros [I1 _] Hc Hn. destruct (I1 _ _ _ Hc) as (Ik & O1 & Fd). cbn [fst snd] in *. destruct (no_key_enabled _ _ _ _ _ Hn Hc) as [Hn1 Hn2].
  unfold k_flush. destruct (flush_inv k h nk Ik Hn1 Hn2) as (st & k' & E & I' & _ & _ & Ha & Hl & H5 & H6).
  assert (st = Ok) as ->.
  { destruct (decide (st = Ok)) as [|Hne]; [done|]. destruct (H6 Hne) as (_ & Hcc & Hb). exact (False_ind _ (defined_concat k h Ik Fd Hb Hcc)). }
  exists k'. split; [done|]. cbn [k_step]. unfold k_flush. rewrite E. cbn [mbind option_bind]. split; [done|]. split; [by apply H5|].
  destruct (flush_le k h nk Ok k' Ik O1 E) as (A1 & _ & _ & A4 & _). intros i (x & Hx & Hp). destruct (A1 _ _ Hx) as (x' & Hx' & (_ & _ & _ & _ & Hch)).
  destruct Hp as [Hp|Hp].
  - destruct (ce_chunk x) as [ch|]; [|done]. exists x', ch. split; [done|]. by apply Hch.
  - destruct (ce_chunk x') as [ch|] eqn:Hch'; [by exists x', ch|]. exfalso. by apply (A4 eq_refl i x').
Qed.

Lemma is_ready_spec w r : is_ready w r = true <-> ready (w_cols w) r.
Proof.
  unfold is_ready, ready. change (w_cell w r) with (cell_at (w_cols w) r). destruct (cell_at (w_cols w) r) as [c|].
  - destruct (ce_chunk c) as [ch|] eqn:E; split; try done.
    + intros _. by exists c, ch.
    + intros (c' & ch & [= <-] & H). congruence.
  - split; [done|]. by intros (c' & ch & ? & _).
Qed.

Lemma force_flush_spec rs nk : forall w, colsinv (w_cols w) -> Forall (pend (w_cols w)) rs -> (forall c d, nk c = nk d -> c = d) ->
  (forall c, no_key (w_cols w) (nk c) \/ forall k h, w_cols w !! c = Some (k, h) -> k_buffer k = []) ->
  exists m', force_flush w rs nk = Some (Ok, set_cols w m') /\ colsinv m' /\ cols_le (w_cols w) m' /\ pend_le (w_cols w) m' /\ Forall (ready m') rs.
Proof.
  induction rs as [|r rs IH]; intros w I Hp Hi Hf; cbn [force_flush].
  - exists (w_cols w). split; [by rewrite set_cols_id|]. split; [done|]. split; [apply cols_le_refl|]. split; [apply pend_le_refl|constructor].
  - pose proof (Forall_inv Hp) as Hpr. pose proof (Forall_inv_tail Hp) as Hps. cbn in Hps. destruct (is_ready w r) eqn:Hr.
    + apply is_ready_spec in Hr. destruct (IH w I Hps Hi Hf) as (m' & E & I' & L & P & Q). exists m'. split; [done|]. split; [done|]. split; [done|]. split; [done|].
      constructor; [by eapply ready_le|done].
    + destruct Hpr as (k & h & Hk & Hkp). rewrite Hk. cbn [mbind option_bind].
      assert (Hn : no_key (w_cols w) (nk r.1)).
      { destruct (Hf r.1) as [Hn|Hb]; [done|]. exfalso. assert (ready (w_cols w) r); [|rewrite <- is_ready_spec in *; congruence].
        destruct Hkp as (x & Hx & [Hx1|Hx1]).
        - destruct (ce_chunk x) as [ch|] eqn:Ech; [|done]. exists x, ch. split; [|done]. unfold cell_at. by rewrite Hk.
        - apply lookup_lt_Some in Hx. unfold k_first in Hx1. rewrite (Hb _ _ Hk) in Hx1. cbn in Hx1. lia. }
      destruct (flush_ok _ _ _ _ _ I Hk Hn) as (k' & E1 & E2 & Hb & Hrd). rewrite E1. cbn [mbind option_bind]. unfold col_step. rewrite Hk. cbn [mbind option_bind]. rewrite E2.
      cbn [mbind option_bind]. rewrite bool_decide_true by done.
      assert (He : k_enabled k (KFlush (nk r.1))) by (by apply (no_key_enabled (w_cols w) r.1 k h)).
      destruct (insert_col (w_cols w) r.1 k h (KFlush (nk r.1)) k' h I Hk He) as (I2 & L2 & P2); [by intros x [= <-]|done|].
      destruct (IH (set_cols w (<[r.1 := (k', h)]> (w_cols w)))) as (m' & E & I' & L & P & Q); cbn [w_cols set_cols] in *.
      * done.
      * eapply Forall_impl; [exact Hps|]. intros x Hx. by apply P2.
      * done.
      * intros c. destruct (decide (c = r.1)) as [->|Hne].
        -- right. intros k1 h1. rewrite lookup_insert. by intros [= <- <-].
        -- destruct (Hf c) as [Hc|Hc].
           ++ left. eapply no_key_insert; try done. cbn. intros [= H]. apply Hi in H. done.
           ++ right. intros k1 h1. rewrite lookup_insert_ne by done. apply Hc.
      * exists m'. rewrite set_cols_cols in E. split; [done|]. split; [done|]. split; [by eapply cols_le_trans|].
        split; [eapply pend_le_trans; [by apply P2|done]|]. constructor; [|done]. eapply ready_le; [exact L|].
        destruct (Hrd _ Hkp) as (c' & ch & Hc' & Hch). exists c', ch. split; [|done]. unfold cell_at. rewrite lookup_insert. done.
Qed.

Lemma end_chunkers_spec cs clear nk : forall w, NoDup cs -> colsinv (w_cols w) -> (forall c, c ∈ cs -> is_Some (w_cols w !! c)) -> (forall c d, nk c = nk d -> c = d) ->
  (forall c, c ∈ cs -> no_key (w_cols w) (nk c)) ->
  exists m', end_chunkers w clear cs nk = Some (Ok, set_cols w m') /\ colsinv m' /\ cols_le (w_cols w) m'.
Proof.
  induction cs as [|c cs IH]; intros w Hnd I Hs Hi Hf; cbn [end_chunkers].
  - exists (w_cols w). split; [by rewrite set_cols_id|]. split; [done|]. apply cols_le_refl.
  - apply NoDup_cons in Hnd as [Hc Hnd]. destruct (Hs c) as [[k h] Hk]; [apply elem_of_list_here|].
    pose proof (Hf c (elem_of_list_here _ _)) as Hn.
    assert (REST : forall e k' h', k_enabled k e -> key_made e = Some (nk c) -> k_step k h e = Some (k', h') ->
      exists m', end_chunkers (set_cols w (<[c := (k', h')]> (w_cols w))) clear cs nk = Some (Ok, set_cols w m') /\ colsinv m' /\ cols_le (w_cols w) m').
    { intros e k' h' He Hm E. destruct (insert_col (w_cols w) c k h e k' h' I Hk He) as (I2 & L2 & _); [intros x Hx; rewrite Hm in Hx; by injection Hx as <-|done|].
      destruct (IH (set_cols w (<[c := (k', h')]> (w_cols w)))) as (m' & E' & I' & L'); cbn [w_cols set_cols]; try done.
      - intros d Hd. destruct (decide (c = d)) as [->|]; [rewrite lookup_insert; by eexists|]. rewrite lookup_insert_ne by done. apply Hs. by apply elem_of_list_further.
      - intros d Hd. eapply no_key_insert; try done.
        + rewrite Hm. intros [= H]. apply Hi in H. by subst d.
        + apply Hf. by apply elem_of_list_further.
      - exists m'. rewrite set_cols_cols in E'. split; [done|]. split; [done|]. by eapply cols_le_trans. }
    destruct (no_key_enabled _ _ _ _ _ Hn Hk) as [Hn1 Hn2]. destruct clear.
    + unfold col_step. rewrite Hk. cbn [mbind option_bind k_step]. by apply (REST (KReset (nk c))).
    + destruct (flush_ok _ _ _ _ _ I Hk Hn) as (k' & E1 & E2 & _). rewrite Hk. cbn [mbind option_bind]. rewrite E1. cbn [mbind option_bind].
      unfold col_step. rewrite Hk. cbn [mbind option_bind]. rewrite E2. cbn [mbind option_bind]. rewrite bool_decide_true by done.
      by apply (REST (KFlush (nk c))).
Qed.

(** ** The writer *)

Definition keys_in (req : list kchunk) : gset Z := list_to_set (kc_key <$> req).
Definition held (wire : list ireq) : gset Z := foldl held_after ∅ wire.
Definition from_cell (m : cmap) (kc : kchunk) : Prop :=
  exists r c ch, cell_at m r = Some c /\ ce_chunk c = Some ch /\ kc = mkKchunk (ck_key ch) (ck_data ch).
Definition key_in (m : cmap) (s : gset Z) (r : ref) : Prop := exists c, cell_at m r = Some c /\ ce_key c ∈ s.

(** A column as CreateItem accepts it. *)
Definition col_fine (m : cmap) (col : list ref * bool) : Prop :=
  col.1 <> [] /\ (col.2 = true -> length col.1 = 1%nat) /\ Forall (fun r => is_Some (cell_at m r)) col.1 /\
  exists ty sh, Forall (fun r => spec_at m r = Some (mkTspec ty (Some (Some <$> sh)))) col.1.
Definition item_fine (m : cmap) (p : witem * list (list ref * bool)) : Prop :=
  p.2 <> [] /\ wi_refs p.1 = concat (fst <$> p.2) /\ wi_squeeze p.1 = snd <$> p.2 /\
  wi_traj p.1 = merge_adjacent <$> (omap (cell_at m) <$> (fst <$> p.2)) /\ Forall (col_fine m) p.2.

(** The column fits a specification of the table's signature; all columns of the
    item fit it. *)
Definition fits (m : cmap) (sp : tspec) (col : list ref * bool) : Prop :=
  exists ty sh, Forall (fun r => spec_at m r = Some (mkTspec ty (Some (Some <$> sh)))) col.1 /\ sp_ty sp = ty /\
    pshape_compatible (sp_shape sp) (Some (if col.2 then Some <$> sh else Some (length col.1) :: (Some <$> sh))) = true.
Definition sig_fine (sigs : option (gmap Z (option (list tspec)))) (m : cmap) (p : witem * list (list ref * bool)) : Prop :=
  forall mm, sigs = Some mm -> exists os, mm !! wi_table p.1 = Some os /\ forall sig, os = Some sig -> Forall2 (fits m) sig p.2.

(** What every message satisfies, given the chunks the server holds before it. *)
Definition message_ok (h : gset Z) (r : ireq) : Prop :=
  (ir_chunks r <> [] \/ ir_item r <> None) /\
  forall it, ir_item r = Some it -> NoDup (ii_keep it) /\ (forall k, k ∈ ii_keep it -> k ∈ h ∪ keys_in (ir_chunks r)) /\
    (forall k, k ∈ get_chunk_keys (ii_traj it) -> k ∈ h ∪ keys_in (ir_chunks r)).
Fixpoint wire_ok (h : gset Z) (rs : list ireq) : Prop :=
  match rs with [] => True | r :: rs => message_ok h r /\ wire_ok (held_after h r) rs end.
Definition message_from (m : cmap) (created : list (witem * list (list ref * bool))) (r : ireq) : Prop :=
  Forall (from_cell m) (ir_chunks r) /\
  forall ii, ir_item r = Some ii -> exists it cols, (it, cols) ∈ created /\ ii_key ii = wi_key it /\ ii_table ii = wi_table it /\ ii_traj ii = wi_traj it.

Definition sent_inv (m : cmap) (wire : list ireq) (s : gset Z) (req : list kchunk) : Prop :=
  s ⊆ held wire ∪ keys_in req /\ Forall (from_cell m) req.
Definition pos_inv (m : cmap) (q : list witem) (fa : gset Z) (wire : list ireq) (p : wpos) : Prop :=
  match p with
  | WStart | WFinish | WDone => True
  | WTop s req => sent_inv m wire s req
  | WChunks it rest s req => head q = Some it /\ sent_inv m wire s req /\ Forall (fun r => r ∈ wi_refs it) rest
  | WCheck it s req | WWait it s req _ => head q = Some it /\ sent_inv m wire s req
  | WSend it s req => head q = Some it /\ sent_inv m wire s req /\ Forall (key_in m (held wire ∪ keys_in req)) (wi_refs it) /\ wi_key it ∈ fa
  | WPop it s => head q = Some it /\ s ⊆ held wire /\ wi_key it ∈ fa
  end.
Definition user_inv (m : cmap) (q : list witem) (ep stp : Z) (u : ucall) : Prop :=
  match u with
  | UIdle => True
  | UAppend i rest _ e s => e = ep /\ s = stp /\ forall j t, rest !! j = Some (Some t) -> is_Some (m !! (i + j)%nat) /\ tensor_ok t
  | UWait n fin => Forall (ready m) (concat (wi_refs <$> take (Z.to_nat (Z.of_nat (length q) - n)) q)) /\
      match fin with FinFlush => True | FinEpisode _ => n = 0 end
  end.
Definition created_keys (l : list (witem * list (list ref * bool))) : list Z := (fun p => wi_key p.1) <$> l.

Record winv (w : tw) : Prop := {
  v_cols : colsinv (w_cols w);
  v_defo : validate_options (w_defo w) = Ok;
  v_over : forall c o, w_over w !! c = Some o -> validate_options o = Ok;
  v_items : Forall (item_fine (w_cols w)) (w_created w);
  v_sigs : Forall (sig_fine (w_sigs w) (w_cols w)) (w_created w);
  v_queue : exists popped, w_created w = popped ++ drop (length popped) (w_created w) /\
    (drop (length popped) (w_created w)).*1 = w_queue w /\ Forall (fun p => wi_key p.1 ∈ w_flight w ∪ w_acked w) popped;
  v_keys : NoDup (created_keys (w_created w));
  v_pend : Forall (fun it => Forall (pend (w_cols w)) (wi_refs it)) (w_queue w);
  v_wire : wire_ok ∅ (w_wire w);
  v_from : Forall (message_from (w_cols w) (w_created w)) (w_wire w);
  v_pos : pos_inv (w_cols w) (w_queue w) (w_flight w ∪ w_acked w) (w_wire w) (w_pos w);
  v_user : user_inv (w_cols w) (w_queue w) (w_ep w) (w_stp w) (w_user w);
  v_done : w_pos w = WDone -> w_unrec w <> Ok;
  v_known : forall x, x ∈ w_flight w ∪ w_acked w -> x ∈ created_keys (w_created w) }.

Lemma held_snoc wire r : held (wire ++ [r]) = held_after (held wire) r.
Proof. unfold held. by rewrite foldl_snoc. Qed.
Lemma wire_ok_snoc wire r : forall h, wire_ok h (wire ++ [r]) <-> wire_ok h wire /\ message_ok (foldl held_after h wire) r.
Proof. induction wire as [|x wire IH]; intros h; cbn; [tauto|]. rewrite IH. tauto. Qed.

Lemma from_cell_le m m' kc : cols_le m m' -> from_cell m kc -> from_cell m' kc.
Proof. intros L (r & c & ch & H1 & H2 & ->). destruct (cell_le_at _ _ _ _ L H1) as (c' & H3 & (_ & _ & _ & _ & H4)). exists r, c', ch. split; [done|]. split; [by apply H4|done]. Qed.
Lemma key_in_le m m' s r : cols_le m m' -> key_in m s r -> key_in m' s r.
Proof. intros L (c & H1 & H2). destruct (cell_le_at _ _ _ _ L H1) as (c' & H3 & (H4 & _)). exists c'. split; [done|]. by rewrite H4. Qed.
Lemma spec_at_le m m' r s : cols_le m m' -> spec_at m r = Some s -> spec_at m' r = Some s.
Proof.
  intros L H. unfold spec_at in *. destruct (m !! r.1) as [[k h]|] eqn:E; [|done]. cbn [mbind option_bind] in H.
  destruct (L _ _ _ E) as (k' & h' & -> & _ & _ & Hs). cbn [mbind option_bind]. by rewrite Hs.
Qed.
Lemma col_fine_le m m' col : cols_le m m' -> col_fine m col -> col_fine m' col.
Proof.
  intros L (H1 & H2 & H3 & ty & sh & H4). split; [done|]. split; [done|]. split.
  - eapply Forall_impl; [exact H3|]. intros r [c Hc]. destruct (cell_le_at _ _ _ _ L Hc) as (c' & Hc' & _). by eexists.
  - exists ty, sh. eapply Forall_impl; [exact H4|]. intros r Hr. by eapply spec_at_le.
Qed.

(** Slices are made of keys and offsets only. *)
Definition same_place (c c' : cell) : Prop := ce_key c' = ce_key c /\ ce_off c' = ce_off c.
Lemma merge_from_same cs cs' : Forall2 same_place cs cs' -> forall cur, merge_from cur cs' = merge_from cur cs.
Proof.
  induction 1 as [|c c' cs cs' [H1 H2] H IH]; intros cur; [done|]. cbn [merge_from]. rewrite H1. destruct (_ =? _); [apply IH|].
  unfold new_slice. rewrite H1, H2. f_equal. apply IH.
Qed.
Lemma merge_same cs cs' : Forall2 same_place cs cs' -> merge_adjacent cs' = merge_adjacent cs.
Proof. intros H. destruct H as [|c c' cs cs' [H1 H2] H]; [done|]. cbn. unfold new_slice. rewrite H1, H2. by apply merge_from_same. Qed.
Lemma omap_le m m' refs : cols_le m m' -> Forall (fun r => is_Some (cell_at m r)) refs -> Forall2 same_place (omap (cell_at m) refs) (omap (cell_at m') refs).
Proof.
  intros L. induction 1 as [|r refs [c Hc] H IH]; [constructor|]. cbn. destruct (cell_le_at _ _ _ _ L Hc) as (c' & Hc' & (H1 & H2 & _)).
  rewrite Hc, Hc'. by constructor.
Qed.
Lemma item_fine_le m m' p : cols_le m m' -> item_fine m p -> item_fine m' p.
Proof.
  intros L (H0 & H1 & H2 & H3 & H4). split; [done|]. split; [done|]. split; [done|]. split.
  - rewrite H3. clear H0 H1 H2 H3. induction H4 as [|col cols H H4 IH]; [done|]. cbn. f_equal; [|exact IH]. symmetry. apply merge_same, omap_le; [done|]. apply H.
  - eapply Forall_impl; [exact H4|]. intros col Hc. by eapply col_fine_le.
Qed.
Lemma sig_fine_le sigs m m' p : cols_le m m' -> sig_fine sigs m p -> sig_fine sigs m' p.
Proof.
  intros L H mm Hm. destruct (H mm Hm) as (os & H1 & H2). exists os. split; [done|]. intros sig Hs. eapply Forall2_impl; [by apply H2|].
  intros sp col (ty & sh & H3 & H4 & H5). exists ty, sh. split; [|done]. eapply Forall_impl; [exact H3|]. intros r. by apply spec_at_le.
Qed.
Lemma sent_inv_le m m' wire s req : cols_le m m' -> sent_inv m wire s req -> sent_inv m' wire s req.
Proof. intros L (H1 & H2). split; [done|]. eapply Forall_impl; [exact H2|]. intros x. by apply from_cell_le. Qed.

(** The columns change. *)
Lemma pos_inv_le m m' q fa wire p : cols_le m m' -> pos_inv m q fa wire p -> pos_inv m' q fa wire p.
Proof.
  intros L. pose proof (sent_inv_le m m') as S. destruct p; cbn; try done.
  - by apply S.
  - intros (H1 & H2 & H3). split; [done|]. split; [by apply S|done].
  - intros (H1 & H2). split; [done|]. by apply S.
  - intros (H1 & H2). split; [done|]. by apply S.
  - intros (H1 & H2 & H3 & H4). split; [done|]. split; [by apply S|]. split; [|done]. eapply Forall_impl; [exact H3|]. intros x. by apply key_in_le.
Qed.
Lemma winv_cols w m' : winv w -> colsinv m' -> cols_le (w_cols w) m' -> (pend_le (w_cols w) m' \/ w_queue w = []) -> winv (set_cols w m').
Proof.
  intros [] C L P. constructor; cbn [w_cols w_over w_defo w_sigs w_ep w_stp w_queue w_flight w_closed w_unrec w_pos w_user w_wire w_acked w_created set_cols]; try done.
  - eapply Forall_impl; [exact v_items0|]. intros x. by apply item_fine_le.
  - eapply Forall_impl; [exact v_sigs0|]. intros x. by apply sig_fine_le.
  - destruct P as [P|P]; [|rewrite P; constructor]. eapply Forall_impl; [exact v_pend0|]. intros x Hx. eapply Forall_impl; [exact Hx|]. exact P.
  - eapply Forall_impl; [exact v_from0|]. intros x [H1 H2]. split; [|done]. eapply Forall_impl; [exact H1|]. intros y. by apply from_cell_le.
  - by eapply pos_inv_le.
  - destruct (w_user w) as [|i rest inc e s|n fin]; cbn in *; [done|..].
    + destruct v_user0 as (H1 & H2 & H3). split; [done|]. split; [done|]. intros j t Hj. destruct (H3 j t Hj) as [[[k h] Hx] Ht]. split; [|done].
      destruct (L _ _ _ Hx) as (k' & h' & -> & _). by eexists.
    + destruct v_user0 as (H1 & H2). split; [|done]. eapply Forall_impl; [exact H1|]. intros r. by apply ready_le.
Qed.
Lemma winv_user w u : winv w -> user_inv (w_cols w) (w_queue w) (w_ep w) (w_stp w) u -> winv (set_user w u).
Proof. intros [] H. by constructor. Qed.
Lemma winv_failed w b : winv w -> winv (set_failed w b).
Proof. intros []. by constructor. Qed.
Lemma winv_pos w p : winv w -> pos_inv (w_cols w) (w_queue w) (w_flight w ∪ w_acked w) (w_wire w) p -> (p = WDone -> w_unrec w <> Ok) -> winv (set_pos w p).
Proof. intros [] H1 H2. by constructor. Qed.
Lemma winv_signal w : winv w -> winv (signal w).
Proof. intros I. unfold signal. destruct (w_pos w) eqn:E; try done. apply winv_pos; [done| |done]. pose proof (v_pos w I) as H. by rewrite E in H. Qed.
Lemma winv_unrec w st : winv w -> st <> Ok -> winv (set_unrec w st).
Proof. intros [] H. by constructor. Qed.
Lemma winv_return w st : winv w -> winv (worker_return w st).
Proof.
  intros I. unfold worker_return. destruct (w_closed w).
  - apply winv_pos; [by apply winv_unrec|done|done].
  - destruct (bool_decide_reflect (st = Ok \/ st = Unavailable)) as [H|H].
    + by apply winv_pos.
    + assert (st <> Ok) by tauto. apply winv_pos; [by apply winv_unrec|done|done].
Qed.

(** *** The user *)

Lemma create_columns w : forall cols, colsinv (w_cols w) -> Forall (fun it => Forall (pend (w_cols w)) (wi_refs it)) (w_queue w) ->
  match columns_validate w cols with
  | None => Exists (fun c => c.1 = []) cols
  | Some Ok => Forall (col_fine (w_cols w)) cols /\ Forall (fun c => Forall (pend (w_cols w)) c.1) cols
  | Some _ => True
  end.
Proof.
  intros cols C P. induction cols as [|[refs sq] cols IH]; cbn [columns_validate]; [by split|].
  assert (A : forall r, alive w r = true -> pend (w_cols w) r).
  { intros r H. unfold alive in H. destruct (w_cols w !! r.1) as [[k h]|] eqn:E; [|done]. apply orb_true_iff in H as [H|H].
    - apply bool_decide_eq_true in H. exists k, h. split; [done|]. destruct (proj1 C _ _ _ E) as (I & _). cbn [fst snd] in I.
      destruct (ki_act _ _ I) as (lo & Hact & Hlo). rewrite Hact in H. apply elem_of_seq in H.
      destruct (lookup_lt_is_Some_2 (k_cells k) r.2) as [c Hc]; [lia|]. exists c. split; [done|].
      destruct (decide (r.2 < k_first k)%nat); [|right; lia]. left. apply (ki_live _ _ I r.2); [|done|done]. rewrite Hact. apply elem_of_seq. lia.
    - apply andb_true_iff in H as [H _]. apply bool_decide_eq_true in H. apply elem_of_list_In, in_concat in H as (l & Hl & H).
      apply elem_of_list_In, elem_of_list_fmap in Hl as (it & -> & Hit). apply elem_of_list_In in H.
      rewrite Forall_forall in P. specialize (P _ Hit). rewrite Forall_forall in P. by apply P. }
  unfold column_validate. destruct (forallb (alive w) refs) eqn:Ha; cbn [negb]; [|done].
  assert (Hp : Forall (pend (w_cols w)) refs).
  { apply Is_true_true, forallb_True in Ha. eapply Forall_impl; [exact Ha|]. intros r Hr. apply A. by apply Is_true_true. }
  destruct (sq && negb (length refs =? 1)%nat) eqn:Hsq; [done|]. destruct refs as [|r refs]; [by left|].
  assert (Hs : ref_spec w r = spec_at (w_cols w) r) by done. rewrite Hs. pose proof (Forall_inv Hp) as (k & h & Hk & _).
  assert (Hsp : spec_at (w_cols w) r = Some (k_spec k)) by (unfold spec_at; by rewrite Hk). rewrite Hsp. cbn [mbind option_bind].
  destruct (proj1 C _ _ _ Hk) as (_ & _ & sh & Hsh). cbn [fst] in Hsh.
  match goal with |- context [if ?c then Ok else _] => destruct c eqn:Hc end; [|done]. rewrite bool_decide_true by done.
  destruct (columns_validate w cols) as [[]|]; try done; [|by right]. destruct IH as [IH1 IH2]. split; [|by constructor].
  constructor; [|done]. split; [done|]. cbn [fst snd]. split.
  { intros ->. cbn [andb] in Hsq. apply negb_false_iff, Nat.eqb_eq in Hsq. done. }
  split.
  { eapply Forall_impl; [exact Hp|]. intros x (k1 & h1 & H1 & c & H2 & _). exists c. unfold cell_at. by rewrite H1. }
  exists (sp_ty (k_spec k)), sh. constructor; [rewrite Hsp; f_equal; destruct (k_spec k); cbn in *; by rewrite Hsh|].
  apply Is_true_true, forallb_True in Hc. pose proof (Forall_inv_tail Hp) as Hps. cbn in Hps.
  apply Forall_forall. intros x Hx. rewrite Forall_forall in Hc. specialize (Hc _ Hx). rewrite Forall_forall in Hps. destruct (Hps _ Hx) as (k1 & h1 & H1 & _).
  change (ref_spec w x) with (spec_at (w_cols w) x) in Hc. assert (Hx1 : spec_at (w_cols w) x = Some (k_spec k1)) by (unfold spec_at; by rewrite H1).
  rewrite Hx1 in *. apply andb_True in Hc as [Hty Hco]. apply bool_decide_unpack in Hty. destruct (proj1 C _ _ _ H1) as (_ & _ & sh1 & Hsh1). cbn [fst] in Hsh1.
  rewrite Hsh, Hsh1 in Hco. cbn [pshape_compatible] in Hco.
  assert (sh1 = sh) as ->.
  { clear -Hco. revert sh Hco. induction sh1 as [|a sh1 IH]; intros [|b sh]; cbn; try done. destruct (Nat.eqb_spec a b); [|done]. intros H. subst. f_equal. by apply IH. }
  f_equal. destruct (k_spec k1); cbn in *. by rewrite Hty, Hsh1.
Qed.

Lemma merge_from_keys cs : forall cur s, s ∈ merge_from cur cs -> sl_key s = sl_key cur \/ exists c, c ∈ cs /\ sl_key s = ce_key c.
Proof.
  induction cs as [|c cs IH]; intros cur s; cbn [merge_from].
  - intros ->%elem_of_list_singleton. by left.
  - destruct (Z.eqb_spec (ce_key c) (sl_key cur)) as [E|E].
    + intros H. destruct (IH _ _ H) as [H1|(d & H1 & H2)]; [by left|]. right. exists d. split; [by right|done].
    + intros [->|H]%elem_of_cons; [by left|]. right. destruct (IH _ _ H) as [H1|(d & H1 & H2)].
      * exists c. split; [left|done].
      * exists d. split; [by right|done].
Qed.
Lemma merge_keys cs s : s ∈ merge_adjacent cs -> exists c, c ∈ cs /\ sl_key s = ce_key c.
Proof.
  destruct cs as [|c cs]; [by intros ?%elem_of_nil|]. intros H. destruct (merge_from_keys _ _ _ H) as [H1|(d & H1 & H2)].
  - exists c. split; [left|done].
  - exists d. split; [by right|done].
Qed.
Lemma merge_head c cs : exists s l, merge_adjacent (c :: cs) = s :: l /\ sl_key s = ce_key c.
Proof.
  cbn. assert (G : forall cs cur, exists s l, merge_from cur cs = s :: l /\ sl_key s = sl_key cur).
  { clear. induction cs as [|d cs IH]; intros cur; cbn [merge_from]; [by eexists _, _|]. destruct (_ =? _); [|by eexists _, _].
    destruct (IH (mkSlice (sl_key cur) (sl_off cur) (sl_len cur + 1) (sl_idx cur))) as (s & l & E & H). exists s, l. done. }
  destruct (G cs (new_slice c)) as (s & l & E & H). by exists s, l.
Qed.

(** The signature of an item whose columns are not empty. *)
Lemma find_spec_some w refs key : (exists r c, r ∈ refs /\ cell_at (w_cols w) r = Some c /\ ce_key c = key) -> is_Some (find_spec w refs key).
Proof.
  intros (r & c & Hr & Hc & Hk). unfold find_spec. destruct (list_find_elem_of (fun r => key_of w r = Some key) refs r) as [[i x] Hx]; [done| |].
  { unfold key_of. change (w_cell w r) with (cell_at (w_cols w) r). rewrite Hc. cbn. by rewrite Hk. }
  rewrite Hx. cbn [mbind option_bind]. apply list_find_Some in Hx as (_ & Hx & _). unfold key_of, w_cell in Hx. unfold ref_spec.
  destruct (w_cols w !! x.1) as [[k h]|]; [|done]. by eexists.
Qed.
Lemma signature_some w all : forall cols sqs, Forall (fun rs => rs <> [] /\ Forall (fun r => r ∈ all) rs /\ Forall (fun r => is_Some (cell_at (w_cols w) r)) rs) cols ->
  is_Some (flat_signature w all (merge_adjacent <$> (omap (cell_at (w_cols w)) <$> cols)) sqs).
Proof.
  induction cols as [|rs cols IH]; intros sqs H; [by eexists|]. apply Forall_cons in H as [(H1 & H2 & H3) H]. rewrite !fmap_cons. cbn [flat_signature]. destruct sqs as [|sq sqs]; [by eexists|].
  destruct rs as [|r rs]; [done|]. apply Forall_cons in H3 as [[c Hc] H3]. apply Forall_cons in H2 as [Hr H2].
  assert (Ho : omap (cell_at (w_cols w)) (r :: rs) = c :: omap (cell_at (w_cols w)) rs) by (cbn; by rewrite Hc). rewrite Ho.
  destruct (merge_head c (omap (cell_at (w_cols w)) rs)) as (s & l & E & Hs). unfold col_signature. rewrite E. cbn [head mbind option_bind].
  destruct (find_spec_some w all (sl_key s)) as [sp ->]; [exists r, c; by rewrite Hs|]. cbn [mbind option_bind].
  destruct (IH sqs H) as [ss ->]. by eexists.
Qed.

Lemma merge_from_sum cs : forall cur x, foldl Z.add x (sl_len <$> merge_from cur cs) = x + sl_len cur + Z.of_nat (length cs).
Proof.
  induction cs as [|c cs IH]; intros cur x; cbn [merge_from]; [cbn; lia|]. destruct (_ =? _).
  - rewrite IH. cbn [sl_len length]. lia.
  - cbn [fmap list_fmap foldl]. change (list_fmap _ _ sl_len (merge_from (new_slice c) cs)) with (sl_len <$> merge_from (new_slice c) cs). rewrite IH. cbn [new_slice sl_len length]. lia.
Qed.
Lemma merge_sum cs : foldl Z.add 0 (sl_len <$> merge_adjacent cs) = Z.of_nat (length cs).
Proof. destruct cs as [|c cs]; [done|]. cbn [merge_adjacent]. rewrite merge_from_sum. cbn [new_slice sl_len length]. lia. Qed.
Lemma signature_fits w all : colsinv (w_cols w) -> forall cols sig got, Forall (col_fine (w_cols w)) cols ->
  flat_signature w all (merge_adjacent <$> (omap (cell_at (w_cols w)) <$> (fst <$> cols))) (snd <$> cols) = Some got ->
  length sig = length got -> forallb (fun p => spec_fits p.1 p.2) (combine sig got) = true -> Forall2 (fits (w_cols w)) sig cols.
Proof.
  intros [_ C]. induction cols as [|[refs sq] cols IH]; intros sig got Hf; rewrite ?fmap_nil, ?fmap_cons; cbn [flat_signature fst snd].
  { intros [= <-] Hl. by destruct sig. }
  apply Forall_cons in Hf as [(F1 & F2 & F3 & ty & sh & F4) Hf]. cbn [fst snd] in *. destruct refs as [|r refs]; [done|].
  pose proof (Forall_inv F3) as [c Hc]. pose proof (Forall_inv F4) as Hs. cbn beta in Hs.
  destruct (merge_head c (omap (cell_at (w_cols w)) refs)) as (s & l & E & Hk).
  assert (Ho : omap (cell_at (w_cols w)) (r :: refs) = c :: omap (cell_at (w_cols w)) refs) by (cbn; by rewrite Hc).
  assert (Hlen : length (omap (cell_at (w_cols w)) (r :: refs)) = length (r :: refs)).
  { clear -F3. induction F3 as [|x xs [d Hd] _ IH]; [done|]. assert (Ho : omap (cell_at (w_cols w)) (x :: xs) = d :: omap (cell_at (w_cols w)) xs) by (cbn; by rewrite Hd).
    rewrite Ho. cbn [length]. by rewrite IH. }
  unfold col_signature at 1. rewrite merge_sum, Hlen, Nat2Z.id, Ho, E. cbn [head mbind option_bind].
  destruct (find_spec w all (sl_key s)) as [sp|] eqn:Hfs; [|done]. cbn [mbind option_bind].
  assert (sp = mkTspec ty (Some (Some <$> sh))) as ->.
  { unfold find_spec in Hfs. destruct (list_find _ all) as [[i x]|] eqn:Hx; [|done]. cbn [mbind option_bind] in Hfs. apply list_find_Some in Hx as (_ & Hx & _).
    unfold key_of, w_cell in Hx. unfold ref_spec in Hfs. destruct (w_cols w !! x.1) as [[k h]|] eqn:Ek; [|done]. cbn [mbind option_bind] in Hx, Hfs.
    unfold cell_at in Hc. unfold spec_at in Hs. destruct (w_cols w !! r.1) as [[k' h']|] eqn:Ek'; [|done]. cbn [mbind option_bind] in Hc, Hs.
    destruct (k_cells k !! x.2) as [d|] eqn:Ed; [|done]. cbn in Hx. injection Hx as Hx.
    assert (x.1 = r.1) as Er.
    { eapply (C x.1 r.1 k h k' h' (ce_key d)); [done|done|..]; right; apply elem_of_list_fmap; [|rewrite Hx, Hk]; eexists; (split; [done|]); by eapply elem_of_list_lookup_2. }
    rewrite Er in Ek. congruence. }
  destruct (flat_signature _ _ _ _) as [gots|] eqn:Hg; [|done]. cbn [mbind option_bind]. intros [= <-] Hl HF. destruct sig as [|sp sig]; [done|]. cbn [combine forallb fst snd] in HF.
  apply andb_true_iff in HF as [HF1 HF]. constructor; [|eapply IH; [done|done|by injection Hl|done]]. unfold spec_fits in HF1. apply andb_true_iff in HF1 as [HT HS].
  apply bool_decide_eq_true in HT. exists ty, sh. split; [done|]. cbn [fst snd] in *. destruct sq; cbn [sp_ty sp_shape] in *; (split; [done|]); exact HS.
Qed.
Lemma create_inv w table prio cols key : winv w -> key ∉ created_keys (w_created w) ->
  match create_item w table prio cols key with
  | TNext w' _ => winv w'
  | TCrash => Exists (fun c => c.1 = []) cols
  | TBlocked => True
  end.
Proof.
  intros I Hkey. unfold create_item. destruct (w_user w) eqn:Hu; try done. destruct (forallb _ cols) eqn:Hne; [done|]. destruct (negb (bool_decide (w_unrec w = Ok))); [done|].
  pose proof (create_columns w cols (v_cols w I) (v_pend w I)) as Hv. destruct (columns_validate w cols) as [st|]; [|done].
  destruct (bool_decide_reflect (st = Ok)) as [->|]; cbn [negb]; [|done]. destruct Hv as [Hf Hp].
  set (it := make_item w key table prio cols).
  assert (Hi : is_Some (item_validate w it)).
  { unfold item_validate. destruct (w_sigs w) as [m|]; [|by eexists]. destruct (m !! wi_table it) as [[sig|]|]; [|by eexists..].
    destruct (signature_some w (wi_refs it) (fst <$> cols) (wi_squeeze it)) as [got Hg].
    - apply Forall_fmap. apply Forall_forall. intros col Hcol. rewrite Forall_forall in Hf. destruct (Hf _ Hcol) as (H1 & _ & H2 & _). cbn. split; [done|]. split; [|done].
      apply Forall_forall. intros r Hr. unfold it, make_item. cbn [wi_refs]. apply elem_of_list_In, in_concat. exists col.1.
      split; [|by apply elem_of_list_In]. apply elem_of_list_In, elem_of_list_fmap. by exists col.
    - change (wi_traj it) with (merge_adjacent <$> (omap (cell_at (w_cols w)) <$> (fst <$> cols))). rewrite Hg. by eexists. }
  destruct Hi as [st Hiv]. rewrite Hiv. destruct (bool_decide_reflect (st = Ok)) as [->|]; cbn [negb]; [|done].
  destruct I. constructor; cbn [w_cols w_over w_defo w_sigs w_ep w_stp w_queue w_flight w_closed w_unrec w_pos w_user w_wire w_acked w_created set_created set_queue]; try done.
  - apply Forall_app. split; [done|]. repeat constructor; [by intros E; cbn in E; rewrite E in Hne|done].
  - apply Forall_app. split; [done|]. constructor; [|done]. intros mm Hmm. unfold item_validate in Hiv. rewrite Hmm in Hiv. cbn [fst snd].
    destruct (mm !! wi_table it) as [os|]; [|done]. exists os. split; [done|]. intros sig ->.
    destruct (flat_signature _ _ _ _) as [got|] eqn:Hg; [|done]. cbn [mbind option_bind] in Hiv. injection Hiv as Hiv.
    match type of Hiv with (if ?b then _ else _) = _ => destruct b eqn:Hb; [|done] end. apply andb_true_iff in Hb as [Hl%Nat.eqb_eq HF]. by eapply signature_fits.
  - destruct v_queue0 as (popped & H1 & H2 & H3). assert (Hl : (length popped <= length (w_created w))%nat) by (rewrite H1, app_length; lia).
    exists popped. rewrite drop_app_le by done. split; [rewrite app_assoc; by rewrite <- H1|]. split; [|done]. rewrite fmap_app, H2. done.
  - unfold created_keys in *. rewrite fmap_app. apply NoDup_app. split; [done|]. split; [|apply NoDup_singleton]. intros x Hx ->%elem_of_list_singleton. done.
  - apply Forall_app. split; [done|]. constructor; [|done]. unfold it, make_item. cbn [wi_refs]. apply Forall_concat, Forall_fmap. exact Hp.
  - eapply Forall_impl; [exact v_from0|]. intros x [H1 H2]. split; [done|]. intros ii Hii. destruct (H2 ii Hii) as (it' & cs & H3 & H4). exists it', cs.
    split; [apply elem_of_app; by left|done].
  - revert v_pos0. assert (forall it', head (w_queue w) = Some it' -> head (w_queue w ++ [it]) = Some it') as Hh by (intros it'; destruct (w_queue w); done).
    destruct (w_pos w); cbn; try done; intros [H1 H2]; (split; [by apply Hh|done]).
  - by rewrite Hu.
  - intros x Hx. unfold created_keys. rewrite fmap_app. apply elem_of_app. left. by apply v_known0.
Qed.

Lemma append_begin_inv w data inc nk : winv w -> fresh_keys w nk -> Forall (fun o => match o with Some t => tensor_ok t | None => True end) data ->
  match append_begin w data inc nk with TNext w' _ => winv w' | TCrash => False | TBlocked => True end.
Proof.
  intros I [Hf Hi] Ht. unfold append_begin. destruct (w_user w) eqn:Hu; try done. destruct (bool_decide _); [|done].
  destruct (add_chunkers_spec data nk w 0 (v_cols w I) (v_defo w I) (v_over w I)) as (m' & -> & C & L & K & Q); [intros c; left; apply Hf|done|].
  apply winv_user.
  - apply winv_cols; [done..|]. left. intros r (k & h & Hk & Hp). exists k, h. split; [by apply K|done].
  - cbn [user_inv w_cols w_queue w_ep w_stp set_cols]. split; [done|]. split; [done|]. intros j t Hj. split; [by eapply Q|]. rewrite Forall_lookup in Ht. exact (Ht _ _ Hj).
Qed.

Lemma append_col_inv w nk : winv w -> fresh w nk ->
  match append_col w nk with TNext w' _ => winv w' | TCrash => False | TBlocked => True end.
Proof.
  intros I Hf. unfold append_col. destruct (w_user w) as [|i rest inc ep stp|] eqn:Hu; try done. pose proof (v_user w I) as U. rewrite Hu in U. cbn in U.
  destruct U as (-> & -> & U). destruct rest as [|[t|] rest].
  - rewrite !Z.eqb_refl. cbn [andb]. set (x := if inc then w_stp w + 1 else w_stp w).
    assert (E : set_user (signal (set_stp w x)) UIdle = signal (set_stp (set_user w UIdle) x)) by (unfold signal; cbn [w_pos set_stp set_user]; by destruct (w_pos w)).
    rewrite E. apply winv_signal. destruct I. by constructor.
  - destruct (U 0%nat t eq_refl) as [[[k h] Hk] Ht]. rewrite Nat.add_0_r in Hk. rewrite Hk. cbn [mbind option_bind].
    assert (He : k_enabled k (KAppend t (w_ep w) (w_stp w) nk)) by (split; [done|]; by apply (no_key_enabled (w_cols w) i k h)).
    destruct (step_inv k h _ (proj1 (proj1 (v_cols w I) _ _ _ Hk)) He) as (k' & h' & E & _). unfold col_step. rewrite Hk. cbn [mbind option_bind]. rewrite E.
    cbn [k_step] in E. destruct (k_append k t (w_ep w) (w_stp w) nk) as [[[st o] k2]|] eqn:Ek; [|done]. cbn [mbind option_bind] in *.
    destruct (insert_col (w_cols w) i k h (KAppend t (w_ep w) (w_stp w) nk) k' h' (v_cols w I) Hk He) as (I2 & L2 & P2).
    { by intros x [= <-]. } { cbn [k_step]. by rewrite Ek. }
    assert (J : winv (set_cols w (<[i := (k', h')]> (w_cols w)))) by (apply winv_cols; [done..|left; by apply P2]).
    destruct (bool_decide _); (apply winv_user; [|try done]).
    + exact J.
    + cbn [user_inv w_cols w_queue w_ep w_stp set_cols]. split; [done|]. split; [done|]. intros j u Hj. destruct (U (S j) u Hj) as [[[k1 h1] Hx] Hu']. split; [|done].
      replace (S i + j)%nat with (i + S j)%nat by lia. destruct (L2 _ _ _ Hx) as (k3 & h3 & -> & _). by eexists.
    + apply winv_failed. exact J.
  - apply winv_user; [done|]. cbn. split; [done|]. split; [done|]. intros j u Hj. destruct (U (S j) u Hj) as [Hx Hu']. split; [|done].
    by replace (S (i + j))%nat with (i + S j)%nat by lia.
Qed.

Lemma flush_begin_inv w n fin nk : winv w -> w_user w = UIdle -> fresh_keys w nk -> match fin with FinFlush => True | FinEpisode _ => n = 0 end ->
  exists m', flush_begin w n fin nk = TNext (set_user (signal (set_cols w m')) (UWait n fin)) None /\ winv (set_cols w m') /\ cols_le (w_cols w) m' /\
    Forall (ready m') (to_force w n) /\ winv (set_user (signal (set_cols w m')) (UWait n fin)).
Proof.
  intros I Hu [Hf Hi] Hfin. unfold flush_begin.
  destruct (force_flush_spec (to_force w n) nk w (v_cols w I)) as (m' & -> & C & L & P & R).
  - unfold to_force. apply Forall_concat, Forall_fmap, Forall_take. exact (v_pend w I).
  - done.
  - intros c. left. apply Hf.
  - rewrite bool_decide_true by done. exists m'. split; [done|].
    assert (J : winv (set_cols w m')) by (apply winv_cols; [done..|by left]).
    split; [done|]. split; [done|]. split; [done|]. apply winv_user; [by apply winv_signal|].
    assert (Hq : forall w, w_queue (signal w) = w_queue w /\ w_cols (signal w) = w_cols w) by (intros w1; unfold signal; by destruct (w_pos w1)).
    destruct (Hq (set_cols w m')) as [-> ->]. cbn. done.
Qed.

Lemma flush_cond_empty w : flush_cond w 0 = true -> w_unrec w = Ok -> w_queue w = [] /\ w_flight w = ∅.
Proof.
  unfold flush_cond. intros H Hu. rewrite bool_decide_true in H by done. cbn [negb orb] in H. apply Z.leb_le in H. unfold num_pending in H.
  destruct (w_queue w) as [|it q]; cbn [length] in H.
  - split; [done|]. apply leibniz_equiv, size_empty_iff. lia.
  - exfalso. destruct (bool_decide_reflect (wi_key it ∈ w_flight w)) as [Hin|]; [|lia].
    assert (size (w_flight w) <> 0%nat); [|lia]. intros E. apply size_empty_iff in E. set_solver.
Qed.

Lemma flush_done_inv w timeout nk newep : winv w -> fresh_keys w nk ->
  match flush_done w timeout nk newep with TNext w' _ => winv w' | TCrash => False | TBlocked => True end.
Proof.
  intros I [Hf Hi]. unfold flush_done. destruct (w_user w) as [| |n fin] eqn:Hu; try done. pose proof (v_user w I) as U. rewrite Hu in U. destruct U as [_ Hfin].
  assert (J : winv (set_user w UIdle)) by (by apply winv_user). destruct (flush_cond w n) eqn:Hc; [|by destruct timeout]. cbn zeta.
  change (w_unrec (set_user w UIdle)) with (w_unrec w). destruct (bool_decide_reflect (w_unrec w = Ok)) as [Ho|]; cbn [negb]; [|done].
  destruct fin as [|clear]; [done|]. subst n. destruct (flush_cond_empty w Hc Ho) as [Hq _].
  destruct (end_chunkers_spec (columns (set_user w UIdle)) clear nk (set_user w UIdle)) as (m' & -> & C & L).
  - unfold columns. apply NoDup_fst_map_to_list.
  - exact (v_cols w I).
  - intros c Hc'. unfold columns in Hc'. apply elem_of_list_fmap in Hc' as ([c' p] & -> & Hp). apply elem_of_map_to_list in Hp. by exists p.
  - done.
  - intros c _. apply Hf.
  - rewrite bool_decide_true by done. assert (J' : winv (set_cols (set_user w UIdle) m')) by (apply winv_cols; [done..|by right]). destruct J'. by constructor.
Qed.

Lemma configure_inv w c o : winv w -> match configure w c o with TNext w' _ => winv w' | TCrash => False | TBlocked => True end.
Proof.
  intros I. unfold configure. destruct (w_user w); try done. destruct (bool_decide_reflect (validate_options o = Ok)) as [Ho|]; cbn [negb]; [|done].
  destruct (w_cols w !! c) as [[k h]|] eqn:Hk.
  - unfold col_step. rewrite Hk. cbn [mbind option_bind k_step].
    destruct (insert_col (w_cols w) c k h (KConfig (clone o)) (k_apply_config k (clone o)).2 h (v_cols w I) Hk Logic.I) as (I2 & L2 & P2); [by intros x ?|done|].
    apply winv_cols; [done..|]. left. by apply P2.
  - destruct I. constructor; try done. cbn. intros c' o' H. apply lookup_insert_Some in H as [[_ <-]|[_ H]]; [by apply clone_ok|by eapply v_over0].
Qed.

(** *** The worker *)

Lemma cell_key_chunk m r c ch : colsinv m -> cell_at m r = Some c -> ce_chunk c = Some ch -> ck_key ch = ce_key c.
Proof.
  intros [C _] Hc Hch. unfold cell_at in Hc. destruct (m !! r.1) as [[k h]|] eqn:E; [|done]. cbn [mbind option_bind] in Hc.
  destruct (C _ _ _ E) as (I & _). by destruct (ki_res _ _ I _ _ _ Hc Hch) as (_ & H & _).
Qed.

(** A message reaches the server. *)
Lemma winv_send w m : winv w -> message_ok (held (w_wire w)) m -> message_from (w_cols w) (w_created w) m -> 
  match w_pos w with WStart | WFinish | WDone => True | _ => False end -> winv (set_wire w (w_wire w ++ [m])).
Proof.
  intros [] H1 H2 H3. constructor; cbn [w_cols w_over w_defo w_sigs w_ep w_stp w_queue w_flight w_closed w_unrec w_pos w_user w_wire w_acked w_created set_wire]; try done.
  - apply wire_ok_snoc. split; [done|]. exact H1.
  - apply Forall_app. split; [done|]. by constructor.
  - by destruct (w_pos w).
Qed.

Lemma from_keys m req : keys_in (req ++ [m]) = keys_in req ∪ {[kc_key m]}.
Proof. unfold keys_in. rewrite fmap_app. rewrite list_to_set_app_L. cbn. set_solver. Qed.

Lemma echunk_inv w big o : winv w -> match tw_step w (EChunk big o) with TNext w' _ => winv w' | TCrash => False | TBlocked => True end.
Proof.
  intros I. cbn [tw_step]. destruct (w_pos w) as [| |it rest s req| | | | | |] eqn:Hp; try done. pose proof (v_pos w I) as P. rewrite Hp in P. destruct P as (P1 & [P2 P3] & P4).
  destruct rest as [|r rest]; [by apply winv_pos|]. apply Forall_cons in P4 as [Hr P4].
  assert (Hin : it ∈ w_queue w) by (destruct (w_queue w); [done|]; injection P1 as ->; left).
  pose proof (v_pend w I) as V. rewrite Forall_forall in V. specialize (V _ Hin). rewrite Forall_forall in V. destruct (V _ Hr) as (k & h & Hk & c & Hc & _).
  assert (Hcell : cell_at (w_cols w) r = Some c) by (unfold cell_at; by rewrite Hk). change (w_cell w r) with (cell_at (w_cols w) r). rewrite Hcell.
  destruct (ce_chunk c) as [ch|] eqn:Hch; [|by apply winv_pos]. destruct (bool_decide_reflect (ce_key c ∈ s)); [by apply winv_pos|]. cbn zeta.
  pose proof (cell_key_chunk _ _ _ _ (v_cols w I) Hcell Hch) as Hkey. set (kc := mkKchunk _ _).
  assert (F : Forall (from_cell (w_cols w)) (req ++ [kc])) by (apply Forall_app; split; [done|]; constructor; [|constructor]; by exists r, c, ch).
  assert (Sub : {[ce_key c]} ∪ s ⊆ held (w_wire w) ∪ keys_in (req ++ [kc])).
  { rewrite from_keys. unfold kc. cbn [kc_key]. rewrite Hkey. set_solver. }
  destruct big; [|by apply winv_pos]. set (m := mkIreq _ None).
  assert (J : winv (send (set_pos w WFinish) m o)).
  { unfold send. destruct (delivered o); [|by apply winv_pos]. apply winv_send; [by apply winv_pos|..|done].
    - split; [left; cbn; by destruct req|done].
    - split; [exact F|done]. }
  destruct o; cbn [write_ok].
  - assert (E : set_pos (send w m OutOk) (WChunks it rest ({[ce_key c]} ∪ s) []) = set_pos (send (set_pos w WFinish) m OutOk) (WChunks it rest ({[ce_key c]} ∪ s) [])) by done.
    rewrite E. apply winv_pos; [done| |done]. cbn [pos_inv]. split; [done|]. split; [|done]. split; [|constructor].
    cbn [send delivered set_wire w_wire set_pos]. rewrite held_snoc. unfold held_after, m. cbn [ir_chunks ir_item]. set_solver.
  - by apply winv_pos.
  - exact J.
Qed.

Lemma elem_of_merged m cols k : Forall (fun rs => Forall (fun r => is_Some (cell_at m r)) rs) cols ->
  k ∈ get_chunk_keys (merge_adjacent <$> (omap (cell_at m) <$> cols)) -> exists r c, r ∈ concat cols /\ cell_at m r = Some c /\ k = ce_key c.
Proof.
  intros Hs Hk. apply (proj1 (proj2 (C50_keys _))) in Hk. apply elem_of_list_fmap in Hk as (s & -> & Hs'). apply elem_of_list_In, in_concat in Hs' as (l & Hl & Hs').
  apply elem_of_list_In in Hl, Hs'. apply elem_of_list_fmap in Hl as (cs & -> & Hl). apply elem_of_list_fmap in Hl as (rs & -> & Hl).
  apply merge_keys in Hs' as (c & Hc & ->). apply elem_of_list_omap in Hc as (r & Hr & Hc). exists r, c. split; [|done].
  apply elem_of_list_In, in_concat. exists rs. split; by apply elem_of_list_In.
Qed.

Lemma keep_sub w s : keep_keys w s ⊆ s.
Proof. unfold keep_keys. intros x Hx. by apply elem_of_filter in Hx as [_ ?]. Qed.

Lemma head_created w it : winv w -> head (w_queue w) = Some it -> exists cols, (it, cols) ∈ w_created w.
Proof.
  intros I H. destruct (v_queue w I) as (popped & H1 & H2 & _). destruct (w_queue w) as [|it' q]; [done|]. injection H as ->.
  destruct (drop (length popped) (w_created w)) as [|[x cols] l] eqn:E; [done|]. injection H2 as -> _. exists cols. rewrite H1. apply elem_of_app. right. left.
Qed.

Lemma winv_set_wire_pos w it s req m p : winv w -> w_pos w = WSend it s req -> message_ok (held (w_wire w)) m -> message_from (w_cols w) (w_created w) m ->
  pos_inv (w_cols w) (w_queue w) (w_flight w ∪ w_acked w) (w_wire w ++ [m]) p -> p <> WDone -> winv (set_pos (set_wire w (w_wire w ++ [m])) p).
Proof.
  intros I Hp H1 H2 H3 H4. assert (J : winv (set_wire (set_pos w WFinish) (w_wire w ++ [m]))) by (apply (winv_send (set_pos w WFinish) m); [by apply winv_pos|done..]).
  change (set_pos (set_wire w (w_wire w ++ [m])) p) with (set_pos (set_wire (set_pos w WFinish) (w_wire w ++ [m])) p). by apply winv_pos.
Qed.

Lemma winv_flight_drop w it : winv w -> head (w_queue w) = Some it -> w_pos w = WFinish -> winv (set_flight w (w_flight w ∖ {[wi_key it]})).
Proof.
  intros I H Hp. pose proof (v_keys w I) as K. destruct I. constructor; cbn [w_cols w_over w_defo w_sigs w_ep w_stp w_queue w_flight w_closed w_unrec w_pos w_user w_wire w_acked w_created set_flight]; try done.
  - destruct v_queue0 as (popped & H1 & H2 & H3). exists popped. split; [done|]. split; [done|]. apply Forall_forall. intros p Hp'. rewrite Forall_forall in H3. specialize (H3 _ Hp').
    assert (wi_key p.1 <> wi_key it); [|set_solver]. intros E. destruct (w_queue w) as [|it' q]; [done|]. injection H as ->.
    destruct (drop (length popped) (w_created w)) as [|[x cols] l] eqn:Ed; [done|]. injection H2 as -> _. unfold created_keys in K. rewrite H1, fmap_app in K.
    apply NoDup_app in K as (_ & K & _). apply (K (wi_key p.1)); [apply elem_of_list_fmap; by exists p|]. rewrite E. left.
  - by rewrite Hp.
  - intros x Hx. apply v_known0. set_solver.
Qed.

Lemma esend_inv w o : winv w -> match tw_step w (ESend o) with TNext w' _ => winv w' | TCrash => False | TBlocked => True end.
Proof.
  intros I. cbn [tw_step]. destruct (w_pos w) as [| | | | |it s req| | |] eqn:Hp; try done. pose proof (v_pos w I) as P. rewrite Hp in P. destruct P as (P1 & [P2 P3] & P4 & P5).
  set (m := item_message it req s). destruct (head_created w it I P1) as (cols & Hcr). pose proof (v_items w I) as V. rewrite Forall_forall in V. destruct (V _ Hcr) as (_ & F1 & F2 & F3 & F4). cbn [fst snd] in *.
  assert (M1 : message_ok (held (w_wire w)) m).
  { split; [by right|]. intros ii [= <-]. cbn [ii_keep ii_traj]. split; [apply NoDup_elements|]. split.
    - intros k Hk. apply elem_of_elements in Hk. by apply P2.
    - intros k Hk. rewrite F3 in Hk. apply elem_of_merged in Hk as (r & c & Hr & Hc & ->).
      + rewrite <- F1 in Hr. rewrite Forall_forall in P4. destruct (P4 _ Hr) as (c' & Hc' & Hin). rewrite Hc in Hc'. injection Hc' as <-. exact Hin.
      + apply Forall_fmap. eapply Forall_impl; [exact F4|]. intros col (_ & _ & H & _). exact H. }
  assert (M2 : message_from (w_cols w) (w_created w) m).
  { split; [done|]. intros ii [= <-]. exists it, cols. done. }
  assert (T : forall w', winv (set_pos w' WFinish) -> head (w_queue w') = Some it -> winv (set_pos (set_flight w' (w_flight w' ∖ {[wi_key it]})) WFinish)).
  { intros w' I' H'. change (set_pos (set_flight w' (w_flight w' ∖ {[wi_key it]})) WFinish) with (set_flight (set_pos w' WFinish) (w_flight (set_pos w' WFinish) ∖ {[wi_key it]})).
    by apply winv_flight_drop. }
  destruct o; cbn [write_ok send delivered].
  - eapply winv_set_wire_pos; try done. cbn [pos_inv]. split; [done|]. split; [|done]. rewrite held_snoc. unfold held_after, m. cbn [ir_chunks ir_item item_message ii_keep].
    intros x Hx. apply elem_of_intersection. split; [by apply P2|]. apply elem_of_list_to_set. by apply elem_of_elements.
  - apply T; [by apply winv_pos|done].
  - apply (T (set_wire w (w_wire w ++ [m]))); [|done]. by eapply winv_set_wire_pos.
Qed.

Lemma winv_flight w s q : winv w -> (forall x, x ∈ w_flight w ∪ w_acked w -> x ∈ s ∪ q) -> (forall x, x ∈ s ∪ q -> x ∈ created_keys (w_created w)) ->
  winv (set_acked (set_flight w s) q).
Proof.
  intros [] H1 H2. constructor; cbn [w_cols w_over w_defo w_sigs w_ep w_stp w_queue w_flight w_closed w_unrec w_pos w_user w_wire w_acked w_created set_flight set_acked]; try done.
  - destruct v_queue0 as (popped & A1 & A2 & A3). exists popped. split; [done|]. split; [done|]. eapply Forall_impl; [exact A3|]. intros p. apply H1.
  - revert v_pos0. destruct (w_pos w); cbn; try done.
    + intros (A1 & A2 & A3 & A4). split_and!; try done. by apply H1.
    + intros (A1 & A2 & A3). split_and!; try done. by apply H1.
Qed.

Lemma confirmable_known w k : winv w -> k ∈ confirmable (w_wire w) -> k ∈ created_keys (w_created w).
Proof.
  intros I H. unfold confirmable in H. apply elem_of_list_omap in H as (m & Hm & H). destruct (ir_item m) as [ii|] eqn:E; [|done]. cbn [mbind option_bind] in H.
  destruct (ii_confirm ii); [|done]. injection H as <-. pose proof (v_from w I) as V. rewrite Forall_forall in V. destruct (V _ Hm) as [_ V2].
  destruct (V2 _ E) as (it & cols & H1 & -> & _). apply elem_of_list_fmap. by exists (it, cols).
Qed.

Lemma pos_inv_flight m q fa fa' wire p : (forall x, x ∈ fa -> x ∈ fa') -> pos_inv m q fa wire p -> pos_inv m q fa' wire p.
Proof.
  intros H. destruct p; cbn; try done.
  - intros (A1 & A2 & A3 & A4). split_and!; try done. by apply H.
  - intros (A1 & A2 & A3). split_and!; try done. by apply H.
Qed.

(** Every action keeps the invariant; only CreateItem with an empty column
    crashes. *)
Theorem tw_step_inv w e : winv w -> tw_enabled w e ->
  match tw_step w e with
  | TNext w' _ => winv w'
  | TCrash => exists table prio cols key, e = ECreate table prio cols key /\ Exists (fun c => c.1 = []) cols
  | TBlocked => True
  end.
Proof.
  intros I He. destruct e as [| |big o| | |o| |st|keys|c a|data inc nk|nk|table prio cols key|n nk|clear nk|timeout nk newep|c o|]; cbn [tw_enabled] in He.
  - cbn [tw_step]. destruct (w_pos w) eqn:Hp; try done. destruct (negb _); [by apply winv_return|]. destruct (w_closed w); [by apply winv_return|].
    assert (J : winv (set_wire w [])).
    { destruct I. constructor; try done; cbn [w_pos w_wire set_wire]; [constructor|by rewrite Hp]. }
    change (set_wire (set_pos w (WTop ∅ [])) []) with (set_pos (set_wire w []) (WTop ∅ [])). apply winv_pos; [done| |done]. split; [set_solver|constructor].
  - cbn [tw_step]. destruct (w_pos w) as [|s req| | | | | | |] eqn:Hp; try done. pose proof (v_pos w I) as P. rewrite Hp in P. destruct (w_closed w); [by apply winv_pos|].
    destruct (w_queue w) as [|it q] eqn:Hq; [done|]. apply winv_pos; [done| |done]. cbn. rewrite Hq. split; [done|]. split; [done|]. by apply Forall_forall.
  - pose proof (echunk_inv w big o I) as H. by destruct (tw_step w (EChunk big o)).
  - cbn [tw_step]. destruct (w_pos w) as [| | |it s req| | | | |] eqn:Hp; try done. pose proof (v_pos w I) as P. rewrite Hp in P. destruct P as (P1 & P2 & P3).
    match goal with |- context [if ?c then _ else _] => destruct c eqn:Hc end.
    + cbn zeta. apply Is_true_true, forallb_True in Hc.
      destruct (head_created w it I P1) as (cols & Hcr).
      assert (J : winv (set_acked (set_flight (set_pos w WFinish) ({[wi_key it]} ∪ w_flight w)) (w_acked w))).
      { apply winv_flight; [by apply winv_pos|..]; cbn [w_flight w_acked w_created set_pos].
        - set_solver.
        - intros x Hx. destruct (decide (x = wi_key it)) as [->|Hne].
          + apply elem_of_list_fmap. by exists (it, cols).
          + apply (v_known w I). set_solver. }
      assert (Ew : forall w p fl, set_pos (set_acked (set_flight (set_pos w WFinish) fl) (w_acked w)) p = set_pos (set_flight w fl) p) by done.
      rewrite <- Ew. apply winv_pos; [exact J| |done].
      cbn [pos_inv w_cols w_queue w_flight w_acked w_wire set_acked set_flight set_pos]. split; [done|]. split; [|split; [|set_solver]].
      * split; [|done]. etransitivity; [apply keep_sub|]. done.
      * eapply Forall_impl; [exact Hc|]. intros r Hr. unfold key_of in Hr. change (w_cell w r) with (cell_at (w_cols w) r) in Hr.
        destruct (cell_at (w_cols w) r) as [c|] eqn:Ec; [|done]. cbn [fmap option_fmap option_map] in Hr. apply bool_decide_unpack in Hr. exists c. split; [done|]. by apply P2.
    + destruct (forallb (is_ready w) (wi_refs it)); by apply winv_pos.
  - cbn [tw_step]. destruct (w_pos w) as [| | | |it s req sg| | | |] eqn:Hp; try done. pose proof (v_pos w I) as P. rewrite Hp in P. destruct P as (P1 & P2). by apply winv_pos.
  - pose proof (esend_inv w o I) as H. by destruct (tw_step w (ESend o)).
  - cbn [tw_step]. destruct (w_pos w) as [| | | | | |it s| |] eqn:Hp; try done. pose proof (v_pos w I) as P. rewrite Hp in P. destruct P as (P1 & P2 & P3).
    change (set_pos (set_queue w (tail (w_queue w))) (WTop s [])) with (set_pos (set_queue (set_pos w WFinish) (tail (w_queue w))) (WTop s [])).
    apply winv_pos; [| |done].
    2: { cbn. split; [|constructor]. set_solver. }
    destruct I. constructor; cbn [w_cols w_over w_defo w_sigs w_ep w_stp w_queue w_flight w_closed w_unrec w_pos w_user w_wire w_acked w_created set_queue set_pos]; try done.
    + destruct v_queue0 as (popped & A1 & A2 & A3). destruct (w_queue w) as [|it' q]; [done|]. injection P1 as ->. cbn [tail].
      destruct (drop (length popped) (w_created w)) as [|[x cols] l] eqn:Ed; [done|]. injection A2 as -> A2.
      assert (Ed2 : drop (length (popped ++ [(it, cols)])) (w_created w) = l).
      { rewrite app_length. rewrite <- drop_drop, Ed. done. }
      exists (popped ++ [(it, cols)]). rewrite Ed2. split; [by rewrite <- app_assoc|]. split; [done|]. apply Forall_app. split; [done|]. by repeat constructor.
    + destruct (w_queue w); [done|]. by apply Forall_cons in v_pend0 as [_ ?].
    + destruct (w_user w) as [| |n fin]; [done|done|]. cbn in *. destruct v_user0 as [U1 U2]. split; [|done]. destruct (w_queue w) as [|it' q]; [done|]. cbn [tail length] in *.
      destruct (decide (Z.of_nat (S (length q)) - n <= 0)) as [Hle|Hgt].
      * replace (Z.to_nat (Z.of_nat (length q) - n)) with 0%nat by lia. constructor.
      * replace (Z.to_nat (Z.of_nat (S (length q)) - n)) with (S (Z.to_nat (Z.of_nat (length q) - n))) in U1 by lia. cbn [take fmap list_fmap concat] in U1.
        by apply Forall_app in U1 as [_ ?].
  - cbn [tw_step]. destruct (w_pos w) eqn:Hp; try done. by apply winv_return.
  - cbn [tw_step].
    assert (G : forallb (fun k => bool_decide (k ∈ confirmable (w_wire w))) keys = true ->
      winv (set_acked (set_flight w (w_flight w ∖ list_to_set keys)) (list_to_set keys ∪ w_acked w))).
    { intros Hk. apply Is_true_true, forallb_True in Hk. apply winv_flight; [done|..].
      - intros x Hx. destruct (decide (x ∈ (list_to_set keys : gset Z))); set_solver.
      - intros x Hx. destruct (decide (x ∈ keys)) as [Hin|Hn].
        + apply confirmable_known; [done|]. rewrite Forall_forall in Hk. specialize (Hk _ Hin). by apply bool_decide_unpack in Hk.
        + apply (v_known w I). rewrite <- (elem_of_list_to_set (C := gset Z)) in Hn. set_solver. }
    destruct (w_pos w); try done; (destruct (forallb _ keys) eqn:Hk; [|done]; by apply G).
  - cbn [tw_step]. destruct (w_pos w); try done. unfold col_step. destruct (w_cols w !! c) as [[k h]|] eqn:Hk; [|done]. cbn [mbind option_bind k_step].
    destruct (insert_col (w_cols w) c k h (KTune a) (mkChunker (k_spec k) (Auto a) (k_buffer k) (k_offset k) (k_next k) (k_cells k) (k_active k)) h (v_cols w I) Hk (He _ _ eq_refl)) as (I2 & L2 & P2); [by intros x ?|done|].
    apply winv_cols; [done..|]. left. by apply P2.
  - destruct He as [He Ht]. cbn [tw_step]. pose proof (append_begin_inv w data inc nk I He Ht) as H. by destruct (append_begin w data inc nk).
  - cbn [tw_step]. pose proof (append_col_inv w nk I He) as H. by destruct (append_col w nk).
  - cbn [tw_step]. pose proof (create_inv w table prio cols key I He) as H. destruct (create_item w table prio cols key); try done. by exists table, prio, cols, key.
  - cbn [tw_step]. destruct (w_user w) eqn:Hu; try done. by destruct (flush_begin_inv w n FinFlush nk I Hu He Logic.I) as (m' & -> & _ & _ & _ & H).
  - cbn [tw_step]. destruct (w_user w) eqn:Hu; try done. destruct (bool_decide _); [|done]. by destruct (flush_begin_inv w 0 (FinEpisode clear) nk I Hu He eq_refl) as (m' & -> & _ & _ & _ & H).
  - cbn [tw_step]. pose proof (flush_done_inv w timeout nk newep I He) as H. by destruct (flush_done w timeout nk newep).
  - cbn [tw_step]. pose proof (configure_inv w c o I) as H. by destruct (configure w c o).
  - cbn [tw_step]. unfold close. destruct (w_closed w); [done|]. apply winv_signal. destruct I. by constructor.
Qed.

Lemma tw_new_inv o sigs ep : validate_options o = Ok -> winv (tw_new o sigs ep).
Proof.
  intros Ho. constructor; cbn; try done; try constructor; try done.
  exists []. done.
Qed.
Lemma tw_reach_inv o sigs ep w : validate_options o = Ok -> tw_reach (tw_new o sigs ep) w -> winv w.
Proof.
  intros Ho. induction 1 as [|w e w' ret _ IH He E]; [by apply tw_new_inv|]. pose proof (tw_step_inv w e IH He) as H. by rewrite E in H.
Qed.
