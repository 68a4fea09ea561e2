(** C91: a TrajectoryWriter sends a chunk once, and tells the server to keep what is
    still needed and nothing else. *)
From Verif Require Import Base Tensor Sample Stream ChunkerOptions Chunker PropChunker Reactor PropInsertStream TrajWriter TrajWriterProofs PropTrajWriter PropChunkKeys.
From stdpp Require Import gmap.
Open Scope Z_scope.

(** ** Specification *)

(** The keys of the chunks in the messages. *)
Definition sent_keys (wire : list ireq) : list Z := concat ((fun r => kc_key <$> ir_chunks r) <$> wire).
(** The Chunker of the reference still has it: it is among the last num_keep_alive_refs
    of its column. *)
Definition kept (m : gmap nat (chunker * hist)) (r : ref) : Prop := exists k h, m !! r.1 = Some (k, h) /\ r.2 ∈ k_active k.
(** A reference that a Chunker has, or that an item in [q] is made of, is in the chunk. *)
Definition needed (m : gmap nat (chunker * hist)) (q : list witem) (key : Z) : Prop :=
  exists r c, cell_at m r = Some c /\ ce_key c = key /\ (kept m r \/ r ∈ concat (wi_refs <$> q)).
(** CreateItem is called with references that the Chunkers have. *)
Definition from_kept (w : tw) (e : tev) : Prop :=
  match e with ECreate _ _ cols _ => forall r, r ∈ concat (fst <$> cols) -> kept (w_cols w) r | _ => True end.
Inductive kept_reach (w0 : tw) : tw -> Prop :=
| kr_init : kept_reach w0 w0
| kr_step w e w' ret : kept_reach w0 w -> tw_enabled w e -> from_kept w e -> tw_step w e = TNext w' ret -> kept_reach w0 w'.

(** ** The references of the Chunkers *)

Definition kshrink (k k' : chunker) : Prop := forall i, i ∈ k_active k' -> i ∈ k_active k.
Definition shrink (m m' : cmap) : Prop := forall r, kept m' r -> kept m r.
Lemma shrink_refl m : shrink m m. Proof. by intros r. Qed.
Lemma shrink_trans a b c : shrink a b -> shrink b c -> shrink a c. Proof. intros H1 H2 r H. by apply H1, H2. Qed.
Lemma shrink_insert m c k h k' h' : m !! c = Some (k, h) -> kshrink k k' -> shrink m (<[c := (k', h')]> m).
Proof.
  intros Hk Hs r (k1 & h1 & H1 & H2). destruct (decide (r.1 = c)) as [E|E].
  - rewrite E, lookup_insert in H1. injection H1 as <- <-. exists k, h. rewrite E. split; [done|]. by apply Hs.
  - rewrite lookup_insert_ne in H1 by done. by exists k1, h1.
Qed.
Lemma flush_active k nk st k' : flush_locked k nk = Some (st, k') -> k_active k' = k_active k.
Proof.
  unfold flush_locked. destruct (k_buffer k); [by intros [= <- <-]|]. destruct (tf_concat _); [|by intros [= <- <-]].
  destruct (if get_delta (k_opts k) then _ else _); cbn; [|done]. destruct (range_of _ _ _); cbn; [|done]. by intros [= <- <-].
Qed.
Lemma trim_active k i : i ∈ k_active (trim k) -> i ∈ k_active k.
Proof. cbn. intros H. apply elem_of_list_lookup in H as [j H]. rewrite lookup_drop in H. by apply elem_of_list_lookup_2 in H. Qed.
Lemma kstep_shrink k h e k' h' : k_step k h e = Some (k', h') -> match e with KAppend _ _ _ _ => True | _ => kshrink k k' end.
Proof.
  destruct e as [| nk | nk | o | a]; cbn [k_step]; try done.
  - unfold k_flush. destruct (flush_locked k nk) as [[st k2]|] eqn:E; [|done]. cbn. intros [= <- <-] i. by rewrite (flush_active _ _ _ _ E).
  - intros [= <- <-] i Hi. by apply elem_of_nil in Hi.
  - intros [= <- <-] i. unfold k_apply_config. destruct (k_buffer k); [|done]. destruct (bool_decide _); [|done]. intros H. by apply trim_active in H.
  - by intros [= <- <-] i.
Qed.
Lemma col_step_shrink w c e w' : col_step w c e = Some w' -> match e with KAppend _ _ _ _ => True | _ => shrink (w_cols w) (w_cols w') end.
Proof.
  unfold col_step. destruct (w_cols w !! c) as [[k h]|] eqn:Hk; [|done]. cbn [mbind option_bind]. destruct (k_step k h e) as [[k' h']|] eqn:E; [|done]. cbn [mbind option_bind].
  intros [= <-]. apply kstep_shrink in E. destruct e; [done|..]; exact (shrink_insert _ _ _ _ _ _ Hk E).
Qed.

Lemma add_shrink data nk : forall w i w', add_chunkers w i data nk = Some w' -> shrink (w_cols w) (w_cols w').
Proof.
  induction data as [|[t|] data IH]; intros w i w' H; cbn [add_chunkers] in H; [injection H as <-; apply shrink_refl| |by eapply IH].
  destruct (w_cols w !! i) as [p|] eqn:Hi; [by eapply IH|]. unfold k_new in H. destruct (_ <=? _); [|done]. cbn [mbind option_bind] in H.
  apply IH in H. eapply shrink_trans; [|exact H]. cbn [w_cols set_cols]. intros r (k1 & h1 & H1 & H2). destruct (decide (r.1 = i)) as [E|E].
  - rewrite E, lookup_insert in H1. injection H1 as <- <-. by apply elem_of_nil in H2.
  - rewrite lookup_insert_ne in H1 by done. by exists k1, h1.
Qed.
Lemma force_shrink rs nk : forall w st w', force_flush w rs nk = Some (st, w') -> shrink (w_cols w) (w_cols w').
Proof.
  induction rs as [|r rs IH]; intros w st w' H; cbn [force_flush] in H; [injection H as <- <-; apply shrink_refl|].
  destruct (is_ready w r); [by eapply IH|]. destruct (w_cols w !! r.1) as [[k h]|]; [|done]. cbn [mbind option_bind] in H.
  destruct (k_flush k _) as [[st1 k1]|]; [|done]. cbn [mbind option_bind] in H. destruct (col_step w r.1 _) as [w1|] eqn:E; [|done]. cbn [mbind option_bind] in H.
  apply col_step_shrink in E. destruct (bool_decide _); [|by injection H as <- <-]. eapply shrink_trans; [exact E|]. by eapply IH.
Qed.
Lemma end_shrink clear cs nk : forall w st w', end_chunkers w clear cs nk = Some (st, w') -> shrink (w_cols w) (w_cols w').
Proof.
  induction cs as [|c cs IH]; intros w st w' H; cbn [end_chunkers] in H; [injection H as <- <-; apply shrink_refl|]. destruct clear.
  - destruct (col_step w c _) as [w1|] eqn:E; [|done]. cbn [mbind option_bind] in H. apply col_step_shrink in E. eapply shrink_trans; [exact E|]. by eapply IH.
  - destruct (w_cols w !! c) as [[k h]|]; [|done]. cbn [mbind option_bind] in H. destruct (k_flush k _) as [[st1 k1]|]; [|done]. cbn [mbind option_bind] in H.
    destruct (col_step w c _) as [w1|] eqn:E; [|done]. cbn [mbind option_bind] in H. apply col_step_shrink in E. destruct (bool_decide _); [|by injection H as <- <-].
    eapply shrink_trans; [exact E|]. by eapply IH.
Qed.

(** A reference that is new has the key of a chunk that is not finished. *)
Definition unfinished (m : cmap) (key : Z) : Prop := forall r c, cell_at m r = Some c -> ce_key c = key -> ce_chunk c = None.
Definition cols_next (m m' : cmap) : Prop := forall r c, kept m' r -> cell_at m' r = Some c -> kept m r \/ unfinished m (ce_key c).
Lemma flush_cell k nk st k' i c : flush_locked k nk = Some (st, k') -> k_cells k' !! i = Some c -> exists c0, k_cells k !! i = Some c0 /\ ce_key c = ce_key c0.
Proof.
  unfold flush_locked. destruct (k_buffer k); [intros [= <- <-]; eauto|]. destruct (tf_concat _); [|intros [= <- <-]; eauto].
  destruct (if get_delta (k_opts k) then _ else _); cbn; [|done]. destruct (range_of _ _ _); cbn; [|done]. intros [= <- <-]. cbn [k_cells].
  rewrite set_chunks_lookup. destruct (k_cells k !! i) as [c0|]; [|done]. cbn. intros [= <-]. exists c0. split; [done|]. by destruct (_ && _).
Qed.
Lemma append_new k t ep step nk st o k' i c : k_append k t ep step nk = Some (st, o, k') -> i ∈ k_active k' -> k_cells k' !! i = Some c ->
  i ∈ k_active k \/ ce_key c = k_next k.
Proof.
  assert (P : forall k1, (forall c, k_cells k1 !! i = Some c -> exists c0, k_cells (push k t ep step) !! i = Some c0 /\ ce_key c = ce_key c0) ->
    i ∈ k_active (push k t ep step) -> k_cells k1 !! i = Some c -> i ∈ k_active k \/ ce_key c = k_next k).
  { intros k1 Hc Hi H. destruct (Hc _ H) as (c0 & H0 & ->). cbn [push k_active k_cells] in *. apply elem_of_app in Hi as [Hi|Hi%elem_of_list_singleton]; [by left|]. right.
    apply lookup_snoc in H0 as [[_ Hlt]|[_ ->]]; [lia|done]. }
  unfold k_append. destruct (negb (bool_decide _)); [intros [= <- <- <-]; by left|]. destruct (negb (shape_compatible _ _)); [intros [= <- <- <-]; by left|].
  fold (push k t ep step). cbn zeta.
  set (go := if _ <=? _ then _ else _). assert (G : go = Some (st, o, k') -> i ∈ k_active k' -> k_cells k' !! i = Some c -> i ∈ k_active k \/ ce_key c = k_next k).
  { unfold go. destruct (_ <=? _).
    - destruct (flush_locked (push k t ep step) nk) as [[st1 k1]|] eqn:E; [|done]. cbn [mbind option_bind]. pose proof (flush_active _ _ _ _ E) as A. pose proof (fun c => flush_cell _ _ _ _ i c E) as C.
      destruct (bool_decide _); intros [= <- <- <-] Hi; [apply trim_active in Hi|]; rewrite A in Hi; by apply P.
    - intros [= <- <- <-] Hi. apply trim_active in Hi. apply P; eauto. }
  destruct (k_buffer k); [exact G|]. destruct (last (k_active k) ≫= _); [|done]. cbn [mbind option_bind].
  destruct (negb _); [intros [= <- <- <-]; by left|]. destruct (step <=? _); [intros [= <- <- <-]; by left|exact G].
Qed.
Lemma next_unfinished m c k h : colsinv m -> m !! c = Some (k, h) -> unfinished m (k_next k).
Proof.
  intros [I1 I2] Hk r x Hx Hkey. unfold cell_at in Hx. destruct (m !! r.1) as [[k1 h1]|] eqn:Hr; [|done]. cbn [mbind option_bind] in Hx.
  assert (E : r.1 = c).
  { apply (I2 _ _ _ _ _ _ (k_next k) Hr Hk); [|by left]. right. rewrite <- Hkey. apply elem_of_list_fmap. exists x. split; [done|]. by apply elem_of_list_lookup_2 in Hx. }
  rewrite E, Hk in Hr. injection Hr as -> ->. destruct (I1 _ _ _ Hk) as (K & _). cbn [fst snd] in K.
  destruct (decide (r.2 < k_first k1)%nat) as [Hlt|Hge]; [by destruct (ki_old _ _ K _ _ Hlt Hx)|].
  by destruct (ki_new _ _ K (r.2 - k_first k1)%nat x) as (_ & _ & ?); [by replace (k_first k1 + (r.2 - k_first k1))%nat with r.2 by lia|].
Qed.

Lemma step_next w e w' ret : winv w -> tw_step w e = TNext w' ret -> cols_next (w_cols w) (w_cols w').
Proof.
  intros I E.
  assert (H : shrink (w_cols w) (w_cols w') \/ cols_next (w_cols w) (w_cols w')); [|destruct H as [H|H]; [|done]; intros r c Hr _; left; by apply H].
  assert (S : w_cols w' = w_cols w -> shrink (w_cols w) (w_cols w')) by (intros ->; apply shrink_refl).
  destruct e as [| |big o| | |o| |st|keys|c a|data inc nk|nk|table prio cols key|n nk|clear nk|timeout nk newep|c o|]; cbn [tw_step] in E.
  1-9: left; apply S; clear S; repeat (case_match; try discriminate E); injection E as <- <-; cbn [w_cols set_pos set_wire set_flight set_queue set_acked];
       rewrite ?return_cols, ?send_cols; cbn [w_cols set_pos set_wire set_flight set_queue set_acked]; rewrite ?send_cols; reflexivity.
  - left. destruct (w_pos w); try discriminate E. destruct (col_step w c (KTune a)) as [w1|] eqn:Ec; [|discriminate E]. injection E as <- <-. by apply col_step_shrink in Ec.
  - left. unfold append_begin in E. destruct (w_user w); try discriminate E. destruct (bool_decide _); [|injection E as <- <-; by apply S].
    destruct (add_chunkers w 0 data nk) as [w1|] eqn:Ea; [|discriminate E]. injection E as <- <-. exact (add_shrink _ _ _ _ _ Ea).
  - unfold append_col in E. destruct (w_user w) as [|i rest inc ep stp|] eqn:Hu; try discriminate E. destruct rest as [|[t|] rest].
    + left. destruct (_ && _); [|discriminate E]. injection E as <- <-. apply S. cbn [w_cols set_user]. by rewrite signal_cols.
    + right. destruct (w_cols w !! i) as [[k h]|] eqn:Hk; [|discriminate E]. cbn [mbind option_bind] in E.
      destruct (k_append k t ep stp nk) as [[[st o] k1]|] eqn:Ek; [|discriminate E]. cbn [mbind option_bind] in E. unfold col_step in E. rewrite Hk in E. cbn [mbind option_bind k_step] in E.
      rewrite Ek in E. cbn [mbind option_bind] in E.
      assert (G : exists h1, w_cols w' = <[i := (k1, h1)]> (w_cols w)) by (destruct (bool_decide _); injection E as <- <-; by eexists).
      destruct G as [h1 ->]. intros r c (k2 & h2 & H1 & H2) Hc. unfold cell_at in Hc. destruct (decide (r.1 = i)) as [Er|Er].
      * rewrite Er, lookup_insert in H1. rewrite Er, lookup_insert in Hc. cbn [mbind option_bind] in Hc. injection H1 as <- <-.
        destruct (append_new _ _ _ _ _ _ _ _ _ _ Ek H2 Hc) as [Ha| ->]; [left; exists k, h; by rewrite Er|]. right. by eapply next_unfinished; [exact (v_cols w I)|].
      * rewrite lookup_insert_ne in H1 by done. left. by exists k2, h2.
    + left. injection E as <- <-. by apply S.
  - left. unfold create_item in E. repeat (case_match; try discriminate E); injection E as <- <-; by apply S.
  - left. destruct (w_user w) eqn:Hu; try discriminate E. unfold flush_begin in E. destruct (force_flush w _ nk) as [[st w1]|] eqn:Ef; [|discriminate E]. apply force_shrink in Ef.
    destruct (bool_decide _); injection E as <- <-; cbn [w_cols set_user]; by rewrite ?signal_cols.
  - left. destruct (w_user w) eqn:Hu; try discriminate E. destruct (bool_decide _); [|injection E as <- <-; by apply S].
    unfold flush_begin in E. destruct (force_flush w _ nk) as [[st w1]|] eqn:Ef; [|discriminate E]. apply force_shrink in Ef.
    destruct (bool_decide _); injection E as <- <-; cbn [w_cols set_user]; by rewrite ?signal_cols.
  - left. unfold flush_done in E. destruct (w_user w) as [| |n fin] eqn:Hu; try discriminate E.
    destruct (flush_cond w n) eqn:Hc; [|destruct timeout; [injection E as <- <-; by apply S|discriminate E]]. cbn zeta in E.
    destruct (negb _); [injection E as <- <-; by apply S|]. destruct fin as [|clear]; [injection E as <- <-; by apply S|].
    destruct (end_chunkers _ clear _ nk) as [[st w1]|] eqn:Ee; [|discriminate E]. apply end_shrink in Ee. destruct (bool_decide _); injection E as <- <-; exact Ee.
  - left. unfold configure in E. destruct (w_user w); try discriminate E. destruct (negb _); [injection E as <- <-; by apply S|].
    destruct (w_cols w !! c) as [[k h]|] eqn:Hk.
    + destruct (col_step w c (KConfig (clone o))) as [w1|] eqn:Ec; [|discriminate E]. injection E as <- <-. by apply col_step_shrink in Ec.
    + injection E as <- <-. by apply S.
  - left. unfold close in E. apply S. destruct (w_closed w); injection E as <- <-; [done|]. by rewrite signal_cols.
Qed.

(** ** The invariant *)

Definition once (m : cmap) (q : list witem) (wire : list ireq) (s : gset Z) (req : list kchunk) : Prop :=
  NoDup (sent_keys wire ++ (kc_key <$> req)) /\ forall k, k ∈ sent_keys wire ++ (kc_key <$> req) -> k ∈ s \/ ~ needed m q k.
Definition sinv (w : tw) : Prop :=
  NoDup (sent_keys (w_wire w)) /\
  match w_pos w with
  | WTop s req | WChunks _ _ s req | WCheck _ s req | WWait _ s req _ => once (w_cols w) (w_queue w) (w_wire w) s req
  | WSend _ s req => once (w_cols w) (tail (w_queue w)) (w_wire w) s req
  | WPop _ s => once (w_cols w) (tail (w_queue w)) (w_wire w) s []
  | _ => True
  end.

Definition finished (m : cmap) (k : Z) : Prop := exists r c, cell_at m r = Some c /\ ce_key c = k /\ ce_chunk c <> None.
Lemma from_finished m kc : colsinv m -> from_cell m kc -> finished m (kc_key kc).
Proof. intros I (r & c & ch & H1 & H2 & ->). exists r, c. split; [done|]. cbn [kc_key]. rewrite (cell_key_chunk _ _ _ _ I H1 H2). split; [done|]. by rewrite H2. Qed.
Lemma kept_cell m r : colsinv m -> kept m r -> is_Some (cell_at m r).
Proof.
  intros [I _] (k & h & Hk & Hr). destruct (I _ _ _ Hk) as (K & _). cbn [fst snd] in K. destruct (ki_act _ _ K) as (lo & Ha & _). unfold cell_at. rewrite Hk. cbn [mbind option_bind].
  apply lookup_lt_is_Some. rewrite Ha in Hr. apply elem_of_seq in Hr. lia.
Qed.
Lemma needed_next m m' q k : colsinv m -> cols_le m m' -> cols_next m m' -> finished m k ->
  (forall r, r ∈ concat (wi_refs <$> q) -> is_Some (cell_at m r)) -> needed m' q k -> needed m q k.
Proof.
  intros I L N (r0 & c0 & F1 & F2 & F3) Hq (r & c' & H1 & H2 & H3).
  assert (G : forall c, cell_at m r = Some c -> ce_key c = k).
  { intros c Hc. destruct (cell_le_at _ _ _ _ L Hc) as (c1 & H4 & (H5 & _)). rewrite H1 in H4. injection H4 as <-. congruence. }
  destruct H3 as [H3|H3].
  - destruct (N _ _ H3 H1) as [Hk|Hu].
    + destruct (kept_cell _ _ I Hk) as [c Hc]. exists r, c. auto.
    + exfalso. apply F3. apply (Hu r0 c0 F1). congruence.
  - destruct (Hq _ H3) as [c Hc]. exists r, c. auto.
Qed.
Lemma needed_sub m q q' k : (forall r, r ∈ concat (wi_refs <$> q) -> r ∈ concat (wi_refs <$> q')) -> needed m q k -> needed m q' k.
Proof. intros H (r & c & H1 & H2 & [H3|H3]); exists r, c; auto. Qed.

Lemma elem_concat {A} (x : A) ls : x ∈ concat ls <-> exists l, x ∈ l /\ l ∈ ls.
Proof. induction ls as [|l ls IH]; cbn; [split; [by intros ?%elem_of_nil|by intros (? & _ & ?%elem_of_nil)]|]. rewrite elem_of_app, IH. setoid_rewrite elem_of_cons. split; [intros [H|(k & H & K)]; eauto|intros (k & H & [->|K]); eauto]. Qed.
Lemma sent_app a b : sent_keys (a ++ b) = sent_keys a ++ sent_keys b.
Proof. unfold sent_keys. by rewrite fmap_app, concat_app. Qed.
Lemma sent_finished w k : winv w -> k ∈ sent_keys (w_wire w) -> finished (w_cols w) k.
Proof.
  intros I H. unfold sent_keys in H. apply elem_concat in H as (l & Hk & Hl). apply elem_of_list_fmap in Hl as (r & -> & Hr). apply elem_of_list_fmap in Hk as (kc & -> & Hkc).
  pose proof (v_from w I) as F. rewrite Forall_forall in F. destruct (F _ Hr) as [F1 _]. rewrite Forall_forall in F1. apply from_finished; [exact (v_cols w I)|by apply F1].
Qed.
Lemma req_finished w s req k : winv w -> sent_inv (w_cols w) (w_wire w) s req -> k ∈ kc_key <$> req -> finished (w_cols w) k.
Proof.
  intros I [_ F] H. apply elem_of_list_fmap in H as (kc & -> & Hkc). rewrite Forall_forall in F. apply from_finished; [exact (v_cols w I)|by apply F].
Qed.
Lemma queue_cells w r q : winv w -> (forall it, it ∈ q -> it ∈ w_queue w) -> r ∈ concat (wi_refs <$> q) -> is_Some (cell_at (w_cols w) r).
Proof.
  intros I Hq H. apply elem_concat in H as (l & Hr & Hl). apply elem_of_list_fmap in Hl as (it & -> & Hit).
  pose proof (v_pend w I) as P. rewrite Forall_forall in P. specialize (P _ (Hq _ Hit)). rewrite Forall_forall in P. destruct (P _ Hr) as (k & h & Hk & c & Hc & _).
  unfold cell_at. rewrite Hk. by exists c.
Qed.

Lemma once_next w m' q wire s req : winv w -> cols_le (w_cols w) m' -> cols_next (w_cols w) m' ->
  (forall it, it ∈ q -> it ∈ w_queue w) -> wire = w_wire w -> Forall (from_cell (w_cols w)) req -> once (w_cols w) q wire s req -> once m' q wire s req.
Proof.
  intros I L N Hq -> Hr [O1 O2]. split; [done|]. intros k Hk. destruct (O2 k Hk) as [H|H]; [by left|]. right. intros Hn. apply H.
  eapply needed_next; try done; [exact (v_cols w I)| |intros r; by apply queue_cells].
  apply elem_of_app in Hk as [Hk|Hk]; [by apply sent_finished|]. apply elem_of_list_fmap in Hk as (kc & -> & Hkc). rewrite Forall_forall in Hr. apply from_finished; [exact (v_cols w I)|by apply Hr].
Qed.

Lemma tail_sub {A} (l : list A) x : x ∈ tail l -> x ∈ l.
Proof. destruct l; [done|]. by right. Qed.

(** Steps that change the columns and signal at most. *)
Lemma sinv_frame w w' : winv w -> sinv w -> cols_le (w_cols w) (w_cols w') -> cols_next (w_cols w) (w_cols w') ->
  w_queue w' = w_queue w -> w_wire w' = w_wire w -> (w_pos w' = w_pos w \/ exists it s req b, w_pos w = WWait it s req b /\ w_pos w' = WWait it s req true) -> sinv w'.
Proof.
  intros I [S1 S2] L N Eq Ew Hp. pose proof (v_pos w I) as P. unfold sinv. rewrite Eq, Ew. split; [done|].
  assert (G : match w_pos w with
    | WTop s req | WChunks _ _ s req | WCheck _ s req | WWait _ s req _ => once (w_cols w') (w_queue w) (w_wire w) s req
    | WSend _ s req => once (w_cols w') (tail (w_queue w)) (w_wire w) s req
    | WPop _ s => once (w_cols w') (tail (w_queue w)) (w_wire w) s []
    | _ => True
    end).
  { destruct (w_pos w); try done; cbn [pos_inv] in P; (eapply once_next; [exact I|done|done| |done| |done]); try done; try (intros it0; apply tail_sub); try (by apply P); try constructor; by destruct P as (? & [? ?] & ?). }
  destruct Hp as [-> |(it & s & req & b & E & ->)]; [done|]. by rewrite E in G.
Qed.

Lemma keep_aux_old cs : forall keys k, k ∈ keys -> k ∈ keep_keys_aux keys cs.
Proof. induction cs as [|c cs IH]; intros keys k H; cbn [keep_keys_aux]; [done|]. apply IH. destruct (bool_decide _); [done|]. apply elem_of_app. by left. Qed.
Lemma keep_aux_elem cs : forall keys k, k ∈ keep_keys_aux keys cs <-> k ∈ keys \/ exists c, c ∈ cs /\ ce_key c = k.
Proof.
  induction cs as [|c cs IH]; intros keys k; cbn [keep_keys_aux].
  - split; [by left|]. intros [H|(c & H & _)]; [done|by apply elem_of_nil in H].
  - rewrite IH. split.
    + intros [H|(d & H & <-)]; [|right; exists d; split; [by right|done]]. destruct (bool_decide _); [by left|]. apply elem_of_app in H as [H|H%elem_of_list_singleton]; [by left|]. right. exists c. split; [by left|done].
    + intros [H|(d & H & <-)].
      * left. destruct (bool_decide _); [done|]. apply elem_of_app. by left.
      * apply elem_of_cons in H as [->|H]; [|right; by exists d]. left. destruct (bool_decide_reflect (last keys = Some (ce_key c))) as [E|E].
        -- rewrite last_lookup in E. by eapply elem_of_list_lookup_2.
        -- apply elem_of_app. right. by left.
Qed.
Lemma keep_elem k key : key ∈ k_keep_keys k <-> exists i c, i ∈ k_active k /\ k_cells k !! i = Some c /\ ce_key c = key.
Proof.
  unfold k_keep_keys, active_cells. rewrite keep_aux_elem. split.
  - intros [H|(c & H & <-)]; [by apply elem_of_nil in H|]. apply elem_of_list_omap in H as (i & Hi & Hc). by exists i, c.
  - intros (i & c & Hi & Hc & <-). right. exists c. split; [|done]. apply elem_of_list_omap. by exists i.
Qed.
(** What GetKeepKeys computes. *)
Lemma keep_spec w s k : k ∈ keep_keys w s <-> k ∈ s /\ needed (w_cols w) (tail (w_queue w)) k.
Proof.
  unfold keep_keys. cbn zeta. rewrite elem_of_filter. rewrite (and_comm (k ∈ _) (k ∈ s)). apply and_iff_compat_l. rewrite elem_of_app. split.
  - intros [H|H].
    + apply elem_concat in H as (l & Hk & Hl). apply elem_of_list_fmap in Hl as ([i [k1 h1]] & -> & Hp). apply elem_of_map_to_list in Hp. cbn [fst snd] in Hk.
      apply keep_elem in Hk as (j & c & Hj & Hc & Hkey). exists (i, j), c. split; [unfold cell_at; cbn [fst snd]; by rewrite Hp|]. split; [done|]. left. by exists k1, h1.
    + apply elem_of_list_omap in H as (r & Hr & Hk). unfold key_of in Hk. change (w_cell w r) with (cell_at (w_cols w) r) in Hk. destruct (cell_at (w_cols w) r) as [c|] eqn:Ec; [|done].
      injection Hk as <-. exists r, c. auto.
  - intros (r & c & Hc & Hk & [(k1 & h1 & H1 & H2)|Hr]).
    + left. apply elem_concat. exists (k_keep_keys k1). split; [|apply elem_of_list_fmap; exists (r.1, (k1, h1)); split; [done|by apply elem_of_map_to_list]].
      apply keep_elem. unfold cell_at in Hc. rewrite H1 in Hc. cbn [mbind option_bind] in Hc. by exists r.2, c.
    + right. apply elem_of_list_omap. exists r. split; [done|]. unfold key_of. change (w_cell w r) with (cell_at (w_cols w) r). by rewrite Hc, <- Hk.
Qed.

Lemma sent_one r wire : sent_keys (wire ++ [r]) = sent_keys wire ++ (kc_key <$> ir_chunks r).
Proof. rewrite sent_app. f_equal. unfold sent_keys. cbn. apply app_nil_r. Qed.

Lemma sinv_return w st : NoDup (sent_keys (w_wire w)) -> sinv (worker_return w st).
Proof. intros H. unfold worker_return, sinv. destruct (w_closed w); [done|]. by destruct (bool_decide _). Qed.

Lemma sinv_step w e w' ret : winv w -> tw_enabled w e -> from_kept w e -> sinv w -> tw_step w e = TNext w' ret -> sinv w'.
Proof.
  intros I He Hf SI E. pose proof (tw_step_cols _ _ _ _ I He E) as L. pose proof (step_next _ _ _ _ I E) as N. pose proof (v_pos w I) as P.
  assert (Fr : w_queue w' = w_queue w -> w_wire w' = w_wire w -> w_pos w' = w_pos w \/ w_pos w' = w_pos (signal w) -> sinv w').
  { intros Eq Ew Ep. apply (sinv_frame w); try done. destruct Ep as [-> | ->]; [by left|]. unfold signal. destruct (w_pos w) eqn:Hp; try (left; by rewrite ?Hp). right. by eexists _, _, _, _. }
  assert (SigQ : forall w, w_queue (signal w) = w_queue w) by (intros w0; unfold signal; by destruct (w_pos w0)).
  assert (SigW : forall w, w_wire (signal w) = w_wire w) by (intros w0; unfold signal; by destruct (w_pos w0)).
  assert (SigP : forall w0, w_pos w0 = w_pos w -> w_pos (signal w0) = w_pos (signal w)) by (intros w0 Ep; unfold signal; rewrite Ep; destruct (w_pos w) eqn:Hpw; first [reflexivity|by rewrite Ep, ?Hpw|congruence]).
  destruct SI as [S1 S2].
  destruct e as [| |big o| | |o| |st|keys|c a|data inc nk|nk|table prio cols key|n nk|clear nk|timeout nk newep|c o|]; cbn [tw_enabled] in He; cbn [tw_step] in E.
  - destruct (w_pos w); try discriminate E. destruct (negb _); [injection E as <- <-; by apply sinv_return|]. destruct (w_closed w); [injection E as <- <-; by apply sinv_return|].
    injection E as <- <-. split; cbn; [constructor|]. split; [constructor|]. intros k Hk. by apply elem_of_nil in Hk.
  - destruct (w_pos w) as [|s req| | | | | | |] eqn:Hp; try discriminate E. destruct (w_closed w); [injection E as <- <-; by split|]. destruct (w_queue w) as [|it q] eqn:Hq; [discriminate E|].
    injection E as <- <-. split; [done|]. cbn [w_pos set_pos w_cols w_queue w_wire]. by rewrite Hq.
  - destruct (w_pos w) as [| |it rest s req| | | | | |] eqn:Hp; try discriminate E. cbn [pos_inv] in P. destruct P as (P1 & [P2 P3] & P4). destruct rest as [|r rest].
    { injection E as <- <-. by split. }
    change (w_cell w r) with (cell_at (w_cols w) r) in E. destruct (cell_at (w_cols w) r) as [c|] eqn:Hc; [|discriminate E]. destruct (ce_chunk c) as [ch|] eqn:Hch.
    2: { injection E as <- <-. by split. }
    destruct (bool_decide_reflect (ce_key c ∈ s)) as [Hs|Hs]; [injection E as <- <-; by split|]. cbn zeta in E.
    pose proof (cell_key_chunk _ _ _ _ (v_cols w I) Hc Hch) as Hkey. destruct S2 as [O1 O2].
    assert (Hn : ce_key c ∉ sent_keys (w_wire w) ++ (kc_key <$> req)).
    { intros Hk. destruct (O2 _ Hk) as [?|Hd]; [done|]. apply Hd. exists r, c. split; [done|]. split; [done|]. right. apply elem_concat. exists (wi_refs it).
      apply Forall_cons in P4 as [Hr _]. split; [done|]. apply elem_of_list_fmap. exists it. split; [done|]. destruct (w_queue w); [done|]. injection P1 as ->. by left. }
    set (kc := mkKchunk (ck_key ch) (ck_data ch)) in *.
    assert (O' : once (w_cols w) (w_queue w) (w_wire w) ({[ce_key c]} ∪ s) (req ++ [kc])).
    { split; rewrite fmap_app, app_assoc; cbn [fmap list_fmap kc kc_key]; rewrite Hkey.
      - apply NoDup_app. split; [done|]. split; [|apply NoDup_singleton]. intros x Hx Hx2%elem_of_list_singleton. by subst x.
      - intros k Hk. apply elem_of_app in Hk as [Hk|Hk]; [|apply elem_of_list_singleton in Hk; left; set_solver]. destruct (O2 _ Hk); [left; set_solver|by right]. }
    destruct big.
    + injection E as <- <-. destruct O' as [O3 O4].
      assert (ND : NoDup (sent_keys (w_wire (send w (mkIreq (req ++ [kc]) None) o)))).
      { unfold send. destruct (delivered o); [|done]. cbn [w_wire set_wire]. rewrite sent_one. cbn [ir_chunks]. done. }
      destruct (write_ok o) eqn:Ho; [|split; done]. destruct o; try discriminate Ho.
      split; [done|]. cbn [w_pos set_pos]. cbn [w_cols w_queue w_wire send delivered set_wire set_pos]. split; rewrite sent_one; cbn [ir_chunks fmap list_fmap]; rewrite app_nil_r; done.
    + injection E as <- <-. split; done.
  - destruct (w_pos w) as [| | |it s req| | | | |] eqn:Hp; try discriminate E. destruct (forallb _ (wi_refs it)).
    + injection E as <- <-. split; [done|]. cbn [w_pos set_pos set_flight w_cols w_queue w_wire]. destruct S2 as [O1 O2]. split; [done|]. intros k Hk.
      destruct (O2 _ Hk) as [Hs|Hd]; [|right; intros Hn; apply Hd; eapply needed_sub; [|exact Hn]; intros r Hr; apply elem_concat in Hr as (l & Hr & Hl);
        apply elem_of_list_fmap in Hl as (x & -> & Hx); apply elem_concat; exists (wi_refs x); split; [done|]; apply elem_of_list_fmap; exists x; split; [done|]; by apply tail_sub].
      destruct (decide (k ∈ keep_keys (set_flight w ({[wi_key it]} ∪ w_flight w)) s)) as [Hin|Hout]; [by left|]. right. intros Hn. apply Hout. apply keep_spec. by split.
    + destruct (forallb (is_ready w) (wi_refs it)); injection E as <- <-; by split.
  - destruct (w_pos w) as [| | | |it s req sg| | | |] eqn:Hp; try discriminate E. injection E as <- <-. by split.
  - destruct (w_pos w) as [| | | | |it s req| | |] eqn:Hp; try discriminate E. cbn zeta in E. destruct S2 as [O1 O2].
    assert (ND : NoDup (sent_keys (w_wire (send w (item_message it req s) o)))).
    { unfold send. destruct (delivered o); [|done]. cbn [w_wire set_wire]. by rewrite sent_one. }
    destruct (write_ok o) eqn:Ho; injection E as <- <-; [|by split]. destruct o; try discriminate Ho.
    split; [done|]. cbn [w_pos set_pos]. cbn [w_cols w_queue w_wire send delivered set_wire set_pos]. split; rewrite sent_one; cbn [item_message ir_chunks fmap list_fmap]; rewrite app_nil_r; done.
  - destruct (w_pos w) as [| | | | | |it s| |] eqn:Hp; try discriminate E. injection E as <- <-. by split.
  - destruct (w_pos w); try discriminate E. injection E as <- <-. by apply sinv_return.
  - apply Fr; repeat (case_match; try discriminate E); injection E as <- <-; try done; left; by cbn.
  - destruct (w_pos w) eqn:Hp; try discriminate E. destruct (col_step w c (KTune a)) as [w1|] eqn:Ec; [|discriminate E]. injection E as <- <-.
    unfold col_step in Ec. destruct (w_cols w !! c) as [[k h]|]; [|discriminate Ec]. cbn [mbind option_bind k_step] in Ec. injection Ec as <-. apply Fr; try done. by left.
  - unfold append_begin in E. destruct (w_user w); try discriminate E. destruct (bool_decide _); [|injection E as <- <-; apply Fr; auto].
    destruct (add_chunkers w 0 data nk) as [w1|] eqn:Ea; [|discriminate E]. injection E as <- <-. destruct He as [[H1 H2] H3].
    destruct (add_chunkers_spec data nk w 0 (v_cols w I) (v_defo w I) (v_over w I)) as (m' & Ea' & _); [intros c; left; apply H1|done|]. rewrite Ea in Ea'. injection Ea' as ->. apply Fr; cbn; auto.
  - unfold append_col in E. destruct (w_user w) as [|i rest inc ep stp|] eqn:Hu; try discriminate E. destruct rest as [|[t|] rest].
    + destruct (_ && _); [|discriminate E]. injection E as <- <-. apply Fr; cbn [w_queue w_wire w_pos set_user]; rewrite ?SigQ, ?SigW; try done. right. by apply SigP.
    + destruct (w_cols w !! i) as [[k h]|] eqn:Hk; [|discriminate E]. cbn [mbind option_bind] in E.
      destruct (k_append k t ep stp nk) as [[[st o] k1]|] eqn:Ek; [|discriminate E]. cbn [mbind option_bind] in E. unfold col_step in E. rewrite Hk in E. cbn [mbind option_bind k_step] in E.
      rewrite Ek in E. cbn [mbind option_bind] in E. destruct (bool_decide _); injection E as <- <-; apply Fr; cbn; auto.
    + injection E as <- <-. apply Fr; cbn; auto.
  - unfold create_item in E. destruct (w_user w); try discriminate E. destruct (forallb _ cols); [injection E as <- <-; apply Fr; auto|].
    destruct (negb _); [injection E as <- <-; apply Fr; auto|]. destruct (columns_validate w cols) as [st|]; [|discriminate E]. destruct (negb _); [injection E as <- <-; apply Fr; auto|]. cbn zeta in E.
    destruct (item_validate w _) as [st2|]; [|discriminate E]. destruct (negb _); injection E as <- <-; [apply Fr; auto|]. clear Fr.
    set (it := make_item w key table prio cols). cbn [from_kept] in Hf.
    assert (G : forall q s req, once (w_cols w) q (w_wire w) s req -> once (w_cols w) (q ++ [it]) (w_wire w) s req).
    { intros q s req [O1 O2]. split; [done|]. intros k Hk. destruct (O2 _ Hk) as [Hs|Hd]; [by left|]. right. intros (r & c & H1 & H2 & H3). apply Hd. exists r, c. split; [done|]. split; [done|].
      destruct H3 as [H3|H3]; [by left|]. rewrite fmap_app, concat_app in H3. apply elem_of_app in H3 as [H3|H3]; [by right|]. left. apply Hf. cbn in H3. by rewrite app_nil_r in H3. }
    split; [done|]. cbn [w_pos set_created set_queue w_cols w_queue w_wire]. destruct (w_pos w); cbn [pos_inv] in P; try done; try (by apply G).
    all: destruct P as (P1 & _); destruct (w_queue w) as [|x q]; [done|]; cbn [app tail]; by apply G.
  - destruct (w_user w) eqn:Hu; try discriminate E. destruct (flush_begin_inv w n FinFlush nk I Hu He Logic.I) as (m' & Ef & _). rewrite Ef in E. injection E as <- <-.
    apply Fr; cbn [w_queue w_wire w_pos set_user]; rewrite ?SigQ, ?SigW; try done. right. by apply SigP.
  - destruct (w_user w) eqn:Hu; try discriminate E. destruct (bool_decide _); [|injection E as <- <-; apply Fr; auto].
    destruct (flush_begin_inv w 0 (FinEpisode clear) nk I Hu He eq_refl) as (m' & Ef & _). rewrite Ef in E. injection E as <- <-.
    apply Fr; cbn [w_queue w_wire w_pos set_user]; rewrite ?SigQ, ?SigW; try done. right. by apply SigP.
  - destruct He as [He Hi]. unfold flush_done in E. destruct (w_user w) as [| |n fin] eqn:Hu; try discriminate E.
    destruct (flush_cond w n) eqn:Hc; [|destruct timeout; [injection E as <- <-; apply Fr; cbn; auto|discriminate E]]. cbn zeta in E.
    destruct (negb _); [injection E as <- <-; apply Fr; cbn; auto|]. destruct fin as [|clear]; [injection E as <- <-; apply Fr; cbn; auto|].
    destruct (end_chunkers_spec (columns (set_user w UIdle)) clear nk (set_user w UIdle)) as (m' & Em & _).
    + unfold columns. apply NoDup_fst_map_to_list.
    + exact (v_cols w I).
    + intros c Hc'. unfold columns in Hc'. apply elem_of_list_fmap in Hc' as ([c' p] & -> & Hp). apply elem_of_map_to_list in Hp. by exists p.
    + done.
    + intros c _. apply He.
    + rewrite Em in E. rewrite bool_decide_true in E by done. injection E as <- <-. apply Fr; cbn; auto.
  - unfold configure in E. destruct (w_user w); try discriminate E. destruct (negb _); [injection E as <- <-; apply Fr; auto|].
    destruct (w_cols w !! c) as [[k h]|] eqn:Hk.
    + unfold col_step in E. rewrite Hk in E. cbn [mbind option_bind k_step] in E. injection E as <- <-. apply Fr; cbn; auto.
    + injection E as <- <-. apply Fr; cbn; auto.
  - unfold close in E. destruct (w_closed w); injection E as <- <-; [apply Fr; auto|]. apply Fr; rewrite ?SigQ, ?SigW; try done. right. by apply SigP.
Qed.

Lemma async_dom rs : forall chunks, wire_ok (dom chunks) rs -> exists c, async_run (fun _ => true) chunks rs = Some c /\ dom c = foldl held_after (dom chunks) rs.
Proof.
  induction rs as [|x rs IH]; intros chunks; cbn [wire_ok async_run]; [intros _; by exists chunks|]. intros [H1 H2].
  pose proof (async_message chunks x H1) as H. cbn [foldl]. destruct (ir_item x) as [ii|].
  - destruct H as (c & data & E). rewrite E. rewrite <- (async_held (fun _ => true) chunks x c) in * by (left; by eexists _, _). by apply IH.
  - destruct H as (c & E). rewrite E. rewrite <- (async_held (fun _ => true) chunks x c) in * by (by right). by apply IH.
Qed.

Section reach.
Context (o : copts) (sigs : option (gmap Z (option (list tspec)))) (ep : Z) (Ho : validate_options o = Ok).

Lemma kept_reach_inv w : kept_reach (tw_new o sigs ep) w -> tw_reach (tw_new o sigs ep) w /\ sinv w.
Proof.
  induction 1 as [|w e w' ret H IH He Hf E]; [split; [constructor|split; [constructor|done]]|]. destruct IH as [R S]. split; [by econstructor|].
  eapply sinv_step; try done. by eapply tw_reach_inv.
Qed.

(** If items are made of references that the Chunkers still have, no chunk is sent
    twice over a stream. *)
Theorem C91_once w : kept_reach (tw_new o sigs ep) w -> NoDup (sent_keys (w_wire w)).
Proof. intros H. apply kept_reach_inv in H as [_ [H _]]. done. Qed.

(** The chunks that the worker remembers as sent, and asks the server to keep, when it
    is about to send an item: those of the chunks sent (or about to be) that are needed for the items
    behind it, or can be needed for an item still to be created. *)
Theorem C91_keep w w' ret it s req : kept_reach (tw_new o sigs ep) w -> tw_step w ECheck = TNext w' ret -> w_pos w' = WSend it s req ->
  exists q, w_queue w = it :: q /\ forall k, k ∈ s <-> k ∈ sent_keys (w_wire w) ++ (kc_key <$> req) /\ needed (w_cols w) q k.
Proof.
  intros H E Hp'. apply kept_reach_inv in H as [R [S1 S2]]. pose proof (tw_reach_inv _ _ _ _ Ho R) as I. pose proof (v_pos w I) as P. cbn [tw_step] in E.
  destruct (w_pos w) as [| | |it0 s0 req0| | | | |] eqn:Hp; try discriminate E. cbn [pos_inv] in P. destruct P as (P1 & P2 & P3). destruct (forallb _ (wi_refs it0)).
  - injection E as <- <-. cbn [w_pos set_pos] in Hp'. injection Hp' as <- <- <-. destruct (w_queue w) as [|x q] eqn:Hq; [done|]. injection P1 as ->. exists q. split; [done|].
    intros k. rewrite keep_spec. cbn [set_flight w_cols w_queue]. rewrite Hq. cbn [tail]. destruct S2 as [O1 O2]. split.
    + intros [Hk Hn]. split; [|done]. apply P2 in Hk. apply elem_of_union in Hk as [Hk|Hk]; apply elem_of_app; [left|right; by apply elem_of_list_to_set in Hk].
      clear -Hk. revert Hk. unfold held, sent_keys. change (concat ((fun r => kc_key <$> ir_chunks r) <$> w_wire w)) with ([] ++ concat ((fun r => kc_key <$> ir_chunks r) <$> w_wire w)).
      assert (G : forall l (h : gset Z) acc, (forall x, x ∈ h -> x ∈ acc) -> k ∈ foldl held_after h l -> k ∈ acc ++ concat ((fun r => kc_key <$> ir_chunks r) <$> l)).
      { induction l as [|r l IH]; intros h acc Hh Hk; cbn in *; [rewrite app_nil_r; by apply Hh|]. rewrite app_assoc. apply (IH (held_after h r)); [|done].
        intros x Hx. unfold held_after in Hx. cbn zeta in Hx. assert (Hx' : x ∈ h ∪ (list_to_set (kc_key <$> ir_chunks r) : gset Z)) by (destruct (ir_item r); set_solver).
        apply elem_of_app. apply elem_of_union in Hx' as [Hx'|Hx']; [left; by apply Hh|right; by apply elem_of_list_to_set in Hx']. }
      apply G. set_solver.
    + intros [Hk Hn]. split; [|done]. destruct (O2 _ Hk) as [?|Hd]; [done|]. destruct Hd. eapply needed_sub; [|exact Hn]. intros r Hr. cbn. apply elem_of_app. by right.
  - destruct (forallb (is_ready w) (wi_refs it0)); injection E as <- <-; discriminate Hp'.
Qed.

(** After the item the server has those chunks and no others. *)
Theorem C91_held w w' ret it s req out : tw_reach (tw_new o sigs ep) w -> w_pos w = WSend it s req -> tw_step w (ESend out) = TNext w' ret -> delivered out = true ->
  exists chunks, async_run (fun _ => true) ∅ (w_wire w') = Some chunks /\ dom chunks = s.
Proof.
  intros R Hp E Hd. pose proof (tw_reach_inv _ _ _ _ Ho R) as I. pose proof (v_pos w I) as P. rewrite Hp in P. cbn [pos_inv] in P. destruct P as (P1 & [P2 P3] & P4 & P5).
  assert (R' : tw_reach (tw_new o sigs ep) w') by (eapply (tr_step _ _ (ESend out)); [exact R|exact Logic.I|exact E]). pose proof (tw_reach_inv _ _ _ _ Ho R') as I'.
  cbn [tw_step] in E. rewrite Hp in E. cbn zeta in E.
  assert (Ew : w_wire w' = w_wire w ++ [item_message it req s]). { unfold send in E. rewrite Hd in E. destruct (write_ok out); injection E as <- <-; done. }
  pose proof (v_wire w' I') as V. rewrite Ew in *. destruct (async_dom (w_wire w ++ [item_message it req s]) ∅) as (c & Ec & Hc); [by rewrite dom_empty_L|].
  exists c. split; [done|]. rewrite Hc, dom_empty_L. change (foldl held_after ∅ (w_wire w ++ [item_message it req s])) with (held (w_wire w ++ [item_message it req s])).
  rewrite held_snoc. unfold held_after, item_message. cbn [ir_chunks ir_item ii_keep]. cbn zeta. rewrite list_to_set_elements_L. unfold keys_in in P2. set_solver.
Qed.
End reach.

(** ** Examples *)

Definition kept_b (m : gmap nat (chunker * hist)) (r : ref) : bool := match m !! r.1 with Some (k, _) => bool_decide (r.2 ∈ k_active k) | None => false end.
Definition from_kept_b (w : tw) (s : sev) : bool := match s with SEv (ECreate _ _ cols _) => forallb (kept_b (w_cols w)) (concat (fst <$> cols)) | _ => true end.
Fixpoint kept_script (w : tw) (es : list sev) : option tw :=
  match es with
  | [] => Some w
  | s :: es => if tw_enabled_b w s && from_kept_b w s then match tw_step w (sev_event s) with TNext w _ => kept_script w es | _ => None end else None
  end.
Lemma from_kept_sound w s : from_kept_b w s = true -> from_kept w (sev_event s).
Proof.
  destruct s as [e|data inc b|n b|cl b|t b nb]; try done. destruct e; try done. cbn. rewrite forallb_forall. intros H r Hr%elem_of_list_In. specialize (H _ Hr). unfold kept_b in H.
  destruct (w_cols w !! r.1) as [[k h]|] eqn:E; [|done]. exists k, h. split; [done|]. by apply bool_decide_eq_true in H.
Qed.
Lemma kept_script_reach w0 w es w' : kept_reach w0 w -> kept_script w es = Some w' -> kept_reach w0 w'.
Proof.
  revert w. induction es as [|s es IH]; intros w H; cbn [kept_script]; [by intros [= <-]|]. destruct (tw_enabled_b w s) eqn:Hb; [|done]. destruct (from_kept_b w s) eqn:Hf; [|done]. cbn [andb].
  destruct (tw_step w (sev_event s)) as [| |w1 ret] eqn:E; try done. apply IH. eapply kr_step; [exact H|by apply tw_enabled_sound|by apply from_kept_sound|exact E].
Qed.

(** Four steps in chunks of two rows; two items of all of them.  When the first item is
    sent the second needs both chunks: they are kept, and not sent again. *)
Definition share_opts : copts := Constant 2 4 false.
Definition share_cols : list (list ref * bool) := [([(0, 0); (0, 1); (0, 2); (0, 3)]%nat, false)].
Definition share_run : list sev :=
  append1 1 100 ++ append1 2 110 ++ append1 3 120 ++ append1 4 130 ++
  [SEv (ECreate 6 (Fin 1) share_cols 41); SEv (ECreate 6 (Fin 1) share_cols 42); SEv EStart; SEv ENext] ++ replicate 5 (SEv (EChunk false OutOk)).
Definition share_end : list sev :=
  [SEv ECheck; SEv (ESend OutOk); SEv EPop; SEv ENext] ++ replicate 5 (SEv (EChunk false OutOk)) ++ [SEv ECheck; SEv (ESend OutOk); SEv EPop].
Definition kept_after (o : copts) (es : list sev) : tw := match kept_script (tw_new o ex_sigs 7) es with Some w => w | None => tw_new o ex_sigs 7 end.
Lemma kept_after_reach o es : kept_reach (tw_new o ex_sigs 7) (kept_after o es).
Proof. unfold kept_after. destruct (kept_script _ es) as [w|] eqn:E; [|constructor]. eapply kept_script_reach; [constructor|exact E]. Qed.
Definition checked (w : tw) : tw := match tw_step w ECheck with TNext w _ => w | _ => w end.
Definition in_send (w : tw) : witem * gset Z * list kchunk := match w_pos w with WSend it s req => (it, s, req) | _ => (mkWitem 0 0 NaN [] [] [], ∅, []) end.
Example C91_example : let w := kept_after share_opts share_run in let w2 := kept_after share_opts (share_run ++ share_end) in
  exists w1 it s req, validate_options share_opts = Ok /\ kept_reach (tw_new share_opts ex_sigs 7) w /\
  tw_step w ECheck = TNext w1 None /\ w_pos w1 = WSend it s req /\ size s = 2%nat /\ length req = 2%nat /\
  kept_reach (tw_new share_opts ex_sigs 7) w2 /\ length (w_wire w2) = 2%nat /\ length (sent_keys (w_wire w2)) = 2%nat.
Proof.
  intros w w2. exists (checked w), (in_send (checked w)).1.1, (in_send (checked w)).1.2, (in_send (checked w)).2.
  split; [reflexivity|]. split; [apply kept_after_reach|]. split; [vm_compute; reflexivity|]. split; [vm_compute; reflexivity|]. split; [vm_compute; reflexivity|]. split; [vm_compute; reflexivity|].
  split; [apply kept_after_reach|]. split; vm_compute; reflexivity.
Qed.

(** A reference that its Chunker no longer has can be used while an item that is being
    sent holds it; the worker has dropped the key, and the chunk is sent a second
    time. *)
Definition again_run : list sev :=
  append1 1 100 ++ [SEv (ECreate 6 (Fin 1) [([(0, 0)]%nat, false)] 41)] ++ append1 2 110 ++
  [SEv EStart; SEv ENext; SEv (EChunk false OutOk); SEv (EChunk false OutOk); SEv ECheck; SEv (ESend OutOk);
   SEv (ECreate 6 (Fin 1) [([(0, 0)]%nat, false)] 42); SEv EPop; SEv ENext; SEv (EChunk true OutOk)].
Theorem C91_once_refuted : exists o w, validate_options o = Ok /\ tw_reach (tw_new o ex_sigs 7) w /\ ~ NoDup (sent_keys (w_wire w)).
Proof.
  exists (Constant 1 1 false), (after (Constant 1 1 false) again_run). split; [done|]. split; [apply after_reach|].
  assert (E : bool_decide (NoDup (sent_keys (w_wire (after (Constant 1 1 false) again_run)))) = false) by (vm_compute; reflexivity).
  by apply bool_decide_eq_false in E.
Qed.

Print Assumptions C91_once.
Print Assumptions C91_keep.
Print Assumptions C91_held.
Print Assumptions C91_once_refuted.
