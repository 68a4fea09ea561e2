(** C37, C40, C41, C58, C59: the Writer. *)
From Verif Require Import Base Trajectory Tensor TrajUtil ChunkerOptions Sample Stream Reactor PropTraj PropSample PropStream PropInsertStream
  Chunker PropChunker PropDelta TrajWriter TrajWriterProofs PropTrajWriter Writer WriterProofs WriterConf WriterData WriterPlace WriterOwn WriterTrace.
Local Open Scope Z_scope.

(** ** C37: what a sampled item contains *)

(** *** Specification *)

(** The last [n] of some steps; column [c] of a sampled item is made of the tensors
    number [c] of these steps, stacked in their order. *)
Definition last_steps (n : nat) (h : list step) : list step := drop (length h - n) h.
Definition step_column (c : nat) (rows : list step) (out : tensor) : Prop :=
  exists ty sh ts, mapM (fun s : step => s !! c) rows = Some ts /\ Forall (same_kind ty sh) ts /\ out = stacked ty sh ts.

(** *** Proof *)

Lemma column_segment i l ts o n : column i l = Some ts -> column i (segment l o n) = Some (segment ts o n).
Proof. unfold column. rewrite !mapM_Some. intros H. unfold segment. by apply Forall2_take, Forall2_drop. Qed.
Lemma column_kind i (rows : list step) ts ty sh : column i rows = Some ts -> (forall s, s ∈ rows -> step_sig s !! i = Some (ty, sh)) -> Forall (same_kind ty sh) ts.
Proof.
  unfold column. rewrite mapM_Some. intros H. induction H as [|s t rows ts Ht H IH]; intros Hs; [done|]. constructor; [|apply IH; intros x Hx; apply Hs; by right].
  specialize (Hs s ltac:(left)). unfold step_sig in Hs. rewrite list_lookup_fmap, Ht in Hs. cbn in Hs. by injection Hs.
Qed.
Lemma segment_segment {A} (l : list A) a n o k : (o + k <= n)%nat -> segment (segment l a n) o k = segment l (a + o) k.
Proof. intros H. unfold segment. rewrite skipn_firstn_comm, take_take, drop_drop. f_equal. lia. Qed.
Lemma segment_length {A} (l : list A) a n : (a + n <= length l)%nat -> length (segment l a n) = n.
Proof. intros H. unfold segment. rewrite take_length, drop_length. lia. Qed.
Lemma segment_elem {A} (l : list A) a n x : x ∈ segment l a n -> x ∈ l.
Proof. intros H. unfold segment in H. rewrite <- (take_drop a l), elem_of_app. right. rewrite <- (take_drop n (drop a l)), elem_of_app. by left. Qed.
Lemma segment_add {A} (l : list A) a n k : segment l a (n + k) = segment l a n ++ segment l (a + n) k.
Proof. unfold segment. rewrite <- (take_drop n (take (n + k) (drop a l))). rewrite take_take, Nat.min_l by lia. f_equal. rewrite skipn_firstn_comm, drop_drop. f_equal. lia. Qed.

(** One slice. *)
Lemma slice_rows p w key d start bound o l i ty sh : kinv p w -> mkKchunk key d ∈ l_sent w -> starts w key start bound -> (0 < l)%nat -> (o + l <= bound)%nat ->
  (forall s, s ∈ segment (l_hist w) (start + o) l -> step_sig s !! i = Some (ty, sh)) ->
  exists ts, column i (segment (l_hist w) (start + o) l) = Some ts /\ Forall (same_kind ty sh) ts /\ Forall tensor_ok ts /\ ts <> [] /\
    unpack_chunk_column_and_slice d (Z.of_nat i) (Z.of_nat o) (Z.of_nat l) = UOk (stacked ty sh ts).
Proof.
  intros K Hd Hst Hl Hb Hsig. destruct (k_sent p w K _ Hd) as (start' & len & K1 & K2 & K3 & K4). cbn [kc_key kc_data] in *.
  destruct Hst as [Hst|(Hst & _)]; [|congruence]. rewrite K1 in Hst. injection Hst as -> ->.
  set (S := segment (l_hist w) start bound) in *. assert (LS : length S = bound) by (by apply segment_length).
  assert (ES : segment (l_hist w) (start + o) l = segment S o l) by (symmetry; by apply segment_segment). rewrite ES in *.
  destruct (build_spec _ _ _ K3 K4) as (r & Hr & _ & B). assert (Hi : (i < length r)%nat).
  { destruct (segment S o l) as [|s rest] eqn:Eseg; [apply (f_equal length) in Eseg; rewrite segment_length in Eseg by lia; cbn in Eseg; lia|].
    destruct K3 as [_ K3]. rewrite (K3 r s); [|by apply head_Some_elem_of|apply (segment_elem S o l); rewrite Eseg; left]. specialize (Hsig s ltac:(left)). apply lookup_lt_Some in Hsig. unfold step_sig in Hsig. by rewrite fmap_length in Hsig. }
  destruct (B i Hi) as (ty' & sh' & ts & T1 & T2 & T3 & T4 & T5). pose proof (column_segment i S ts o l T1) as TC. exists (segment ts o l).
  assert (TK := column_kind _ _ _ _ _ TC Hsig). assert (TN : segment ts o l <> []) by (intros E; apply (f_equal length) in E; rewrite segment_length in E by lia; cbn in E; lia).
  split; [done|]. split; [done|]. split; [by apply Forall_take, Forall_drop|]. split; [done|].
  assert (ty' = ty /\ sh' = sh) as [-> ->].
  { destruct (segment ts o l) as [|t rest] eqn:Et; [done|]. apply Forall_cons in TK as [[<- <-] _]. rewrite Forall_forall in T2. destruct (T2 t) as [<- <-]; [apply (segment_elem ts o l); rewrite Et; left|done]. }
  unfold unpack_chunk_column_and_slice. rewrite T5. unfold stacked at 1. cbn [t_shape]. rewrite decide_False by lia. apply slice_stacked; [done|done|lia].
Qed.

(** One column. *)
Lemma pieces_groups p w (chunks : gmap Z chunk_data) i ty sh : kinv p w -> (forall key d, chunks !! key = Some d -> mkKchunk key d ∈ l_sent w) ->
  forall col from upto, pieces (starts w) (Z.of_nat i) col from upto -> (forall s, s ∈ segment (l_hist w) from (upto - from) -> step_sig s !! i = Some (ty, sh)) ->
  (forall s, s ∈ col -> is_Some (chunks !! sl_key s)) ->
  (from <= upto)%nat /\ exists gs, local_slices col chunks = SlOk (stacked ty sh <$> gs) ∅ ∅ /\ column i (segment (l_hist w) from (upto - from)) = Some (concat gs) /\
    Forall (fun g => Forall (same_kind ty sh) g /\ Forall tensor_ok g /\ g <> []) gs /\ (col <> [] -> gs <> []).
Proof.
  intros K Hch. induction col as [|s col IH]; intros from upto; cbn [pieces].
  - intros -> _ _. split; [done|]. exists []. rewrite Nat.sub_diag. done.
  - intros (start & bound & o & l & P1 & P2 & P3 & P4 & P5 & P6 & P7 & P8) Hsig Hin.
    assert (LE : (from + l <= upto)%nat).
    { clear -P8. revert P8. generalize (from + l)%nat. induction col as [|s col IH]; intros m; cbn; [lia|]. intros (? & ? & ? & l' & _ & _ & _ & _ & ? & _ & _ & H). apply IH in H. lia. }
    replace (upto - from)%nat with (l + (upto - (from + l)))%nat in Hsig |- * by lia. rewrite segment_add in Hsig |- *.
    destruct (IH (from + l)%nat upto P8) as (_ & gs & G1 & G2 & G3 & G4); [intros x Hx; apply Hsig, elem_of_app; by right|intros x Hx; apply Hin; by right|].
    destruct (Hin s ltac:(left)) as [d Hd]. destruct (slice_rows p w (sl_key s) d start bound o l i ty sh K (Hch _ _ Hd) P1 P5 P6) as (ts & T1 & T2 & T3 & T4 & T5).
    { rewrite P7. intros x Hx. apply Hsig, elem_of_app. by left. }
    split; [lia|]. exists (ts :: gs). cbn [local_slices]. rewrite Hd, P2, P3, P4, T5, G1. split; [done|]. split; [|split; [by constructor|done]].
    rewrite P7 in T1. unfold column in *. apply mapM_Some. cbn [concat]. apply Forall2_app; by apply mapM_Some.
Qed.

(** All columns. *)
Lemma traj_groups p w (chunks : gmap Z chunk_data) from upto : kinv p w -> (forall key d, chunks !! key = Some d -> mkKchunk key d ∈ l_sent w) ->
  forall cols i sg, length cols = length sg -> (forall c col, cols !! c = Some col -> col <> [] /\ pieces (starts w) (Z.of_nat (i + c)) col from upto) ->
  (forall c x, sg !! c = Some x -> forall s, s ∈ segment (l_hist w) from (upto - from) -> step_sig s !! (i + c)%nat = Some x) ->
  (forall s, s ∈ concat cols -> is_Some (chunks !! sl_key s)) ->
  exists tss outs, local_traj cols chunks = ClOk tss /\ Forall (fun ts => ts <> []) tss /\ length tss = length cols /\
    unpack_columns (fresh_col <$> tss) = Some outs /\ squeeze_columns (replicate (length cols) false) outs = Some outs /\ length outs = length cols /\
    forall c out, outs !! c = Some out -> step_column (i + c) (segment (l_hist w) from (upto - from)) out.
Proof.
  intros K Hch. induction cols as [|col cols IH]; intros i sg Hl HP Hsig Hin.
  - exists [], []. done.
  - destruct sg as [|[ty sh] sg]; [done|]. cbn in Hl. injection Hl as Hl.
    destruct (IH (S i) sg Hl) as (tss & outs & I1 & I2 & I3 & I4 & I5 & I6 & I7).
    { intros c col' Hc. destruct (HP (S c) col' Hc) as [? HP']. split; [done|]. by replace (S i + c)%nat with (i + S c)%nat by lia. }
    { intros c x Hx s Hs. replace (S i + c)%nat with (i + S c)%nat by lia. by apply (Hsig (S c) x). }
    { intros s Hs. apply Hin. cbn. apply elem_of_app. by right. }
    destruct (HP 0%nat col eq_refl) as [Hne HP0]. rewrite Nat.add_0_r in HP0.
    destruct (pieces_groups p w chunks i ty sh K Hch col from upto HP0) as (_ & gs & G1 & G2 & G3 & G4).
    { intros s Hs. specialize (Hsig 0%nat (ty, sh) eq_refl s Hs). by rewrite Nat.add_0_r in Hsig. }
    { intros s Hs. apply Hin. cbn. apply elem_of_app. by left. }
    specialize (G4 Hne). pose proof (unpack_groups ty sh gs (conj G4 G3)) as HU.
    exists ((stacked ty sh <$> gs) :: tss), (stacked ty sh (concat gs) :: outs). cbn [local_traj]. rewrite G1, I1. split; [done|]. split; [constructor; [by destruct gs|done]|]. split; [cbn; by rewrite I3|].
    rewrite fmap_cons. cbn [unpack_columns]. rewrite HU. cbn [mbind option_bind]. rewrite I4. split; [done|]. cbn [length replicate squeeze_columns mbind option_bind]. rewrite I5. split; [done|]. split; [by rewrite I6|].
    intros [|c] out Hc; cbn in Hc.
    + injection Hc as <-. rewrite Nat.add_0_r. exists ty, sh, (concat gs). split; [exact G2|]. split; [|done]. apply Forall_concat. eapply Forall_impl; [exact G3|]. by intros g (? & _).
    + replace (i + S c)%nat with (S i + c)%nat by lia. by apply I7.
Qed.

Lemma trace_prefix p w0 tr w : lw_trace p w0 tr w -> forall tr1 e ret tr2, tr = tr1 ++ (e, ret) :: tr2 ->
  exists w1 w2, lw_trace p w0 tr1 w1 /\ lw_enabled w1 e /\ lw_step p w1 e = LNext w2 ret /\ (w0 = lw_new p (l_next w0) -> conf_ok p -> forall m, m ∈ l_made w2 -> m ∈ l_made w).
Proof.
  induction 1 as [|tr w e w' ret H IH He E]; intros tr1 e1 ret1 tr2 Htr; [by destruct tr1|]. apply snoc_split in Htr as [(-> & [= -> ->] & ->)|(tr2' & -> & ->)].
  - by exists w, w'.
  - destruct (IH _ _ _ _ eq_refl) as (w1 & w2 & A1 & A2 & A3 & A4). exists w1, w2. split; [done|]. split; [done|]. split; [done|]. intros H0 Hcf m Hm. specialize (A4 H0 Hcf m Hm).
    assert (I : pinv p w) by (rewrite H0 in H; eapply lw_reach_inv; [done|by eapply trace_reach]). pose proof (lw_step_eff p w e w' ret I He E) as S.
    destruct S as [Hc B|c ph Hc Hp C|Hc -> S1 S2 S3 S4 S5 S6 S7 S8]; [by apply (g_made _ _ _ _ B)|by rewrite (f_made _ _ _ _ C)|by rewrite S5].
Qed.
Lemma create_accepted p w t n pr key w' ret : lw_step p w (LCreate t n pr key) = LNext w' ret -> ret = None \/ ret = Some Ok ->
  0 <= n <= Z.of_nat (length (l_chunks w) * p_len p + length (l_buffer w)) /\ n <= Z.of_nat (p_max p) /\ check_signature p w t (Z.to_nat n) = Some Ok /\ l_pos w = LIdle.
Proof.
  cbn [lw_step]. unfold idle. destruct (l_pos w); [|done]. unfold lw_create. intros H Hr. assert (NO : forall st, st <> Ok -> LNext w (Some st) = LNext w' ret -> False) by (intros st Hst [= _ <-]; destruct Hr as [|[= ?]]; congruence).
  destruct (l_closed w); [by apply NO in H|]. destruct (Z.ltb_spec n 0); [by apply NO in H|]. destruct (Z.ltb_spec (Z.of_nat (length (l_chunks w) * p_len p + length (l_buffer w))) n); [by apply NO in H|]. cbn [orb] in H.
  destruct (Z.ltb_spec (Z.of_nat (p_max p)) n); [by apply NO in H|]. destruct (check_signature p w t (Z.to_nat n)) as [st|]; [|done]. destruct (decide (st = Ok)) as [->|Hst]; [split; [lia|]; split; [lia|done]|].
  rewrite bool_decide_false in H by done. cbn [negb] in H. by apply NO in H.
Qed.
Lemma made_unique w m m' : oinv w -> m ∈ l_made w -> m' ∈ l_made w -> li_key (lm_item m) = li_key (lm_item m') -> m = m'.
Proof.
  intros O Hm Hm' E. apply elem_of_list_lookup in Hm as [i Hi]. apply elem_of_list_lookup in Hm' as [j Hj].
  assert (i = j) as ->; [|congruence]. apply (NoDup_lookup (made_keys w) i j (li_key (lm_item m))); [exact (o_keys w O)| |]; unfold made_keys; rewrite list_lookup_fmap; [by rewrite Hi|]. rewrite Hj. cbn. by rewrite E.
Qed.

(** An item on the stream, in terms of the ghost state. *)
Lemma item_sampled p key w pre r suf chunks c ii data m mt sg : conf_ok p -> lw_reach p (lw_new p key) w -> l_failed w = false -> l_wire w = pre ++ r :: suf ->
  async_run (fun _ => true) ∅ pre = Some chunks -> async_insert_request (fun _ => true) chunks r = Some (IInsert c ii data) ->
  m ∈ l_made w -> ii_key ii = li_key (lm_item m) -> 1 <= lm_n m <= Z.of_nat (lm_held m) -> Forall (fun s => step_sig s = sg) (lm_hist m) -> sg <> [] ->
  let sampled := mkSampled (mkSinfo mt (ii_traj ii) (replicate (length sg) false)) data in
  item_ok sampled /\ (Z.to_nat (lm_n m) <= length (lm_hist m))%nat /\
  exists s out, as_sample_local sampled = AOk s /\ as_trajectory s = SROk (mt, out) /\ length out = length sg /\
    forall c t, out !! c = Some t -> step_column c (last_steps (Z.to_nat (lm_n m)) (lm_hist m)) t.
Proof.
  intros Hcf Hr Hf Hw Hrun Hreq Hm Hkey Hn Hsg Hne sampled. pose proof (lw_reach_own _ _ _ Hr) as O. pose proof (lw_reach_place _ _ _ Hcf Hr Hf) as K. pose proof (lw_reach_ring _ _ _ Hcf Hr) as R.
  pose proof (o_wire w O) as OW. rewrite Hw in OW.
  assert (HC : forall key d, chunks !! key = Some d -> mkKchunk key d ∈ l_sent w).
  { eapply (async_from (fun k => k ∈ l_sent w) (fun _ => true) pre); [| |exact Hrun]; [|intros k d; by rewrite lookup_empty]. apply Forall_forall. intros x Hx. apply Forall_forall.
    apply OW, elem_of_app. by left. }
  assert (V2 : Forall (fun k => k ∈ l_sent w) (ir_chunks r)) by (apply Forall_forall, OW, elem_of_app; right; left).
  destruct (insert_data (fun k => k ∈ l_sent w) _ chunks c ii data r V2 HC Hreq) as (Hii & Hk & Hd).
  destruct (OW r) as [_ OI]; [apply elem_of_app; right; left|]. destruct (OI ii Hii) as (m' & M1 & (M2 & _ & M3)). assert (m' = m) as -> by (eapply made_unique; [done..|congruence]).
  destruct (k_made p w K m Hm Hn) as (P1 & (s0 & P2 & P3) & P4). rewrite <- M3 in P3, P4. assert (PL : length (ii_traj ii) = length sg).
  { rewrite Forall_forall in Hsg. rewrite P3, <- (Hsg s0 P2). unfold step_sig. by rewrite fmap_length. }
  set (from := (length (lm_hist m) - Z.to_nat (lm_n m))%nat) in *. set (upto := length (lm_hist m)) in *.
  assert (PR : lm_hist m `prefix_of` l_hist w).
  { etrans; [by apply (r_made p w R)|]. unfold stable. destruct (cb (l_pos w)) as [[]|]; try done. destruct (l_hist w) as [|x h _] using rev_ind; [done|]. rewrite removelast_last. by apply prefix_app_r. }
  assert (SE : segment (l_hist w) from (upto - from) = last_steps (Z.to_nat (lm_n m)) (lm_hist m)).
  { rewrite (segment_prefix (lm_hist m)); [|unfold from, upto; lia|done]. unfold segment, last_steps. fold upto. fold from. apply take_ge. rewrite drop_length. fold upto. lia. }
  set (cmap := foldl (fun m c => <[kc_key c := kc_data c]> m) ∅ data : gmap Z chunk_data).
  assert (HC2 : forall key d, cmap !! key = Some d -> mkKchunk key d ∈ l_sent w).
  { apply (foldl_ins_from (fun k => k ∈ l_sent w) data Hd). intros k d. by rewrite lookup_empty. }
  destruct (traj_groups p w cmap from upto K HC2 (ii_traj ii) 0%nat sg PL) as (tss & outs & E1 & E2 & E3 & E4 & E5 & E6 & E7).
  { intros j col Hc. by apply P4. }
  { intros j x Hx s Hs. rewrite Forall_forall in Hsg. rewrite SE in Hs. rewrite (Hsg s); [done|]. unfold last_steps in Hs. rewrite <- (take_drop (length (lm_hist m) - Z.to_nat (lm_n m)) (lm_hist m)), elem_of_app. by right. }
  { intros s Hs. apply (elem_of_dom (D := gset Z)). unfold cmap. rewrite overwrite_dom, Hk, dom_empty_L, union_empty_l_L. apply elem_of_list_to_set.
    unfold get_chunk_keys. apply chunk_keys_aux_elem. split; [|by intros ?%elem_of_nil]. apply elem_of_list_fmap. by exists s. }
  split; [|split; [done|]].
  - split; [done|]. cbn. intros E. rewrite E in Hk. destruct (ii_traj ii) as [|col cols] eqn:Et; [by destruct sg|]. destruct (P4 0%nat col eq_refl) as [Hcol _]. destruct col as [|s col]; [done|].
    assert (sl_key s ∈ get_chunk_keys ((s :: col) :: cols)) as HX; [|rewrite <- Hk in HX; by apply elem_of_nil in HX].
    unfold get_chunk_keys. apply chunk_keys_aux_elem. split; [|by intros ?%elem_of_nil]. apply elem_of_list_fmap. exists s. split; [done|]. left.
  - unfold as_sample_local, sampled. cbn [sp_info si_traj si_meta si_squeeze sp_chunks]. fold cmap. rewrite E1. cbn [finish_sample si_meta si_squeeze].
    destruct tss as [|[|t ts] tss]; [cbn in E3; destruct (ii_traj ii), sg; done|apply Forall_cons in E2 as [? _]; done|]. unfold make_sample.
    set (sm := mkSample mt (-1) (fresh_col <$> ((t :: ts) :: tss)) (replicate (length sg) false) false).
    eexists _, outs. split; [reflexivity|]. split; [|split; [lia|intros j x Hx; rewrite <- SE; by apply E7]]. unfold as_trajectory. rewrite PL in E5.
    destruct (is_composed_of_timesteps sm); cbn [s_called s_cols s_squeeze s_meta sm]; rewrite E4, E5; done.
Qed.

Lemma trace_det p w0 tr w : lw_trace p w0 tr w -> forall w', lw_trace p w0 tr w' -> w = w'.
Proof.
  induction 1 as [|tr w e w1 ret H IH He E]; intros w' H'.
  - inversion H' as [|? ? ? ? ? ? ? ? X]; subst; [done|]. by destruct tr.
  - remember (tr ++ [(e, ret)]) as l eqn:El. destruct H' as [|tr' w' e' w1' ret' H' He' E']; [by destruct tr|]. apply app_inj_2 in El as [-> [= -> ->]]; [|done].
    rewrite (IH _ H') in E. congruence.
Qed.
Lemma create_hist p w t n pr key w' ret : pinv p w -> lw_enabled w (LCreate t n pr key) -> lw_step p w (LCreate t n pr key) = LNext w' ret -> ret = None \/ ret = Some Ok ->
  exists m, m ∈ l_made w' /\ li_key (lm_item m) = key /\ li_table (lm_item m) = t /\ lm_n m = n /\ lm_hist m = l_hist w /\ lm_held m = steps_held w.
Proof.
  intros I He E Hr. pose proof (lw_step_eff p w _ w' ret I He E) as S. destruct S as [Hc B|c ph Hc _ _|Hc _ _ _ _ _ _ _ _]; [|done|done]. pose proof (g_create _ _ _ _ B t n pr key eq_refl) as G.
  assert (exists tr, l_made w' = l_made w ++ [mkLmade (mkLitem key t pr tr) n (l_hist w) (steps_held w)]) as [tr Hm].
  { destruct ret as [st|]; [|by destruct G as (_ & _ & ?)]. destruct Hr as [|[= ->]]; [done|]. by destruct (G eq_refl) as (_ & ?). }
  eexists. rewrite Hm, elem_of_app. split; [right; by left|]. done.
Qed.

Lemma smooth_app tr1 tr2 : smooth (tr1 ++ tr2) -> smooth tr1.
Proof. induction tr2 as [|x tr2 IH] using rev_ind; [by rewrite app_nil_r|]. rewrite app_assoc. intros H%smooth_snoc. by apply IH. Qed.

Section smooth.
Context (p : lconf) (key : Z) (Hcf : conf_ok p).

(** CreateItem(n) has been called after the steps [h] were appended, and has not been
    refused.  When the server has taken the item from the stream, it is sampled back
    as the last [n] of these steps.

    This is for runs in which Close has not been called and every Append and Flush
    has succeeded, and for steps of the same types and shapes.  The writer may have
    dropped old steps: it must still hold at least [n].  C37_writer_partial: this is
    so if Flush has not been called before CreateItem. *)
Theorem C37_writer_held_partial tr w tr1 w1 table n prio ikey ret tr2 pre r suf chunks c ii data mt sg :
  lw_trace p (lw_new p key) tr w -> smooth tr ->
  tr = tr1 ++ (LCreate table n prio ikey, ret) :: tr2 -> ret = None \/ ret = Some Ok -> lw_trace p (lw_new p key) tr1 w1 -> 1 <= n <= Z.of_nat (steps_held w1) ->
  l_wire w = pre ++ r :: suf -> async_run (fun _ => true) ∅ pre = Some chunks -> async_insert_request (fun _ => true) chunks r = Some (IInsert c ii data) -> ii_key ii = ikey ->
  let h := appended (returned tr1) in Forall (fun s => step_sig s = sg) h -> sg <> [] ->
  let sampled := mkSampled (mkSinfo mt (ii_traj ii) (replicate (length sg) false)) data in
  item_ok sampled /\ (Z.to_nat n <= length h)%nat /\
  exists s out, as_sample_local sampled = AOk s /\ as_trajectory s = SROk (mt, out) /\ length out = length sg /\
    forall c t, out !! c = Some t -> step_column c (last_steps (Z.to_nat n) h) t.
Proof.
  intros Ht Hs Htr Hret H1 Hn Hw Hrun Hreq Hk h Hh Hsg. destruct (trace_prefix _ _ _ _ Ht _ _ _ _ Htr) as (w1' & w2 & A1 & A2 & A3 & A4). rewrite (trace_det _ _ _ _ A1 _ H1) in *. clear A1 w1'.
  assert (I1 : pinv p w1) by (eapply lw_reach_inv; [exact Hcf|by eapply trace_reach]). destruct (create_hist _ _ _ _ _ _ _ _ I1 A2 A3 Hret) as (m & M1 & M2 & M3 & M4 & M5 & M6).
  apply (A4 eq_refl Hcf) in M1. destruct (lw_trace_inv _ _ _ _ Hcf H1) as [_ T2 _ _ _ _].
  destruct (create_accepted _ _ _ _ _ _ _ _ A3 Hret) as (_ & _ & _ & Hidle). rewrite Hidle in T2. fold h in T2. rewrite <- T2 in M5.
  destruct (item_sampled p key w pre r suf chunks c ii data m mt sg Hcf (trace_reach _ _ _ _ Ht) (smooth_ok _ _ _ _ Hcf Ht Hs) Hw Hrun Hreq M1) as (R1 & R2 & R3); [congruence|by rewrite M4, M6|by rewrite M5|done|].
  rewrite M4, M5 in *. done.
Qed.

Theorem C37_writer_partial tr w tr1 table n prio ikey ret tr2 pre r suf chunks c ii data mt sg :
  lw_trace p (lw_new p key) tr w -> smooth tr ->
  tr = tr1 ++ (LCreate table n prio ikey, ret) :: tr2 -> ret = None \/ ret = Some Ok -> (forall st, (LFlush, st) ∉ tr1) -> 1 <= n ->
  l_wire w = pre ++ r :: suf -> async_run (fun _ => true) ∅ pre = Some chunks -> async_insert_request (fun _ => true) chunks r = Some (IInsert c ii data) -> ii_key ii = ikey ->
  let h := appended (returned tr1) in Forall (fun s => step_sig s = sg) h -> sg <> [] ->
  let sampled := mkSampled (mkSinfo mt (ii_traj ii) (replicate (length sg) false)) data in
  item_ok sampled /\ (Z.to_nat n <= length h)%nat /\
  exists s out, as_sample_local sampled = AOk s /\ as_trajectory s = SROk (mt, out) /\ length out = length sg /\
    forall c t, out !! c = Some t -> step_column c (last_steps (Z.to_nat n) h) t.
Proof.
  intros Ht Hs Htr Hret Hfl Hn. destruct (trace_prefix _ _ _ _ Ht _ _ _ _ Htr) as (w1 & w2 & A1 & A2 & A3 & A4). destruct (create_accepted _ _ _ _ _ _ _ _ A3 Hret) as (HN & _ & _ & Hidle).
  assert (Hs1 : smooth tr1) by (rewrite Htr in Hs; by eapply smooth_app). pose proof (full_chunks _ _ _ _ Hcf A1 Hs1 Hfl) as [F1 F2].
  eapply (C37_writer_held_partial tr w tr1 w1); try done. split; [done|]. etrans; [apply HN|]. apply Nat2Z.inj_le. unfold steps_held.
  enough (length (concat (lc_rows <$> l_chunks w1)) = length (l_chunks w1) * p_len p)%nat by lia. clear -F1. induction F1 as [|c cs H _ IH]; [done|]. rewrite fmap_cons. cbn [concat length]. rewrite app_length, H, IH. lia.
Qed.
End smooth.

(** ** C40 *)

Section reach.
Context (p : lconf) (key : Z) (Hcf : conf_ok p).

(** Whatever the writer has sent over its current stream: when the asynchronous
    service handles a message, it has every chunk that the item of the message
    refers to and its check of the chunks to keep succeeds. *)
Theorem C40_writer_async w pre r suf : lw_reach p (lw_new p key) w -> l_wire w = pre ++ r :: suf ->
  exists chunks, async_run (fun _ => true) ∅ pre = Some chunks /\
    match ir_item r with
    | None => exists c, async_insert_request (fun _ => true) chunks r = Some (IContinue c)
    | Some ii => exists c data, async_insert_request (fun _ => true) chunks r = Some (IInsert c ii data)
    end.
Proof.
  intros Hr Hw. pose proof (a_wire p w (a_general p w (lw_reach_inv _ _ _ Hcf Hr))) as V. rewrite Hw in V.
  destruct (async_prefix pre ∅ r suf) as (c & E & H); [by rewrite dom_empty_L|]. exists c. split; [done|]. by apply async_message.
Qed.
(** The synchronous service inserts every item, and confirms those whose confirmation
    was asked for. *)
Theorem C40_writer_sync w : lw_reach p (lw_new p key) w ->
  sync_insert (fun _ => true) (fun _ => true) (fun _ => true) ∅ (l_wire w) = Some (true, confirmable (l_wire w)).
Proof. intros Hr. apply sync_all. rewrite dom_empty_L. exact (a_wire p w (a_general p w (lw_reach_inv _ _ _ Hcf Hr))). Qed.
(** No check of the server fails, even if tables do not exist, inserts fail or
    confirmations cannot be sent. *)
Theorem C40_writer_no_crash w tables ins written : lw_reach p (lw_new p key) w ->
  is_Some (async_run tables ∅ (l_wire w)) /\ is_Some (sync_insert tables ins written ∅ (l_wire w)).
Proof.
  intros Hr. pose proof (a_wire p w (a_general p w (lw_reach_inv _ _ _ Hcf Hr))) as V.
  split; [apply C52_async_partial|apply C52_sync_partial]; rewrite dom_empty_L; by apply wire_messages.
Qed.

(** ** C41 *)

Lemma trace_step_confirmed tr w e w' ret : lw_trace p (lw_new p key) tr w -> lw_enabled w e -> lw_step p w e = LNext w' ret -> l_confirmed w ⊆ l_confirmed w'.
Proof.
  intros H He E. assert (I : pinv p w) by (eapply lw_reach_inv; [done|by eapply trace_reach]). pose proof (lw_step_eff p w e w' ret I He E) as S.
  destruct S as [Hc B|c ph Hc Hp C|Hc -> S1 S2 S3 S4 S5 S6 S7 S8]; [apply B|apply C|done].
Qed.

(** A call returns. *)
Lemma returned_split tr e ret rs x : returned (tr ++ [(e, ret)]) = rs ++ [x] ->
  (returned tr = rs ++ [x] /\ ret = None) \/ (returned tr = rs /\ ret = Some x.2 /\ ((is_call e = true /\ x.1 = e) \/ (is_call e = false /\ current tr = Some x.1))) \/ (returned tr = rs ++ [x] /\ current tr = None /\ is_call e = false).
Proof.
  unfold returned, current. rewrite calls_snoc. unfold ret_step. cbn [fst snd]. destruct ret as [st|]; [|by left]. destruct (is_call e).
  - cbn. intros H. apply app_inj_tail in H as [-> <-]. right; left. split; [done|]. split; [done|]. by left.
  - destruct (calls tr).2 as [e'|] eqn:Ec; [|cbn; by right; right]. cbn. intros H. apply app_inj_tail in H as [-> <-]. right; left. split; [done|]. split; [done|]. by right.
Qed.
(** With max_in_flight_items: after two calls of Flush in a row have returned OK, the
    items created before are confirmed by the server.  (One is not enough, see
    C41_writer_flush_refuted: a Flush that has items to send returns when they are
    sent.) *)
Theorem C41_writer_twice_partial n tr w pre : p_flight p = Some n -> 1 <= n -> lw_trace p (lw_new p key) tr w -> returned tr = pre ++ [(LFlush, Ok); (LFlush, Ok)] ->
  forall k, k ∈ created pre -> k ∈ l_confirmed w.
Proof.
  intros Hn Hn1 H. revert pre. induction H as [|tr w e w' ret H IH He E]; intros pre Hret k Hk; [by destruct pre|]. pose proof (trace_step_confirmed _ _ _ _ _ H He E) as HC.
  change [(LFlush, Ok); (LFlush, Ok)] with ([(LFlush, Ok)] ++ [(LFlush, Ok)]) in Hret. rewrite app_assoc in Hret.
  apply returned_split in Hret as [[Hret _]|[(Hret & -> & Hc)|(Hret & _)]]; [apply HC, (IH pre); [by rewrite Hret, <- app_assoc|done]| |apply HC, (IH pre); [by rewrite Hret, <- app_assoc|done]]. cbn [fst snd] in *.
  assert (I : pinv p w) by (eapply lw_reach_inv; [done|by eapply trace_reach]). pose proof (lw_trace_inv _ _ _ _ Hcf H) as T. pose proof (t_clean _ _ T) as TC. rewrite Hret, last_snoc in TC. specialize (TC eq_refl) as [_ TC].
  destruct Hc as [[_ <-]|[Hc Hcur]].
  { pose proof (lw_step_eff p w _ w' _ I He E) as S. destruct S as [_ B|? ? ? _ _|? _ _ _ _ _ _ _ _]; try done. by destruct (g_flush _ _ _ _ B eq_refl) as [? _]. }
  pose proof (t_cur _ _ T) as T1. destruct (l_pos w) as [|c ph] eqn:Hp; [congruence|]. destruct T1 as (ec & T1 & TM). rewrite Hcur in T1. injection T1 as <-. destruct c; try (by destruct TM as (? & ? & ? & ?)); try (by destruct TM as (? & ? & ?)); try done. rewrite (TC ph eq_refl) in *. clear TC TM ph.
  pose proof (a_pos p w I) as HP. rewrite Hp in HP. destruct HP as (_ & Hrest & Hlive & Hpd).
  assert (Hcl : l_closed w = false) by (destruct (l_closed w) eqn:X; [pose proof (a_closed p w I X); congruence|done]).
  pose proof (lw_reach_conf p n Hn Hn1 key w Hcf (trace_reach _ _ _ _ H) Hcl) as B. rewrite Hp in B. cbn [pk] in B.
  assert (Hfl : l_flight w <= 0).
  { destruct e; try done; cbn [lw_step] in E; rewrite ?Hp in E; try done.
    - cbn [call_step] in E. unfold confirm_items in E. destruct (Z.leb_spec (l_flight w) 0); [done|]. cbn [orb] in E. by destruct (negb _).
    - unfold stream_finish in E. by rewrite Hp in E.
    - destruct (_ && _); done.
    - destruct (_ && _); done. }
  apply HC. apply (all_confirmed _ _ _ _ _ _ _ _ _ _ _ B).
  - intros Hs. pose proof (b_flight _ _ _ _ _ _ _ _ _ _ _ B Hs ltac:(done) ltac:(done)). lia.
  - destruct (t_items _ _ T k) as [?|[Hx _]]; [rewrite Hret, created_app; apply elem_of_app; by left|done|]. unfold pkeys in Hx. rewrite Hpd in Hx. by apply elem_of_nil in Hx.
Qed.

(** After one Flush at most max_in_flight_items of them are not confirmed. *)
Theorem C41_writer_partial n tr w pre : p_flight p = Some n -> 1 <= n -> lw_trace p (lw_new p key) tr w -> returned tr = pre ++ [(LFlush, Ok)] -> current tr = None ->
  exists rest, Z.of_nat (length rest) <= n /\ forall k, k ∈ created pre -> k ∈ rest \/ k ∈ l_confirmed w.
Proof.
  intros Hn Hn1 H Hret Hcur. pose proof (lw_trace_inv _ _ _ _ Hcf H) as T. pose proof (t_clean _ _ T) as TC. rewrite Hret, last_snoc in TC. specialize (TC eq_refl) as [TC _].
  pose proof (t_cur _ _ T) as T1. destruct (l_pos w) as [|c ph] eqn:Hp; [|destruct T1 as (? & ? & _); congruence]. destruct (TC eq_refl) as [Hpd Hcl].
  pose proof (lw_reach_conf p n Hn Hn1 key w Hcf (trace_reach _ _ _ _ H) Hcl) as B. rewrite Hp in B. cbn [pk] in B.
  exists (drop (length (l_written w) - Z.to_nat (l_flight w)) (l_written w)). split; [rewrite drop_length; pose proof (b_most _ _ _ _ _ _ _ _ _ _ _ B); lia|]. intros k Hk.
  assert (k ∈ l_written w) as Hw.
  { destruct (t_items _ _ T k) as [?|[Hx _]]; [rewrite Hret, created_app; apply elem_of_app; by left|done|]. unfold pkeys in Hx. rewrite Hpd in Hx. by apply elem_of_nil in Hx. }
  apply elem_of_list_lookup in Hw as [i Hi]. pose proof (lookup_lt_Some _ _ _ Hi). destruct (decide (Z.of_nat i + l_flight w < Z.of_nat (length (l_written w)))) as [Hlt|Hge].
  - right. by apply (all_but_flight _ _ _ _ _ _ _ _ _ _ _ B eq_refl i).
  - left. apply elem_of_list_lookup. exists (i - (length (l_written w) - Z.to_nat (l_flight w)))%nat. rewrite lookup_drop, <- Hi. f_equal. lia.
Qed.

(** ** C58 *)

Lemma dims_conform dims sh : dims_compatible dims sh = true -> Forall2 (fun d n => d = None \/ d = Some n) dims sh.
Proof.
  revert sh. induction dims as [|d dims IH]; intros [|n sh]; cbn [dims_compatible]; try done. intros [H1 H2]%andb_true_iff. constructor; [|by apply IH].
  destruct d as [d|]; [|by left]. right. apply Nat.eqb_eq in H1. by subst.
Qed.
Lemma sig_fits_conform sig s : sig_fits sig (step_sig s) = true -> Forall2 conforms sig s.
Proof.
  unfold sig_fits. intros [Hl H]%andb_true_iff. apply Nat.eqb_eq in Hl. unfold step_sig in *. rewrite fmap_length in Hl. revert sig Hl H. induction s as [|t s IH]; intros [|sp sig] Hl H; try done.
  cbn [fmap list_fmap combine forallb fst snd] in H. apply andb_true_iff in H as [H1 H2]. constructor; [|apply IH; [by injection Hl|done]].
  apply andb_true_iff in H1 as [H1 H3]. apply bool_decide_eq_true_1 in H1. split; [done|]. unfold shape_compatible in H3. destruct (sp_shape sp) as [dims|]; [|done]. by apply dims_conform.
Qed.
Lemma check_steps_conform w sig n t : ring_ok p (l_ring w) (l_loc w) (l_hist w) -> (t + n <= p_max p)%nat -> check_steps p w sig t n = Some Ok ->
  forall i, (t <= i < t + n)%nat -> exists s, reverse (l_hist w) !! i = Some s /\ Forall2 conforms sig s.
Proof.
  intros R. revert t. induction n as [|n IH]; intros t Ht H i Hi; [lia|]. cbn [check_steps] in H. destruct R as (R1 & R2 & R3). rewrite R3 in H by lia. cbn [mbind option_bind] in H.
  destruct (reverse (l_hist w) !! t) as [s|] eqn:Es; [|done]. cbn [fmap option_fmap option_map] in H. destruct (sig_fits sig (step_sig s)) eqn:Ef; [|done].
  destruct (decide (i = t)) as [->|]; [exists s; split; [done|by apply sig_fits_conform]|]. apply (IH (S t)); [lia|done|lia].
Qed.
Lemma last_steps_reverse (h : list step) n i x : last_steps n h !! i = Some x -> (n <= length h)%nat -> exists j, (j < n)%nat /\ reverse h !! j = Some x.
Proof.
  unfold last_steps. intros H Hn. rewrite lookup_drop in H. pose proof (lookup_lt_Some _ _ _ H). exists (length h - 1 - (length h - n + i))%nat. split; [lia|].
  rewrite reverse_lookup by lia. rewrite <- H. f_equal. lia.
Qed.

(** If the writer knows the signatures of the tables, CreateItem(n) accepts an item
    only for a table that it knows, and if the table has a signature, only if the last
    [n] steps conform to it.  This holds on every run, whatever failed before. *)
Theorem C58_writer tr w tr1 table n prio ikey ret tr2 mm : lw_trace p (lw_new p key) tr w ->
  tr = tr1 ++ (LCreate table n prio ikey, ret) :: tr2 -> ret = None \/ ret = Some Ok -> p_sigs p = Some mm ->
  let h := appended (returned tr1) in
  exists os, mm !! table = Some os /\ forall sig, os = Some sig -> (Z.to_nat n <= length h)%nat /\ Forall (Forall2 conforms sig) (last_steps (Z.to_nat n) h).
Proof.
  intros Ht Htr Hret Hm h. destruct (trace_prefix _ _ _ _ Ht _ _ _ _ Htr) as (w1 & w2 & A1 & A2 & A3 & A4). destruct (create_accepted _ _ _ _ _ _ _ _ A3 Hret) as (_ & Hmax & Hs & Hidle).
  destruct (lw_trace_inv _ _ _ _ Hcf A1) as [_ T2 _ _ _ _]. rewrite Hidle in T2. fold h in T2. pose proof (r_ring p w1 (lw_reach_ring _ _ _ Hcf (trace_reach _ _ _ _ A1))) as R. rewrite <- T2 in R.
  unfold check_signature in Hs. rewrite Hm in Hs. destruct (mm !! table) as [os|]; [|done]. exists os. split; [done|]. intros sig ->.
  assert (HC := fun R => check_steps_conform w1 sig (Z.to_nat n) 0 R ltac:(lia) Hs). rewrite <- T2 in HC. specialize (HC R).
  assert (HL : (Z.to_nat n <= length h)%nat).
  { destruct (decide (Z.to_nat n = 0)%nat) as [->|]; [lia|]. destruct (HC (Z.to_nat n - 1)%nat ltac:(lia)) as (s & E & _). apply lookup_lt_Some in E. rewrite reverse_length in E. lia. }
  split; [done|]. apply Forall_lookup. intros i x Hx. destruct (last_steps_reverse h (Z.to_nat n) i x Hx HL) as (j & Hj & E). destruct (HC j ltac:(lia)) as (s & E' & HF). congruence.
Qed.
End reach.

(** ** C59: no crash *)

Definition half_ok (w : lw) : Prop :=
  match l_pos w with LRun _ (PStop | PFinish | PCloseWait | PCloseStop | PCloseFinish) => True | _ => l_stream w = true -> l_half w = false end.

Lemma write_begin_half p w c w' ret : (l_stream w = true -> l_half w = false) -> write_begin p w c = LNext w' ret -> half_ok w'.
Proof. intros H. unfold write_begin. destruct (l_stream w) eqn:E; [intros [= <- <-]|destruct (p_flight p); [destruct (_ || _); [done|]|]; intros [= <- <-]]; unfold half_ok; cbn; auto. Qed.
Lemma close_begin_half w r w' ret : close_begin w r = LNext w' ret -> half_ok w'.
Proof. unfold close_begin. destruct (l_stream w) eqn:E; [destruct (l_half w); [done|]|]; intros [= <- <-]; [done|]. unfold half_ok; cbn. by rewrite E. Qed.
Lemma call_failed_half p w c st w' ret : (l_stream w = true -> l_half w = false) -> call_failed p w c st = LNext w' ret -> half_ok w'.
Proof.
  intros H. unfold call_failed. destruct c; [intros [= <- <-]; exact H..|]. destruct (_ || _); [intros [= <- <-]; exact H|apply close_begin_half].
Qed.
Lemma write_end_half p w c st nk w' ret : (l_stream w = true -> l_half w = false) -> write_end p w c st nk = LNext w' ret -> half_ok w'.
Proof.
  intros H. unfold write_end. destruct c.
  2: { case_bool_decide; [intros [= <- <-]; exact H|by apply call_failed_half]. }
  all: case_bool_decide; [|by apply call_failed_half].
  1,2: intros [= <- <-]; exact H.
  apply close_begin_half.
Qed.
Lemma finish_begin_half p w c w' ret : (l_stream w = true -> l_half w = false) -> finish_begin p w c = LNext w' ret -> half_ok w'.
Proof. intros H. unfold finish_begin. destruct (build_chunk _ _) as [[d|]|]; [|by apply call_failed_half|done]. by apply write_begin_half. Qed.

Lemma lw_step_half p w e w' ret : half_ok w -> lw_step p w e = LNext w' ret -> ret <> Some DataLoss -> half_ok w'.
Proof.
  intros H. unfold half_ok in H. destruct e as [data|table m prio key| |r|big o nk|st nk|m|]; cbn [lw_step]; unfold idle.
  - destruct (l_pos w) eqn:E; [|done]. intros HE _. revert HE. unfold append. assert (H0 : half_ok w) by (unfold half_ok; by rewrite E).
    destruct (l_closed w); [by intros [= <- <-]|]. destruct (match l_buffer w with [] => _ | _ => _ end); [by intros [= <- <-]|]. destruct (l_ring w !! l_loc w) as [old|]; [|done]. cbn zeta.
    set (w1 := ls_append w _ _ _ _). destruct (_ <? _)%nat; [intros [= <- <-]; unfold half_ok; cbn; by rewrite E|]. by apply finish_begin_half.
  - destruct (l_pos w) eqn:E; [|done]. intros HE _. revert HE. unfold lw_create. assert (H0 : half_ok w) by (unfold half_ok; by rewrite E).
    destruct (l_closed w); [by intros [= <- <-]|]. destruct (_ || _); [by intros [= <- <-]|]. destruct (_ <? _); [by intros [= <- <-]|]. destruct (check_signature _ _ _ _) as [st|]; [|done].
    destruct (negb _); [by intros [= <- <-]|]. match goal with |- context [match ?x with Some tr => _ | None => LCrash end] => destruct x as [tr|] end; [|done]. cbn zeta.
    destruct (l_buffer _); [by apply write_begin_half|]. intros [= <- <-]. unfold half_ok; cbn; by rewrite E.
  - destruct (l_pos w) eqn:E; [|done]. intros HE _. revert HE. unfold lw_flush. assert (H0 : half_ok w) by (unfold half_ok; by rewrite E).
    destruct (l_closed w); [by intros [= <- <-]|]. destruct (l_pending w); [by intros [= <- <-]|]. by apply finish_begin_half.
  - destruct (l_pos w) eqn:E; [|done]. intros HE _. revert HE. unfold lw_close. assert (H0 : half_ok w) by (unfold half_ok; by rewrite E).
    destruct (l_closed w); [by intros [= <- <-]|]. destruct (l_pending w); [by apply close_begin_half|]. by apply finish_begin_half.
  - destruct (l_pos w) as [|c ph] eqn:E; [done|]. destruct ph as [rest req keep|req keep|req keep| | | | | | |]; cbn [call_step].
    + intros HE _. revert HE. destruct rest as [|ch rest]; [by intros [= <- <-]|]. unfold chunk_scan. destruct (_ && _); [|by intros [= <- <-]]. cbn zeta. destruct big; [|by intros [= <- <-]]. destruct (l_half w) eqn:Eh; [done|].
      destruct (write_ok o); intros [= <- <-]; unfold half_ok; cbn; unfold lsend; destruct (delivered o); done.
    + intros HE _. revert HE. destruct (l_pending w); [by apply write_end_half|]. destruct (p_flight p); [destruct (confirm_items w _) as [[]|]|]; intros [= <- <-]; done.
    + intros HE _. revert HE. unfold item_write. destruct (l_pending w); [done|]. destruct (l_half w) eqn:Eh; [done|]. cbn zeta. destruct (write_ok o); intros [= <- <-]; unfold half_ok; cbn; unfold lsend; destruct (delivered o); done.
    + intros HE _. revert HE. destruct (l_half w) eqn:Eh; [done|]. by intros [= <- <-].
    + destruct (stop_worker p w) as [st w1] eqn:Es. assert (st = Ok \/ st = DataLoss) as [->| ->]; [unfold stop_worker in Es; destruct (p_flight p); [destruct (_ <? _)|]; injection Es as <- <-; auto| |].
      * rewrite bool_decide_true by done. by intros [= <- <-].
      * rewrite bool_decide_false by done. intros HE Hr. exfalso. revert HE. unfold write_end, call_failed.
        destruct c; rewrite bool_decide_false by done; cbn [negb orb]; try rewrite (bool_decide_false (DataLoss = Unavailable)) by done; cbn [negb orb]; intros [= <- <-]; done.
    + done.
    + destruct (confirm_items w 0); [|done]. by intros [= <- <-].
    + destruct (confirm_items w 0); [|done]. by intros [= <- <-].
    + destruct (stop_worker p w) as [st w1]. by intros [= <- <-].
    + done.
  - unfold stream_finish. destruct (l_pos w) as [|c ph] eqn:E; [done|]. destruct ph as [rest req keep|req keep|req keep| | | | | | |]; try done.
    + intros HE _. revert HE. cbn zeta. destruct (_ && _); [by apply write_begin_half|by apply write_end_half].
    + by intros [= <- <-].
  - destruct (_ && _); [|done]. by intros [= <- <-].
  - destruct (_ && _); [|done]. by intros [= <- <-].
Qed.

Lemma trace_half p key tr w : conf_ok p -> lw_trace p (lw_new p key) tr w -> (forall c, (c, DataLoss) ∉ returned tr) -> half_ok w.
Proof.
  intros Hcf. induction 1 as [|tr w e w' ret H IH He E]; intros Hd; [done|]. assert (Hd' : forall c, (c, DataLoss) ∉ returned tr).
  { intros c Hc. destruct (returned_snoc tr (e, ret)) as [l Hl]. apply (Hd c). rewrite Hl, elem_of_app. by left. }
  eapply lw_step_half; [by apply IH|exact E|]. intros ->. pose proof (lw_trace_inv _ _ _ _ Hcf H) as T. pose proof (t_cur _ _ T) as T1. assert (I : pinv p w) by (eapply lw_reach_inv; [done|by eapply trace_reach]).
  pose proof (lw_step_eff p w e w' _ I He E) as S. unfold returned, current in *. rewrite calls_snoc in Hd. unfold ret_step in Hd. cbn [fst snd] in Hd.
  destruct S as [Hc B|c ph Hc Hp C|Hc [=]]; rewrite Hc in Hd; [apply (Hd e); cbn; rewrite elem_of_app; right; by left|]. rewrite Hp in T1. destruct T1 as (ec & T1 & _). rewrite T1 in Hd. apply (Hd ec). cbn. rewrite elem_of_app. right; by left.
Qed.

Section crash.
Context (p : lconf) (Hcf : conf_ok p).
Definition sound_worker (w : lw) : Prop := l_stream w = false -> p_flight p = None \/ (l_flight w = 0 /\ l_running w = false).

Lemma write_begin_safe w c : sound_worker w -> write_begin p w c <> LCrash.
Proof. intros H. unfold write_begin. destruct (l_stream w) eqn:E; [done|]. destruct (H E) as [->|[-> ->]]; [done|]. by destruct (p_flight p). Qed.
Lemma close_begin_safe w r : (l_stream w = true -> l_half w = false) -> close_begin w r <> LCrash.
Proof. intros H. unfold close_begin. destruct (l_stream w); [by rewrite H|done]. Qed.
Lemma call_failed_safe w c st : (st = Unavailable -> l_stream w = true -> l_half w = false) -> call_failed p w c st <> LCrash.
Proof. intros H. unfold call_failed. destruct c; try done. case_bool_decide as E; [|done]. destruct retry; [done|]. by apply close_begin_safe, H. Qed.
Lemma write_end_safe w c st nk : (st = Unavailable \/ st = Ok -> l_stream w = true -> l_half w = false) -> write_end p w c st nk <> LCrash.
Proof.
  intros H. unfold write_end. destruct c; case_bool_decide as E; try done; try (apply call_failed_safe; cbn; auto). apply close_begin_safe; cbn; auto.
Qed.
Lemma finish_begin_safe w c : sound_worker w -> rows_ok (l_buffer w) -> l_buffer w <> [] -> (l_stream w = true -> l_half w = false) -> finish_begin p w c <> LCrash.
Proof.
  intros H1 H2 H3 H4. unfold finish_begin. destruct (build_some (p_delta p) (l_buffer w) H3 H2) as [x ->]. destruct x; [by apply write_begin_safe|]. by apply call_failed_safe.
Qed.
Lemma item_traj_some w n : 1 <= n <= Z.of_nat (length (l_chunks w) * p_len p + length (l_buffer w)) -> shape_inv p w ->
  exists tr, (cols ← num_columns w; let '(cs, remaining) := item_chunks w n in flat_timestep_trajectory cs cols (- remaining) n) = Some tr.
Proof.
  intros Hn [Hb Hs]. destruct (item_chunks w n) as [cs r] eqn:E.
  assert (HC : chain (fun _ _ _ => True) (key_len <$> l_chunks w) 0 (length (concat (lc_rows <$> l_chunks w)))).
  { assert (G : forall m l, Forall (chunk_ok (p_delta p)) l -> chain (fun _ _ _ => True) (key_len <$> l) m (m + length (concat (lc_rows <$> l)))); [|by apply (G 0%nat)]. intros m l H. revert m. induction H as [|c l (A1 & _ & A2 & _) H IH]; intros m; [cbn; lia|].
    rewrite !fmap_cons. cbn [chain key_len concat]. exists (length (lc_rows c)). split; [done|]. split; [done|]. split; [destruct (lc_rows c); [done|cbn; lia]|]. rewrite app_length, Nat.add_assoc. apply IH. }
  destruct (item_chunks_chain (fun _ _ _ => True) w n cs r 0 _ (length (concat (lc_rows <$> l_chunks w)) + length (l_buffer w))%nat ltac:(lia) HC eq_refl ltac:(done) E) as (m & C1 & C2 & C3 & C4 & C5).
  assert (exists cols, num_columns w = Some cols) as [cols ->].
  { unfold num_columns. destruct (l_buffer w); [|by eexists]. destruct (l_chunks w); [cbn in Hn; lia|]. by eexists. }
  cbn [mbind option_bind]. destruct cs as [|[k len] cs].
  - destruct C5 as [X Y]. rewrite X, Y in Hn. cbn in Hn. lia.
  - destruct (chain_columns (fun _ _ _ => True) ((k, len) :: cs) cols (- r) n m _ C1) as (tr & T & _); [split; [done|lia]|]. by exists tr.
Qed.
Lemma check_steps_some w sig n t : length (l_ring w) = p_max p -> is_Some (check_steps p w sig t n).
Proof.
  intros HL. revert t. induction n as [|n IH]; intros t; [by eexists|]. cbn [check_steps]. destruct (lookup_lt_is_Some_2 (l_ring w) (ring_back p (l_loc w) t)) as [e He]; [rewrite HL; apply ring_back_lt; destruct Hcf; lia|].
  rewrite He. cbn [mbind option_bind]. destruct e as [got|]; [|by eexists]. destruct (sig_fits sig got); [apply IH|by eexists].
Qed.
Lemma check_signature_some w table n : length (l_ring w) = p_max p -> is_Some (check_signature p w table n).
Proof. intros HL. unfold check_signature. destruct (p_sigs p) as [mm|]; [|by eexists]. destruct (mm !! table) as [[sig|]|]; [by apply check_steps_some|by eexists..]. Qed.

(** A run in which no call has returned DataLoss: no action makes the process crash by
    a failed check or an access outside of a container, or calls a method of a stream
    after WritesDone.  Items of no steps are excluded.  Both exclusions are needed:
    C59_loss_refuted, C59_zero_refuted. *)
Theorem C59_writer_partial key tr w e : lw_trace p (lw_new p key) tr w -> (forall c, (c, DataLoss) ∉ returned tr) -> lw_enabled w e -> (forall table prio k, e <> LCreate table 0 prio k) ->
  lw_step p w e <> LCrash.
Proof.
  intros H Hd He Hz. pose proof (trace_reach _ _ _ _ H) as R. pose proof (lw_reach_inv _ _ _ Hcf R) as I. pose proof (trace_half _ _ _ _ Hcf H Hd) as HH. pose proof (lw_reach_shape p key w Hcf R) as HS. pose proof (a_ring p w (a_general p w I)) as [HR1 HR2].
  assert (SW : l_closed w = false -> (forall c, l_pos w <> LRun c PFinish) -> sound_worker w).
  { intros Hcl Hp Hs. destruct (p_flight p) as [n|] eqn:En; [|by left]. right. destruct Hcf as (_ & _ & Hn1). rewrite En in Hn1. pose proof (lw_reach_conf p n En Hn1 key w Hcf R Hcl) as B. destruct (b_shut _ _ _ _ _ _ _ _ _ _ _ B Hs) as (? & ? & _). done. }
  pose proof (a_pos p w I) as HP. pose proof (a_closed p w I) as HCL. unfold half_ok in HH. destruct e as [data|table n prio k| |r|big o nk|st nk|m|]; cbn [lw_step]; unfold idle.
  - destruct (l_pos w) eqn:E; [|done]. unfold append. destruct (l_closed w); [done|]. specialize (SW eq_refl ltac:(done)). destruct (match l_buffer w with [] => _ | _ => _ end) eqn:Em; [done|].
    destruct (lookup_lt_is_Some_2 (l_ring w) (l_loc w)) as [old Hold]; [lia|]. rewrite Hold. cbn zeta. destruct (_ <? _)%nat; [done|]. apply finish_begin_safe; try done; cbn; [|by destruct (l_buffer w)].
    destruct HS as [[S1 S2] _]. split; [apply Forall_app; split; [done|]; repeat constructor; done|]. assert (SL : forall s, s ∈ l_buffer w -> length s = length data).
    { intros s Hs. destruct (l_buffer w) as [|b bs]; [by apply elem_of_nil in Hs|]. apply negb_false_iff, Nat.eqb_eq in Em. rewrite <- Em. apply S2; [done|left]. }
    intros a b. rewrite !elem_of_app, !elem_of_list_singleton. intros [Ha|Ha] [Hb'|Hb']; rewrite ?(SL a) by exact Ha; rewrite ?(SL b) by exact Hb'; congruence.
  - destruct (l_pos w) eqn:E; [|done]. unfold lw_create. destruct (l_closed w); [done|]. specialize (SW eq_refl ltac:(done)). destruct (Z.ltb_spec n 0); [done|]. destruct (Z.ltb_spec (Z.of_nat (length (l_chunks w) * p_len p + length (l_buffer w))) n); [done|]. cbn [orb].
    destruct (Z.ltb_spec (Z.of_nat (p_max p)) n); [done|]. destruct (check_signature_some w table (Z.to_nat n) HR1) as [st ->]. destruct (negb _); [done|].
    assert (n <> 0) by (intros ->; by apply (Hz table prio k)). destruct (item_traj_some w n) as [tr' ->]; [lia|done|]. cbn zeta. destruct (l_buffer _); [|done]. by apply write_begin_safe.
  - destruct (l_pos w) eqn:E; [|done]. unfold lw_flush. destruct (l_closed w); [done|]. specialize (SW eq_refl ltac:(done)). destruct (HP eq_refl) as [(_ & Hbp & _) _]. destruct (l_pending w); [done|]. apply finish_begin_safe; [done|apply HS| |done]. intros X. by specialize (Hbp X).
  - destruct (l_pos w) eqn:E; [|done]. unfold lw_close. destruct (l_closed w); [done|]. specialize (SW eq_refl ltac:(done)). destruct (HP eq_refl) as [(_ & Hbp & _) _]. destruct (l_pending w); [by apply close_begin_safe|]. apply finish_begin_safe; [done|apply HS| |done]. intros X. by specialize (Hbp X).
  - destruct (l_pos w) as [|c ph] eqn:E; [done|]. destruct ph as [rest req keep|req keep|req keep| | | | | | |]; cbn [call_step phase_ok] in *.
    + destruct HP as (_ & _ & Hs & _). rewrite Hs in HH. destruct rest as [|ch rest]; [done|]. unfold chunk_scan. rewrite (HH eq_refl). destruct (_ && _); [|done]. cbn zeta. destruct big; [|done]. by destruct (write_ok o).
    + destruct (l_pending w); [apply write_end_safe; auto|]. destruct (p_flight p); [by destruct (confirm_items w _) as [[]|]|done].
    + destruct HP as (_ & _ & Hs & _ & Hpd). unfold item_write. destruct (l_pending w); [done|]. rewrite HH by done. cbn zeta. by destruct (write_ok o).
    + destruct HP as (_ & Hs). by rewrite HH.
    + destruct (stop_worker p w) as [st w1] eqn:Es. case_bool_decide as Hst; [done|]. apply write_end_safe. intros Hx. exfalso. unfold stop_worker in Es. destruct (p_flight p); [destruct (_ <? _)|]; injection Es as <- <-; destruct Hx; done.
    + done.
    + by destruct (confirm_items w 0).
    + by destruct (confirm_items w 0).
    + by destruct (stop_worker p w).
    + done.
  - unfold stream_finish. destruct (l_pos w) as [|c ph] eqn:E; [done|]. destruct ph as [rest req keep|req keep|req keep| | | | | | |]; try done. cbn zeta. destruct (_ && _); [|by apply write_end_safe].
    apply write_begin_safe. intros _. cbn. destruct (p_flight p) as [n|] eqn:En; [|by left]. right. destruct Hcf as (_ & _ & Hn1). rewrite En in Hn1.
    assert (Hcl : l_closed w = false) by (destruct (l_closed w); [by specialize (HCL eq_refl)|done]). pose proof (lw_reach_conf p n En Hn1 key w Hcf R Hcl) as B. rewrite E in B. by destruct (b_fin _ _ _ _ _ _ _ _ _ _ _ B eq_refl) as (_ & ? & ?).
  - by destruct (_ && _).
  - by destruct (_ && _).
Qed.
End crash.

(** ** C60: one key, one chunk *)

(** If Close has not been called and every Append and Flush has succeeded, two chunks
    with the same key that reached the server are the same. *)
Theorem C60_writer_partial p key tr w a b : conf_ok p -> lw_trace p (lw_new p key) tr w -> smooth tr -> a ∈ l_sent w -> b ∈ l_sent w -> kc_key a = kc_key b -> a = b.
Proof.
  intros Hcf H Hs Ha Hb Hk. pose proof (lw_reach_place _ _ _ Hcf (trace_reach _ _ _ _ H) (smooth_ok _ _ _ _ Hcf H Hs)) as K.
  destruct (k_sent p w K a Ha) as (s1 & l1 & A1 & _ & _ & A2). destruct (k_sent p w K b Hb) as (s2 & l2 & B1 & _ & _ & B2). rewrite Hk, B1 in A1. injection A1 as -> ->.
  destruct a as [ka da], b as [kb db]. cbn in *. congruence.
Qed.

(** ** Runs given by lists of actions *)

Definition lw_enabled_b (w : lw) (e : lev) : bool :=
  match e with
  | LAppend data => forallb tensor_ok_b data
  | LCreate _ _ _ key => bool_decide (key ∉ ((fun m => li_key (lm_item m)) <$> l_made w))
  | LStep _ _ nk => bool_decide (nk ∉ l_keys w)
  | LFinish st nk => bool_decide (nk ∉ l_keys w) && match l_pos w with LRun _ PFinish => bool_decide (st <> Ok) | _ => true end
  | _ => true
  end.
Lemma lw_enabled_sound w e : lw_enabled_b w e = true -> lw_enabled w e.
Proof.
  destruct e as [data|table n prio key| |r|big o nk|st nk|m|]; cbn [lw_enabled_b lw_enabled]; try done.
  - intros H. apply Is_true_true, forallb_True in H. eapply Forall_impl; [exact H|]. intros t Ht%Is_true_true. by apply tensor_ok_b_sound.
  - by intros ?%bool_decide_eq_true.
  - by intros ?%bool_decide_eq_true.
  - intros [H1%bool_decide_eq_true H2]%andb_true_iff. split; [done|]. intros c Hc. rewrite Hc in H2. by apply bool_decide_eq_true in H2.
Qed.
Fixpoint lw_log (p : lconf) (w : lw) (es : list lev) : option (lw * list (lev * option status)) :=
  match es with
  | [] => Some (w, [])
  | e :: es =>
    if lw_enabled_b w e then match lw_step p w e with LNext w' r => '(w', l) ← lw_log p w' es; Some (w', (e, r) :: l) | _ => None end else None
  end.
Lemma log_trace p w0 es : forall tr w w' l, lw_trace p w0 tr w -> lw_log p w es = Some (w', l) -> lw_trace p w0 (tr ++ l) w'.
Proof.
  induction es as [|e es IH]; intros tr w w' l H; cbn [lw_log]; [intros [= <- <-]; by rewrite app_nil_r|]. destruct (lw_enabled_b w e) eqn:He; [|done].
  destruct (lw_step p w e) as [| |w1 r] eqn:E; try done. destruct (lw_log p w1 es) as [[w2 l2]|] eqn:El; cbn; [|done]. intros [= <- <-].
  replace (tr ++ (e, r) :: l2) with ((tr ++ [(e, r)]) ++ l2) by (by rewrite <- app_assoc). eapply IH; [|exact El]. econstructor; [exact H|by apply lw_enabled_sound|exact E].
Qed.
Definition lrun (p : lconf) (es : list lev) : lw * list (lev * option status) := default (lw_new p 100, []) (lw_log p (lw_new p 100) es).
Lemma lrun_trace p es : lw_trace p (lw_new p 100) (lrun p es).2 (lrun p es).1.
Proof.
  unfold lrun. destruct (lw_log p (lw_new p 100) es) as [[w l]|] eqn:E; [|constructor]. cbn. rewrite <- (app_nil_l l). eapply log_trace; [constructor|exact E].
Qed.

(** *** An ordinary run *)

(** Chunks of two steps, items of at most four, one item in flight. *)
Definition lex_sig : list tspec := [mkTspec (TOther 1) (Some []); mkTspec (TOther 1) (Some [None])].
Definition lex_conf (flight : option Z) : lconf := mkLconf 2 4 false (Some {[5 := Some lex_sig; 6 := None]}) flight.
Lemma lex_conf_ok f : match f with Some n => 1 <= n | None => True end -> conf_ok (lex_conf f).
Proof. intros H. split; [cbn; lia|]. split; [cbn; lia|exact H]. Qed.
Definition lstep (k : Z) : step := [scalar k; vec [k; k + 1]].
Definition go (b : Z) (n : nat) : list lev := (fun i => LStep false OutOk (b + Z.of_nat i)) <$> seq 0 n.
Definition lex_first : list lev := [LAppend (lstep 1); LCreate 5 1 (Fin 1) 41; LAppend (lstep 2)] ++ go 200 5 ++ [LAppend (lstep 3)].
Definition lex_create : lev := LCreate 5 3 (Fin 1) 42.
Definition lex_rest : list lev := [LConf 1; LFlush] ++ go 300 6.
Definition lex_flush : list lev := [LFlush; LConf 1] ++ go 400 1.
Definition smooth_b (tr : list (lev * option status)) : bool :=
  forallb (fun x => match x.1 with LClose _ => false | _ => true end) tr &&
  forallb (fun x => match x.1 with LAppend _ | LFlush => bool_decide (x.2 = Ok) | _ => true end) (returned tr).
Lemma smooth_sound tr : smooth_b tr = true -> smooth tr.
Proof.
  intros [H1 H2]%andb_true_iff. rewrite forallb_forall in H1, H2. split.
  - intros r ret Hx. by specialize (H1 _ (proj1 (elem_of_list_In _ _) Hx)).
  - intros e st Hx. specialize (H2 _ (proj1 (elem_of_list_In _ _) Hx)). cbn [fst snd] in H2. destruct e; try done; by apply bool_decide_eq_true in H2.
Qed.
(** What a client samples of the item in the last message. *)
Definition lex_sampled (w : lw) (columns : nat) : option (list tensor) :=
  pre ← Some (removelast (l_wire w)); r ← last (l_wire w); chunks ← async_run (fun _ => true) ∅ pre;
  match async_insert_request (fun _ => true) chunks r with
  | Some (IInsert _ ii data) =>
    match as_sample_local (mkSampled (mkSinfo (ex_meta 9) (ii_traj ii) (replicate columns false)) data) with
    | AOk s => match as_trajectory s with SROk (_, out) => Some out | _ => None end
    | _ => None
    end
  | _ => None
  end.

(** C37: an item of three steps in two chunks. *)
Example C37_writer_example : exists tr w tr1 w1 ret tr2 pre r suf chunks c ii data,
  conf_ok (lex_conf (Some 1)) /\ lw_trace (lex_conf (Some 1)) (lw_new (lex_conf (Some 1)) 100) tr w /\ smooth tr /\
  tr = tr1 ++ (lex_create, ret) :: tr2 /\ (ret = None \/ ret = Some Ok) /\ (forall st, (LFlush, st) ∉ tr1) /\
  lw_trace (lex_conf (Some 1)) (lw_new (lex_conf (Some 1)) 100) tr1 w1 /\ steps_held w1 = 3%nat /\
  l_wire w = pre ++ r :: suf /\ pre <> [] /\ async_run (fun _ => true) ∅ pre = Some chunks /\ async_insert_request (fun _ => true) chunks r = Some (IInsert c ii data) /\ ii_key ii = 42 /\
  appended (returned tr1) = [lstep 1; lstep 2; lstep 3] /\ Forall (fun s => step_sig s = step_sig (lstep 1)) (appended (returned tr1)) /\
  lex_sampled w 2 = Some [vec [1; 2; 3]; mkTensor (TOther 1) [3; 2]%nat [1; 2; 2; 3; 3; 4]].
Proof.
  set (R := lrun (lex_conf (Some 1)) (lex_first ++ [lex_create] ++ lex_rest)). set (R1 := lrun (lex_conf (Some 1)) lex_first).
  set (st := store_of (async_insert_request (fun _ => true) (default ∅ (async_run (fun _ => true) ∅ (removelast (l_wire R.1)))) (default (mkIreq [] None) (last (l_wire R.1))))).
  exists R.2, R.1, (take 9 R.2), R1.1, (Some Ok), (drop 10 R.2), (removelast (l_wire R.1)), (default (mkIreq [] None) (last (l_wire R.1))), [], (default ∅ (async_run (fun _ => true) ∅ (removelast (l_wire R.1)))).
  exists st.1.1, (default (mkIitem 0 0 [] [] false) st.1.2), st.2.
  split; [by apply lex_conf_ok|]. split; [apply lrun_trace|]. split; [apply smooth_sound; vm_compute; reflexivity|]. split; [vm_compute; reflexivity|]. split; [by right|].
  split. { intros s Hx. assert (forallb (fun x => match x.1 with LFlush => false | _ => true end) (take 9 R.2) = true) as F by (vm_compute; reflexivity). rewrite forallb_forall in F. by specialize (F _ (proj1 (elem_of_list_In _ _) Hx)). }
  split. { assert (take 9 R.2 = R1.2) as -> by (vm_compute; reflexivity). apply lrun_trace. }
  split; [vm_compute; reflexivity|]. split; [vm_compute; reflexivity|]. split; [vm_compute; discriminate|]. split; [vm_compute; reflexivity|]. split; [vm_compute; reflexivity|]. split; [vm_compute; reflexivity|].
  assert (appended (returned (take 9 R.2)) = [lstep 1; lstep 2; lstep 3]) as -> by (vm_compute; reflexivity). split; [done|]. split; [repeat constructor|]. vm_compute; reflexivity.
Qed.

(** The writer accepts an item of the last four steps, max_timesteps is four, and it
    cannot be sampled: Flush has made short chunks, and the writer counts them as full
    ones when it drops chunks and when it checks the argument of CreateItem. *)
Definition flushed (k : Z) : list lev := [LAppend (lstep k); LCreate 6 1 (Fin 1) (40 + k); LFlush].
Theorem C37_flush_refuted : ~ (forall p key tr w tr1 table n prio ikey ret tr2 pre r suf chunks c ii data mt sg, conf_ok p ->
  lw_trace p (lw_new p key) tr w -> smooth tr ->
  tr = tr1 ++ (LCreate table n prio ikey, ret) :: tr2 -> ret = None \/ ret = Some Ok -> 1 <= n <= Z.of_nat (length (appended (returned tr1))) ->
  l_wire w = pre ++ r :: suf -> async_run (fun _ => true) ∅ pre = Some chunks -> async_insert_request (fun _ => true) chunks r = Some (IInsert c ii data) -> ii_key ii = ikey ->
  let h := appended (returned tr1) in Forall (fun s => step_sig s = sg) h -> sg <> [] ->
  exists s, as_sample_local (mkSampled (mkSinfo mt (ii_traj ii) (replicate (length sg) false)) data) = AOk s).
Proof.
  intros H. set (R := lrun (lex_conf None) (flushed 1 ++ go 200 5 ++ flushed 2 ++ go 300 6 ++ flushed 3 ++ go 400 7 ++ [LAppend (lstep 4); LCreate 6 4 (Fin 1) 60; LFlush] ++ go 500 6)).
  set (st := store_of (async_insert_request (fun _ => true) (default ∅ (async_run (fun _ => true) ∅ (removelast (l_wire R.1)))) (default (mkIreq [] None) (last (l_wire R.1))))).
  destruct (H (lex_conf None) 100 R.2 R.1 (take 28 R.2) 6 4 (Fin 1) 60 (Some Ok) (drop 29 R.2) (removelast (l_wire R.1)) (default (mkIreq [] None) (last (l_wire R.1))) [] (default ∅ (async_run (fun _ => true) ∅ (removelast (l_wire R.1))))
    st.1.1 (default (mkIitem 0 0 [] [] false) st.1.2) st.2 (ex_meta 9) (step_sig (lstep 1))) as [s Hs].
  - by apply lex_conf_ok.
  - apply lrun_trace.
  - apply smooth_sound; vm_compute; reflexivity.
  - vm_compute; reflexivity.
  - by right.
  - assert (length (appended (returned (take 28 R.2))) = 4%nat) as -> by (vm_compute; reflexivity). lia.
  - vm_compute; reflexivity.
  - vm_compute; reflexivity.
  - vm_compute; reflexivity.
  - vm_compute; reflexivity.
  - assert (appended (returned (take 28 R.2)) = [lstep 1; lstep 2; lstep 3; lstep 4]) as -> by (vm_compute; reflexivity). repeat constructor.
  - discriminate.
  - assert (as_sample_local (mkSampled (mkSinfo (ex_meta 9) (ii_traj (default (mkIitem 0 0 [] [] false) st.1.2)) (replicate (length (step_sig (lstep 1))) false)) st.2) = AError) as E by (vm_compute; reflexivity).
    clear -E Hs. congruence.
Qed.

(** *** C41 *)

Example C41_writer_example : exists tr w, lw_trace (lex_conf (Some 1)) (lw_new (lex_conf (Some 1)) 100) tr w /\
  (exists pre, returned tr = pre ++ [(LFlush, Ok); (LFlush, Ok)] /\ created pre = [41; 42]) /\ current tr = None.
Proof.
  set (R := lrun (lex_conf (Some 1)) (lex_first ++ [lex_create] ++ lex_rest ++ lex_flush)). exists R.2, R.1. split; [apply lrun_trace|]. split; [|vm_compute; reflexivity].
  exists (take 5 (returned R.2)). split; vm_compute; reflexivity.
Qed.

(** Flush has returned OK, the item has not been confirmed. *)
Theorem C41_writer_flush_refuted : ~ (forall p key tr w pre, conf_ok p -> p_flight p <> None -> lw_trace p (lw_new p key) tr w -> returned tr = pre ++ [(LFlush, Ok)] -> forall k, k ∈ created pre -> k ∈ l_confirmed w).
Proof.
  intros H. set (R := lrun (lex_conf (Some 1)) (lex_first ++ [lex_create] ++ lex_rest)).
  assert (42 ∈ l_confirmed R.1) as HC.
  { apply (H (lex_conf (Some 1)) 100 R.2 R.1 (take 5 (returned R.2))); [by apply lex_conf_ok|discriminate|apply lrun_trace|vm_compute; reflexivity|].
    assert (created (take 5 (returned R.2)) = [41; 42]) as -> by (vm_compute; reflexivity). right; left. }
  assert (bool_decide (42 ∈ l_confirmed R.1) = false) as E by (vm_compute; reflexivity). apply bool_decide_eq_false in E. exact (E HC).
Qed.
(** Close returns OK although the connection is broken and the item has not been
    confirmed. *)
Theorem C41_writer_close_refuted : ~ (forall p key tr w pre retry, conf_ok p -> p_flight p <> None -> lw_trace p (lw_new p key) tr w -> returned tr = pre ++ [(LClose retry, Ok)] -> forall k, k ∈ created pre -> k ∈ l_confirmed w).
Proof.
  intros H. set (R := lrun (lex_conf (Some 1)) (lex_first ++ [lex_create] ++ lex_rest ++ [LDead; LClose true] ++ go 400 2 ++ [LFinish Unavailable 500])).
  assert (42 ∈ l_confirmed R.1) as HC.
  { apply (H (lex_conf (Some 1)) 100 R.2 R.1 (take 6 (returned R.2)) true); [by apply lex_conf_ok|discriminate|apply lrun_trace|vm_compute; reflexivity|].
    assert (created (take 6 (returned R.2)) = [41; 42]) as -> by (vm_compute; reflexivity). right; left. }
  assert (bool_decide (42 ∈ l_confirmed R.1) = false) as E by (vm_compute; reflexivity). apply bool_decide_eq_false in E. exact (E HC).
Qed.

(** *** C58 *)

(** The item of C37_writer_example is for a table with a signature; a step that does
    not conform makes CreateItem fail. *)
Example C58_writer_example : exists tr w tr1 tr2, lw_trace (lex_conf (Some 1)) (lw_new (lex_conf (Some 1)) 100) tr w /\ tr = tr1 ++ (lex_create, Some Ok) :: tr2 /\
  exists w', lw_reach (lex_conf None) (lw_new (lex_conf None) 100) w' /\ lw_step (lex_conf None) w' (LCreate 5 1 (Fin 1) 43) = LNext w' (Some InvalidArgument).
Proof.
  set (R := lrun (lex_conf (Some 1)) (lex_first ++ [lex_create] ++ lex_rest)). exists R.2, R.1, (take 9 R.2), (drop 10 R.2). split; [apply lrun_trace|]. split; [vm_compute; reflexivity|].
  exists (lrun (lex_conf None) [LAppend [vec [1]; scalar 7]]).1. split; [eapply trace_reach, lrun_trace|]. vm_compute. reflexivity.
Qed.

(** *** C59 *)

(** After a call has returned DataLoss the writer still uses the stream, on which it
    has called WritesDone: the next call of Flush writes to it. *)
Definition lex_loss : list lev := lex_first ++ [lex_create; LDead; LFlush] ++ go 300 6.
Theorem C59_loss_refuted : ~ (forall p key w e, conf_ok p -> lw_reach p (lw_new p key) w -> lw_enabled w e -> (forall table prio k, e <> LCreate table 0 prio k) -> lw_step p w e <> LCrash).
Proof.
  intros H. set (R := lrun (lex_conf (Some 1)) (lex_loss ++ [LFlush] ++ go 400 4)).
  apply (H (lex_conf (Some 1)) 100 R.1 (LStep false OutOk 500)); [by apply lex_conf_ok|eapply trace_reach, lrun_trace| |done|].
  - apply lw_enabled_sound. vm_compute. reflexivity.
  - vm_compute. reflexivity.
Qed.
(** CreateItem with no steps, before any Append and with steps in the buffer. *)
Theorem C59_zero_refuted : ~ (forall p key tr w e, conf_ok p -> lw_trace p (lw_new p key) tr w -> (forall c, (c, DataLoss) ∉ returned tr) -> lw_enabled w e -> lw_step p w e <> LCrash).
Proof.
  intros H. apply (H (lex_conf None) 100 [] (lw_new (lex_conf None) 100) (LCreate 6 0 (Fin 1) 41)); [by apply lex_conf_ok|constructor|intros c Hc; by apply elem_of_nil in Hc| |vm_compute; reflexivity].
  apply lw_enabled_sound. vm_compute. reflexivity.
Qed.
Theorem C59_zero_buffer_refuted : ~ (forall p key tr w e, conf_ok p -> lw_trace p (lw_new p key) tr w -> (forall c, (c, DataLoss) ∉ returned tr) -> l_hist w <> [] -> lw_enabled w e -> lw_step p w e <> LCrash).
Proof.
  intros H. set (R := lrun (lex_conf None) [LAppend (lstep 1)]). apply (H (lex_conf None) 100 R.2 R.1 (LCreate 6 0 (Fin 1) 41)); [by apply lex_conf_ok|apply lrun_trace| |vm_compute; discriminate| |vm_compute; reflexivity].
  - assert (returned R.2 = [(LAppend (lstep 1), Ok)]) as -> by (vm_compute; reflexivity). intros c Hc. by apply elem_of_list_singleton in Hc.
  - apply lw_enabled_sound. vm_compute. reflexivity.
Qed.
Example C59_example : exists tr w e, lw_trace (lex_conf (Some 1)) (lw_new (lex_conf (Some 1)) 100) tr w /\ (forall c, (c, DataLoss) ∉ returned tr) /\ lw_enabled w e /\
  (forall table prio k, e <> LCreate table 0 prio k) /\ length tr = 21%nat /\ l_written w = [41; 42].
Proof.
  set (R := lrun (lex_conf (Some 1)) (lex_first ++ [lex_create] ++ lex_rest ++ lex_flush)). exists R.2, R.1, (LClose true). split; [apply lrun_trace|]. split.
  - assert (snd <$> returned R.2 = [Ok; Ok; Ok; Ok; Ok; Ok; Ok]) as E by (vm_compute; reflexivity). intros c Hc. apply (elem_of_list_fmap_1 snd) in Hc. rewrite E in Hc. clear -Hc. apply elem_of_list_In in Hc. cbn in Hc. intuition discriminate.
  - split; [done|]. split; [done|]. split; vm_compute; reflexivity.
Qed.

(** *** C60 *)

(** Append fails after the server has received the chunk; the next one makes another
    chunk with the same key. *)
Definition lex_reuse : list lev :=
  [LAppend (lstep 1); LCreate 6 1 (Fin 1) 41; LAppend (lstep 2)] ++ go 200 3 ++ [LStep false OutSent 210] ++ go 220 2 ++ [LFinish NotFound 230] ++ [LAppend (lstep 3)] ++ go 240 5.
Theorem C60_writer_refuted : ~ (forall p key w a b, conf_ok p -> lw_reach p (lw_new p key) w -> a ∈ l_sent w -> b ∈ l_sent w -> kc_key a = kc_key b -> a = b).
Proof.
  intros H. set (R := lrun (lex_conf None) lex_reuse).
  assert (exists a b, l_sent R.1 = [a; b] /\ kc_key a = 100 /\ kc_key b = 100 /\ (cd_tensors (kc_data a) <> cd_tensors (kc_data b))) as (a & b & E & Ka & Kb & Hd).
  { eexists _, _. split; [vm_compute; reflexivity|]. split; [reflexivity|]. split; [reflexivity|]. vm_compute. discriminate. }
  apply Hd. rewrite (H (lex_conf None) 100 R.1 a b); [done|by apply lex_conf_ok|eapply trace_reach, lrun_trace|rewrite E; left|rewrite E; right; left|congruence].
Qed.
Example C60_example : exists tr w, lw_trace (lex_conf (Some 1)) (lw_new (lex_conf (Some 1)) 100) tr w /\ smooth tr /\ kc_key <$> l_sent w = [100; 204].
Proof.
  set (R := lrun (lex_conf (Some 1)) (lex_first ++ [lex_create] ++ lex_rest ++ lex_flush)). exists R.2, R.1. split; [apply lrun_trace|]. split; [apply smooth_sound|]; vm_compute; reflexivity.
Qed.

Print Assumptions C37_writer_held_partial.
Print Assumptions C37_writer_partial.
Print Assumptions C37_flush_refuted.
Print Assumptions C40_writer_async.
Print Assumptions C40_writer_sync.
Print Assumptions C40_writer_no_crash.
Print Assumptions C41_writer_twice_partial.
Print Assumptions C41_writer_partial.
Print Assumptions C41_writer_flush_refuted.
Print Assumptions C41_writer_close_refuted.
Print Assumptions C58_writer.
Print Assumptions C59_writer_partial.
Print Assumptions C59_loss_refuted.
Print Assumptions C59_zero_refuted.
Print Assumptions C59_zero_buffer_refuted.
Print Assumptions C60_writer_partial.
Print Assumptions C60_writer_refuted.
