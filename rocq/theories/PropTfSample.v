(** C95: TFClient.sample. *)
From Verif Require Import Base Queue PropBoundedQueue Sampler PropSampler Delivery PropDelivery.
From Verif Require Import Trajectory Tensor TrajUtil ChunkerOptions Sample Stream Reactor PropTraj PropSample PropStream PropInsertStream
  Chunker PropChunker PropDelta TrajWriter TrajWriterProofs PropTrajWriter Writer WriterProofs WriterConf WriterData WriterPlace WriterOwn WriterTrace PropWriter PropClose PyClient PropInsert
  SigCheck PropSigCheck Dataset PropDataset TfSample.
Local Open Scope Z_scope.

(** ** Specification *)

(** The column that consists of the pieces [ts]. *)
Definition joined (ts : list tensor) (b : tensor) : Prop :=
  exists sh, Forall (fun t => t_ty t = t_ty b /\ exists d, t_shape t = d :: sh) ts /\
    t_shape b = list_sum (dim0 <$> ts) :: sh /\ t_data b = concat (t_data <$> ts).
(** All columns have the same number of rows. *)
Definition even (bs : list tensor) : Prop := exists n, Forall (fun b => dim0 b = n) bs.
(** The first row of every column. *)
Definition first_rows (bs l : list tensor) : Prop := Forall2 (fun b r => is_row b 0 r) bs l.

(** ** The op *)

Lemma col_length_sum l : forall a, foldl Z.add a ((fun p : tensor * nat => Z.of_nat (dim0 (fst p))) <$> l) = a + Z.of_nat (list_sum (dim0 <$> (fst <$> l))).
Proof. induction l as [|x l IH]; intros a; [cbn; lia|]. rewrite !fmap_cons. cbn [foldl]. rewrite IH. unfold list_sum. cbn [foldr]. lia. Qed.
Lemma fst_fresh ts : fst <$> fresh_col ts = ts.
Proof. unfold fresh_col. rewrite <- list_fmap_compose. by apply list_fmap_id. Qed.
Lemma col_length_fresh ts : col_length (fresh_col ts) = Z.of_nat (list_sum (dim0 <$> ts)).
Proof. unfold col_length. by rewrite col_length_sum, fst_fresh. Qed.
Lemma joined_dim ts b : joined ts b -> dim0 b = list_sum (dim0 <$> ts).
Proof. intros (sh & _ & H & _). unfold dim0 at 1. by rewrite H. Qed.

Lemma composed_even cols bs : Forall2 joined cols bs -> forall prev, -1 <= prev ->
  composed_from prev (fresh_col <$> cols) = true <-> exists n, Forall (fun b => dim0 b = n) bs /\ (prev = -1 \/ cols = [] \/ prev = Z.of_nat n).
Proof.
  induction 1 as [|ts b cols bs Hj H IH]; intros prev Hp.
  - split; [|done]. intros _. exists 0%nat. split; [constructor|]. right. by left.
  - rewrite fmap_cons. cbn [composed_from]. rewrite col_length_fresh, <- (joined_dim _ _ Hj).
    destruct (negb (prev =? -1) && negb (prev =? Z.of_nat (dim0 b))) eqn:E.
    + split; [done|]. apply andb_true_iff in E as [E1 E2]. apply negb_true_iff, Z.eqb_neq in E1, E2. intros (n & Hn & [?|[?|?]]); [done|done|]. apply Forall_cons in Hn as [Hn _]. congruence.
    + rewrite IH by lia. split.
      * intros (n & Hn & HC). assert (Hb : Forall (fun b0 => dim0 b0 = dim0 b) bs).
        { destruct HC as [?|[->|HC]]; [lia|inversion H; constructor|]. apply Nat2Z.inj in HC. by rewrite HC. }
        exists (dim0 b). split; [by constructor|]. apply andb_false_iff in E as [E|E]; apply negb_false_iff, Z.eqb_eq in E; [by left|right; by right].
      * intros (n & Hn & _). apply Forall_cons in Hn as [<- Hn]. exists (dim0 b). split; [done|]. right. by right.
Qed.

Lemma row_unique b i r r' : is_row b i r -> is_row b i r' -> r = r'.
Proof.
  intros (d & sh & S & _ & T & H & L & D) (d' & sh' & S' & _ & T' & H' & L' & D'). rewrite S in S'. injection S' as <- <-. destruct r as [ty s l], r' as [ty' s' l']. cbn in *. subst. f_equal.
  apply list_eq. intros j. destruct (decide (j < Tensor.elements sh)%nat) as [Hj|Hj]; [by rewrite D, D'|]. rewrite !lookup_ge_None_2 by lia. done.
Qed.
Lemma first_unique bs l : first_rows bs l -> forall l', first_rows bs l' -> l = l'.
Proof. induction 1 as [|b r bs l Hr H IH]; intros l' H'; inversion H'; subst; [done|]. f_equal; [by eapply row_unique|by apply IH]. Qed.

Lemma step_first ts b : PropSample.column_ok ts -> joined ts b -> exists r q, step_col (fresh_col ts) = Some (r, q) /\ is_row b 0 r.
Proof.
  intros (Hne & ty & sh & HF) (sh' & HJ & HS & HD). destruct ts as [|t ts]; [done|]. apply Forall_cons in HF as [(Hok & Hty & d & Hd & Hd1) _]. apply Forall_cons in HJ as [(Hty' & d' & Hd') _].
  rewrite Hd in Hd'. injection Hd' as <- <-. unfold fresh_col. rewrite fmap_cons. cbn [step_col]. unfold Sample.sub_slice. rewrite Hd, decide_True by lia. cbn [mbind option_bind]. eexists _, _. split; [reflexivity|].
  destruct Hok as [Hlen _]. rewrite Hd in Hlen. unfold Tensor.elements in Hlen. cbn [foldr] in Hlen. fold (Tensor.elements sh) in Hlen.
  exists (list_sum (dim0 <$> t :: ts)), sh. split; [done|]. split; [rewrite fmap_cons; unfold list_sum; cbn [foldr]; unfold dim0 at 1; rewrite Hd; lia|]. cbn [t_ty t_shape t_data].
  split; [by rewrite Hty'|]. split; [done|]. cbn [Nat.mul]. rewrite drop_0.
  assert (HL : (Tensor.elements sh <= length (t_data t))%nat) by (rewrite Hlen; destruct d; [lia|cbn; lia]).
  split; [rewrite take_length; lia|]. intros j Hj. rewrite HD, fmap_cons. cbn [concat]. rewrite lookup_take by done. rewrite Nat.add_0_l. by rewrite lookup_app_l by lia.
Qed.
Lemma steps_first cols bs : Forall PropSample.column_ok cols -> Forall2 joined cols bs -> exists l q, step_cols (fresh_col <$> cols) = Some (l, q) /\ first_rows bs l.
Proof.
  intros HF H. induction H as [|ts b cols bs Hj H IH]; [exists [], []; split; [done|constructor]|]. apply Forall_cons in HF as [H1 H2]. destruct (IH H2) as (l & q & E & R). destruct (step_first _ _ H1 Hj) as (r & q1 & E1 & R1).
  rewrite fmap_cons. cbn [step_cols]. rewrite E1. cbn [mbind option_bind]. rewrite E. cbn [mbind option_bind fst snd]. eexists _, _. split; [reflexivity|]. by constructor.
Qed.
Lemma fits_iff spec d : validate_output spec VTimestep (snd d) = Ok <-> fits spec d.
Proof. split; [|apply validate_fits]. destruct spec as [sp|]; [|done]. intros H. by apply (validate_iff sp VTimestep). Qed.

Lemma made_fields m cols sq s : make_sample m cols sq = Some s -> s_meta s = m /\ s_cols s = fresh_col <$> cols /\ s_squeeze s = sq /\ s_called s = false.
Proof. unfold make_sample. destruct cols as [|[|t ts] cols]; [done|done|]. cbn zeta. by destruct (is_composed_of_timesteps _); intros [= <-]. Qed.

(** What the op does with the item that its Sampler has got. *)
Lemma op_cases spec m cols sq s bs types : Forall PropSample.column_ok cols -> Forall2 joined cols bs -> make_sample m cols sq = Some s ->
  exists l, first_rows bs l /\
  sample_op spec (PSample s) types = (if is_composed_of_timesteps s then
     if bool_decide (validate_output spec VTimestep l = Ok) then
       if negb (length l =? length types)%nat then OpErr InvalidArgument else if negb (bool_decide (t_ty <$> l = types)) then OpErr Internal else OpOk m l
     else OpErr InvalidArgument else OpErr InvalidArgument) /\ (is_composed_of_timesteps s = true <-> even bs).
Proof.
  intros HF HJ Hm. destruct (steps_first _ _ HF HJ) as (l & q & E & R). exists l. split; [done|]. destruct (made_fields _ _ _ _ Hm) as (M1 & M2 & _ & _). split.
  - unfold sample_op, sampler_step, get_next_step, sampler_next_timestep. destruct (is_composed_of_timesteps s) eqn:Ec; cbn [negb]; [|done]. unfold get_next_timestep. rewrite Ec. cbn [negb].
    assert (is_end_of_sample s = false) as ->.
    { unfold is_end_of_sample. rewrite M2. unfold make_sample in Hm. destruct cols as [|[|t ts] cols]; done. }
    rewrite M2, E. cbn [mbind option_bind fst snd]. rewrite M1. destruct (bool_decide (validate_output spec VTimestep l = Ok)); [|done]. cbn [fst]. done.
  - unfold is_composed_of_timesteps. rewrite M2, (composed_even _ _ HJ) by lia. split; [intros (n & Hn & _); by exists n|intros [n Hn]; exists n; split; [done|by left]].
Qed.
Lemma row_type bs l : first_rows bs l -> t_ty <$> l = t_ty <$> bs.
Proof. induction 1 as [|b r bs l (d & sh & _ & _ & T & _) H IH]; [done|]. rewrite !fmap_cons. by rewrite T, IH. Qed.

(** The op succeeds exactly if all columns have the same number of rows, their first
    rows are what the Sampler expects (if it knows a signature) and their types are the
    ones that the caller has declared; it returns the information of the item and the
    first row of every column. *)
Theorem C95_first spec m cols sq s bs types m' l : Forall PropSample.column_ok cols -> Forall2 joined cols bs -> make_sample m cols sq = Some s ->
  sample_op spec (PSample s) types = OpOk m' l <-> even bs /\ first_rows bs l /\ fits spec (m, l) /\ t_ty <$> bs = types /\ m' = m.
Proof.
  intros HF HJ Hm. destruct (op_cases spec m cols sq s bs types HF HJ Hm) as (l0 & R & -> & HE). pose proof (row_type _ _ R) as HT. split.
  - destruct (is_composed_of_timesteps s); [|done]. case_bool_decide as Hv; [|done]. destruct (negb _); [done|]. case_bool_decide as Ht; [|done]. cbn [negb]. intros [= <- <-].
    split; [by apply HE|]. split; [done|]. split; [by apply (fits_iff spec (m, l0))|]. split; [by rewrite <- HT|done].
  - intros (He & R' & Hf & Ht & ->). rewrite (first_unique _ _ R' _ R) in Hf |- *. apply HE in He as ->. rewrite bool_decide_true by (by apply (fits_iff spec (m, l0))).
    assert (length l0 = length types) as -> by (rewrite <- Ht, fmap_length; symmetry; by eapply Forall2_length). rewrite Nat.eqb_refl. cbn [negb]. rewrite bool_decide_true by congruence. done.
Qed.
(** Otherwise it fails with an error that tells the cause. *)
Theorem C95_errors spec m cols sq s bs types : Forall PropSample.column_ok cols -> Forall2 joined cols bs -> make_sample m cols sq = Some s ->
  match sample_op spec (PSample s) types with
  | OpOk _ _ => True
  | OpErr st => (st = InvalidArgument /\ (~ even bs \/ length bs <> length types \/ forall l, first_rows bs l -> ~ fits spec (m, l))) \/ (st = Internal /\ t_ty <$> bs <> types)
  | OpCrash => False
  end.
Proof.
  intros HF HJ Hm. destruct (op_cases spec m cols sq s bs types HF HJ Hm) as (l0 & R & -> & HE). pose proof (row_type _ _ R) as HT.
  destruct (is_composed_of_timesteps s); [|left; split; [done|left; by intros H%HE]]. case_bool_decide as Hv.
  - destruct (Nat.eqb_spec (length l0) (length types)) as [Hl|Hl]; cbn [negb].
    + case_bool_decide as Ht; cbn [negb]; [done|]. right. split; [done|congruence].
    + left. split; [done|]. right. left. rewrite (Forall2_length _ _ _ R). done.
  - left. split; [done|]. right. right. intros l Hl Hf. rewrite (first_unique _ _ Hl _ R) in Hf. by apply (fits_iff spec (m, l0)) in Hf.
Qed.

(** ** Items of a Writer *)

Lemma traj_columns p w (chunks : gmap Z chunk_data) from upto : kinv p w -> (forall key d, chunks !! key = Some d -> mkKchunk key d ∈ l_sent w) ->
  forall cols i sg, length cols = length sg -> (forall c col, cols !! c = Some col -> col <> [] /\ pieces (starts w) (Z.of_nat (i + c)) col from upto) ->
  (forall c x, sg !! c = Some x -> forall s, s ∈ segment (l_hist w) from (upto - from) -> step_sig s !! (i + c)%nat = Some x) ->
  (forall s, s ∈ concat cols -> is_Some (chunks !! sl_key s)) ->
  forall tss, local_traj cols chunks = ClOk tss -> Forall PropSample.column_ok tss.
Proof.
  intros K Hch. induction cols as [|col cols IH]; intros i sg Hl HP Hsig Hin tss.
  - cbn. by intros [= <-].
  - destruct sg as [|[ty sh] sg]; [done|]. cbn in Hl. injection Hl as Hl. cbn [local_traj].
    destruct (HP 0%nat col eq_refl) as [Hne HP0]. rewrite Nat.add_0_r in HP0.
    destruct (pieces_groups p w chunks i ty sh K Hch col from upto HP0) as (_ & gs & G1 & G2 & G3 & G4).
    { intros s Hs. specialize (Hsig 0%nat (ty, sh) eq_refl s Hs). by rewrite Nat.add_0_r in Hsig. }
    { intros s Hs. apply Hin. cbn. apply elem_of_app. by left. }
    rewrite G1. destruct (local_traj cols chunks) as [tss'| |] eqn:E; [|done|done]. intros [= <-]. constructor.
    + split; [destruct gs; [by destruct (G4 Hne)|done]|]. exists ty, sh. apply Forall_fmap. eapply Forall_impl; [exact G3|]. intros g (H1 & H2 & H3). cbn. split; [by apply stacked_ok|]. split; [done|].
      exists (length g). split; [done|]. destruct g; [done|cbn; lia].
    + apply (IH (S i) sg Hl).
      * intros c col' Hc. destruct (HP (S c) col' Hc) as [? HP']. split; [done|]. by replace (S i + c)%nat with (i + S c)%nat by lia.
      * intros c x Hx s Hs. replace (S i + c)%nat with (i + S c)%nat by lia. by apply (Hsig (S c) x).
      * intros s Hs. apply Hin. cbn. apply elem_of_app. by right.
      * done.
Qed.

(** An item on the stream has columns of pieces with at least one row each. *)
Lemma item_columns p key w pre r suf chunks c ii data m mt sg s : conf_ok p -> lw_reach p (lw_new p key) w -> l_failed w = false -> l_wire w = pre ++ r :: suf ->
  async_run (fun _ => true) ∅ pre = Some chunks -> async_insert_request (fun _ => true) chunks r = Some (IInsert c ii data) ->
  m ∈ l_made w -> ii_key ii = li_key (lm_item m) -> 1 <= lm_n m <= Z.of_nat (lm_held m) -> Forall (fun s => step_sig s = sg) (lm_hist m) -> sg <> [] ->
  as_sample_local (mkSampled (mkSinfo mt (ii_traj ii) (replicate (length sg) false)) data) = AOk s ->
  exists tss, make_sample mt tss (replicate (length sg) false) = Some s /\ Forall PropSample.column_ok tss.
Proof.
  intros Hcf Hr Hf Hw Hrun Hreq Hm Hkey Hn Hsg Hne HA. pose proof (lw_reach_own _ _ _ Hr) as O. pose proof (lw_reach_place _ _ _ Hcf Hr Hf) as K. pose proof (lw_reach_ring _ _ _ Hcf Hr) as R.
  pose proof (o_wire w O) as OW. rewrite Hw in OW.
  assert (HC : forall key d, chunks !! key = Some d -> mkKchunk key d ∈ l_sent w).
  { eapply (async_from (fun k => k ∈ l_sent w) (fun _ => true) pre); [| |exact Hrun]; [|intros k d; by rewrite lookup_empty]. apply Forall_forall. intros x Hx. apply Forall_forall.
    apply OW, elem_of_app. by left. }
  assert (V2 : Forall (fun k => k ∈ l_sent w) (ir_chunks r)) by (apply Forall_forall, OW, elem_of_app; right; left).
  destruct (insert_data (fun k => k ∈ l_sent w) _ chunks c ii data r V2 HC Hreq) as (Hii & Hk & Hd).
  destruct (OW r) as [_ OI]; [apply elem_of_app; right; left|]. destruct (OI ii Hii) as (m' & M1 & (M2 & _ & M3)). assert (m' = m) as -> by (eapply made_unique; [done..|congruence]).
  destruct (k_made p w K m Hm Hn) as (P1 & (s0 & P2 & P3) & P4). rewrite <- M3 in P3, P4. assert (PL : length (ii_traj ii) = length sg).
  { rewrite Forall_forall in Hsg. rewrite P3, <- (Hsg s0 P2). unfold step_sig. by rewrite fmap_length. }
  set (from := (length (lm_hist m) - Z.to_nat (lm_n m))%nat) in *. set (upto := length (lm_hist m)) in *.
  assert (PR : lm_hist m `prefix_of` l_hist w).
  { etrans; [by apply (r_made p w R)|]. unfold stable. destruct (cb (l_pos w)) as [[]|]; try done. destruct (l_hist w) as [|x h _] using List.rev_ind; [done|]. rewrite removelast_last. by apply prefix_app_r. }
  assert (SE : segment (l_hist w) from (upto - from) = last_steps (Z.to_nat (lm_n m)) (lm_hist m)).
  { rewrite (segment_prefix (lm_hist m)); [|unfold from, upto; lia|done]. unfold segment, last_steps. fold upto. fold from. apply take_ge. rewrite drop_length. fold upto. lia. }
  set (cmap := foldl (fun m c => <[kc_key c := kc_data c]> m) ∅ data : gmap Z chunk_data).
  assert (HC2 : forall key d, cmap !! key = Some d -> mkKchunk key d ∈ l_sent w).
  { apply (foldl_ins_from (fun k => k ∈ l_sent w) data Hd). intros k d. by rewrite lookup_empty. }
  unfold as_sample_local in HA. cbn [sp_info si_traj si_meta si_squeeze sp_chunks] in HA. fold cmap in HA.
  destruct (local_traj (ii_traj ii) cmap) as [tss| |] eqn:E; [|done|done]. cbn [finish_sample si_meta si_squeeze] in HA. destruct (make_sample mt tss _) as [s1|] eqn:Es; [|done]. injection HA as ->. exists tss. split; [done|].
  apply (traj_columns p w cmap from upto K HC2 (ii_traj ii) 0%nat sg PL); [| | |done].
  - intros j col Hc. by apply P4.
  - intros j x Hx s' Hs. rewrite Forall_forall in Hsg. rewrite SE in Hs. rewrite (Hsg s'); [done|]. unfold last_steps in Hs. rewrite <- (take_drop (length (lm_hist m) - Z.to_nat (lm_n m)) (lm_hist m)), elem_of_app. by right.
  - intros s' Hs. apply (elem_of_dom (D := gset Z)). unfold cmap. rewrite overwrite_dom, Hk, dom_empty_L, union_empty_l_L. apply elem_of_list_to_set.
    unfold get_chunk_keys. apply chunk_keys_aux_elem. split; [|by intros ?%elem_of_nil]. apply elem_of_list_fmap. by exists s'.
Qed.

Lemma unpack_joined tss : Forall PropSample.column_ok tss -> forall outs, unpack_columns (fresh_col <$> tss) = Some outs -> Forall2 joined tss outs.
Proof.
  induction 1 as [|ts tss (Hne & ty & sh & HF) H IH]; intros outs; [cbn; intros [= <-]; constructor|]. rewrite fmap_cons. cbn [unpack_columns]. rewrite (unpack_fresh ts ty sh Hne HF). cbn [mbind option_bind].
  destruct (unpack_columns (fresh_col <$> tss)) as [outs'|]; [|done]. cbn [mbind option_bind]. intros [= <-]. constructor; [|by apply IH]. exists sh. split; [|done]. eapply Forall_impl; [exact HF|]. intros t (_ & H2 & d & Hd & _). split; [done|]. by exists d.
Qed.
Lemma squeeze_nothing n ts : squeeze_columns (replicate n false) ts = Some ts.
Proof. revert ts. induction n as [|n IH]; intros [|t ts]; try done. cbn [replicate squeeze_columns mbind option_bind]. by rewrite IH. Qed.
Lemma first_step s out (st : step) rest : step_sig st = step_sig s -> Forall tensor_ok st -> length out = length st -> (forall c t, out !! c = Some t -> step_column c (st :: rest) t) ->
  first_rows out st /\ forall n, length (st :: rest) = n -> Forall (fun b => dim0 b = n) out.
Proof.
  intros _ Hok Hl H. split.
  - apply Forall2_same_length_lookup. split; [done|]. intros i b r Hb Hr. destruct (H i b Hb) as (ty & sh & ts & E & HF & ->). cbn [mapM] in E. rewrite Hr in E. cbn [mbind option_bind] in E.
    destruct (mapM _ rest) as [ts'|]; [|done]. cbn in E. injection E as <-. apply Forall_cons in HF as [[<- <-] _]. eapply Forall_lookup_1 in Hok; [|exact Hr]. destruct Hok as [HL _].
    exists (S (length ts')), (t_shape r). split; [done|]. split; [lia|]. split; [done|]. split; [done|]. split; [exact HL|]. intros j Hj. cbn [stacked t_data fmap list_fmap concat Nat.mul Nat.add]. by rewrite lookup_app_l by (unfold Tensor.elements in *; lia).
  - intros n Hn. apply Forall_lookup. intros i b Hb. destruct (H i b Hb) as (ty & sh & ts & E & HF & ->). apply mapM_length in E. cbn [stacked dim0 t_shape]. lia.
Qed.

(** Any item: the op takes apart what as_trajectory gives as a whole. *)
Lemma op_of_trajectory mt tss n s out spec types (st : step) rest : make_sample mt tss (replicate n false) = Some s -> Forall PropSample.column_ok tss -> as_trajectory s = SROk (mt, out) ->
  Forall tensor_ok st -> length out = length st -> (forall c t, out !! c = Some t -> step_column c (st :: rest) t) ->
  (sample_op spec (PSample s) types = OpOk mt st <-> fits spec (mt, st) /\ t_ty <$> st = types).
Proof.
  intros Hm HF HT Hok Hl HC. destruct (made_fields _ _ _ _ Hm) as (M1 & M2 & M3 & M4). unfold as_trajectory in HT. rewrite M4, M2, M3 in HT. destruct (unpack_columns _) as [outs|] eqn:Eu; [|done]. rewrite squeeze_nothing in HT. injection HT as _ ->.
  pose proof (unpack_joined _ HF _ Eu) as HJ. destruct (first_step st out st rest eq_refl Hok Hl HC) as [R HE]. rewrite (C95_first spec mt tss _ s out types mt st HF HJ Hm), <- (row_type _ _ R). split; [by intros (_ & _ & ? & ? & _)|].
  intros [? ?]. split; [by exists (length (st :: rest)); apply HE|]. done.
Qed.

(** An item of the last [n] steps that were appended to a Writer: the op returns the
    first one of them, if the caller has declared its types (and it fits the
    signature).  For the conditions see C37_writer_held_partial. *)
Theorem C95_writer_partial p key tr w tr1 w1 table n prio ikey ret tr2 pre r suf chunks c ii data mt sg : conf_ok p ->
  lw_trace p (lw_new p key) tr w -> smooth tr ->
  tr = tr1 ++ (LCreate table n prio ikey, ret) :: tr2 -> ret = None \/ ret = Some Ok -> lw_trace p (lw_new p key) tr1 w1 -> 1 <= n <= Z.of_nat (steps_held w1) ->
  l_wire w = pre ++ r :: suf -> async_run (fun _ => true) ∅ pre = Some chunks -> async_insert_request (fun _ => true) chunks r = Some (IInsert c ii data) -> ii_key ii = ikey ->
  let h := appended (returned tr1) in Forall (fun s => step_sig s = sg) h -> Forall (Forall tensor_ok) h -> sg <> [] ->
  exists s st rest, as_sample_local (mkSampled (mkSinfo mt (ii_traj ii) (replicate (length sg) false)) data) = AOk s /\ last_steps (Z.to_nat n) h = st :: rest /\
    forall spec types, sample_op spec (PSample s) types = OpOk mt st <-> fits spec (mt, st) /\ t_ty <$> st = types.
Proof.
  intros Hcf Ht Hs Htr Hret H1 Hn Hw Hrun Hreq Hk h Hh Hok Hsg. destruct (trace_prefix _ _ _ _ Ht _ _ _ _ Htr) as (w1' & w2 & A1 & A2 & A3 & A4). rewrite (trace_det _ _ _ _ A1 _ H1) in *. clear A1 w1'.
  assert (I1 : pinv p w1) by (eapply lw_reach_inv; [exact Hcf|by eapply trace_reach]). destruct (create_hist _ _ _ _ _ _ _ _ I1 A2 A3 Hret) as (m & M1 & M2 & M3 & M4 & M5 & M6).
  apply (A4 eq_refl Hcf) in M1. destruct (lw_trace_inv _ _ _ _ Hcf H1) as [_ T2 _ _ _ _].
  destruct (create_accepted _ _ _ _ _ _ _ _ A3 Hret) as (_ & _ & _ & Hidle). rewrite Hidle in T2. fold h in T2. rewrite <- T2 in M5.
  assert (X1 : ii_key ii = li_key (lm_item m)) by congruence. assert (X2 : 1 <= lm_n m <= Z.of_nat (lm_held m)) by (by rewrite M4, M6). assert (X3 : Forall (fun s => step_sig s = sg) (lm_hist m)) by (by rewrite M5).
  destruct (item_sampled p key w pre r suf chunks c ii data m mt sg Hcf (trace_reach _ _ _ _ Ht) (smooth_ok _ _ _ _ Hcf Ht Hs) Hw Hrun Hreq M1 X1 X2 X3 Hsg) as (R1 & R2 & s & out & E1 & E2 & E3 & E4).
  destruct (item_columns p key w pre r suf chunks c ii data m mt sg s Hcf (trace_reach _ _ _ _ Ht) (smooth_ok _ _ _ _ Hcf Ht Hs) Hw Hrun Hreq M1 X1 X2 X3 Hsg E1) as (tss & F1 & F2).
  rewrite M4, M5 in *. destruct (last_steps (Z.to_nat n) h) as [|st rest] eqn:EL.
  { apply (f_equal length) in EL. unfold last_steps in EL. rewrite drop_length in EL. cbn in EL. lia. }
  exists s, st, rest. split; [done|]. split; [done|]. intros spec types.
  assert (Hin : st ∈ h). { unfold last_steps in EL. rewrite <- (take_drop (length h - Z.to_nat n) h), EL. apply elem_of_app. right. left. }
  apply (op_of_trajectory mt tss (length sg) s out spec types st rest F1 F2 E2); [by eapply Forall_forall in Hok| |done].
  rewrite E3. rewrite <- (proj1 (Forall_forall _ _) Hh st Hin). unfold step_sig. by rewrite fmap_length.
Qed.

(** What Client.insert or TFClient.insert has inserted comes back from TFClient.sample
    as it was. *)
Theorem C95_insert data prios sigs flight key tr w pre r suf chunks c ii d mt spec : match flight with Some n => 1 <= n | None => True end ->
  lw_trace (insert_conf sigs flight) (lw_new (insert_conf sigs flight) key) tr w -> insert_run data prios tr -> data <> [] -> Forall tensor_ok data ->
  l_wire w = pre ++ r :: suf -> async_run (fun _ => true) ∅ pre = Some chunks -> async_insert_request (fun _ => true) chunks r = Some (IInsert c ii d) -> fits spec (mt, data) ->
  exists s, as_sample_local (Stream.mkSampled (mkSinfo mt (ii_traj ii) (replicate (length data) false)) d) = AOk s /\ sample_op spec (PSample s) (t_ty <$> data) = OpOk mt data.
Proof.
  intros Hfl H HR Hd HO Hw Hrun Hreq Hfit. pose proof (iinv_trace _ _ _ _ _ Hfl _ _ H HR) as I. pose proof (trace_reach _ _ _ _ H) as R. pose proof (lw_reach_own _ _ _ R) as O.
  destruct (o_wire w O r) as [_ OI]; [rewrite Hw; apply elem_of_app; right; left|].
  destruct (insert_data (fun k => True) (fun _ => true) chunks c ii d r) as (Hii & _ & _); [by apply Forall_forall|done|exact Hreq|].
  destruct (OI ii Hii) as (m & M1 & M2 & M3 & M4). pose proof (proj1 (Forall_forall _ _) (j_made _ _ _ _ _ I) m M1) as (G1 & G2 & G3 & G4).
  assert (Hf : l_failed w = false). { destruct (l_failed w) eqn:Ef; [|done]. destruct (j_failed _ _ _ _ _ I Ef) as [X _]. rewrite X in M1. by apply elem_of_nil in M1. }
  assert (X1 : 1 <= lm_n m <= Z.of_nat (lm_held m)) by (rewrite G1, G2; lia). assert (X2 : Forall (fun s => step_sig s = step_sig data) (lm_hist m)) by (rewrite G3; by constructor).
  assert (X3 : step_sig data <> []) by (unfold step_sig; by destruct data). pose proof (insert_conf_ok sigs flight Hfl) as Hcf.
  destruct (item_sampled _ key w pre r suf chunks c ii d m mt (step_sig data) Hcf R Hf Hw Hrun Hreq M1 M2 X1 X2 X3) as (_ & _ & s & out & E1 & E2 & E3 & E4).
  destruct (item_columns _ key w pre r suf chunks c ii d m mt (step_sig data) s Hcf R Hf Hw Hrun Hreq M1 M2 X1 X2 X3 E1) as (tss & F1 & F2).
  assert (L : length (step_sig data) = length data) by (unfold step_sig; by rewrite fmap_length). rewrite L in *. exists s. split; [exact E1|].
  apply (op_of_trajectory mt tss (length data) s out spec (t_ty <$> data) data [] F1 F2 E2 HO E3); [|done]. rewrite G1, G3 in E4. exact E4.
Qed.

(** ** One item, one step *)

(** If the item has one step, the op returns all of it. *)
Theorem C95_whole_partial spec m cols sq s bs types m' l : Forall PropSample.column_ok cols -> Forall2 joined cols bs -> make_sample m cols sq = Some s -> Forall (fun b => tensor_ok b /\ dim0 b = 1%nat) bs ->
  sample_op spec (PSample s) types = OpOk m' l -> bs = batched <$> l.
Proof.
  intros HF HJ Hm H1 H. apply (C95_first spec m cols sq s bs types m' l HF HJ Hm) in H as (_ & R & _). clear -R H1. induction R as [|b r bs l (d & sh & S & _ & T & H & L & D) R IH]; [done|]. apply Forall_cons in H1 as [[[Hb _] Hd] H1]. rewrite fmap_cons. f_equal; [|by apply IH].
  unfold dim0 in Hd. rewrite S in Hd. subst d. rewrite S in Hb. destruct b as [ty s' data], r as [ty' s'' data']. unfold batched. cbn in *. subst. f_equal. apply list_eq. intros j. unfold Tensor.elements in *. cbn [foldr] in *.
  destruct (decide (j < foldr Nat.mul 1 sh)%nat) as [Hj|Hj]; [by rewrite D|]. rewrite !lookup_ge_None_2 by lia. done.
Qed.

(** As long as nothing fails, the table hands out no more items for a Sampler than
    max_samples. *)
Section taken.
Context {A : Type} (len : A -> nat) (len_pos : forall x, (0 < len x)%nat).
Lemma worker_share k (w : sworker A) : PropSampler.pos_ok k (Sampler.w_pos w) -> Z.of_nat (length (in_hand w)) + Z.max 0 (outstanding w) <= missing w.
Proof. destruct w as [k' b pos]. unfold in_hand, outstanding, missing. cbn. destruct pos; cbn; lia. Qed.
Lemma quiet_bound m (c : rclient A) : uinv m c -> Z.of_nat (length (r_given c)) <= m.
Proof.
  intros U. destruct (u_d _ _ U) as [I P B]. rewrite (u_lost _ _ U), app_nil_r in B. apply Permutation_length in B. rewrite !app_length in B. pose proof (si_total _ _ I) as Ht. rewrite asked_total_eq in Ht. pose proof (si_pos _ _ I) as HP.
  assert (G : Z.of_nat (length (concat (in_hand <$> p_workers (r_p c)))) + Z.of_nat (length (concat (r_pipes c))) <= sum missing (p_workers (r_p c))); [|lia].
  clear -P HP. revert P. generalize (r_pipes c). induction HP as [|w ws Hw HP IH]; intros pipes P; cbn in P; inversion P as [|? pipe ? pipes' P1 P2]; subst; [done|].
  specialize (IH pipes' P2). pose proof (worker_share _ _ Hw). unfold sum in *. cbn. rewrite !app_length. lia.
Qed.
Theorem C95_taken maxs ps nw kinds es c : valid_options maxs ps nw kinds -> Forall (fun e => undisturbed e = true) es -> r_run len (r_new maxs ps nw kinds) es = Some c ->
  Z.of_nat (length (r_given c)) <= limit maxs.
Proof. intros Hv HF Hr. apply quiet_bound. eapply r_run_quiet; [exact len_pos| |exact HF|exact Hr]. by apply r_new_quiet. Qed.
(** So the op takes at most one. *)
Theorem C95_one_partial nw kinds es c : valid_options op_max_samples op_in_flight nw kinds -> Forall (fun e => undisturbed e = true) es ->
  r_run len (r_new op_max_samples op_in_flight nw kinds) es = Some c -> (length (r_given c) <= 1)%nat.
Proof. intros Hv HF Hr. pose proof (C95_taken _ _ _ _ _ _ Hv HF Hr). clear len_pos. unfold limit, op_max_samples in *. cbn in *. lia. Qed.
End taken.

(** If the stream breaks after the server has taken an item, the Sampler asks again: the
    op returns one item, and two have been taken from the table. *)
Definition tf_broken : list (rev Z) :=
  d_open 0 ++ [RGive 0 [1] true; RRun (NWorker 0 (VEof Unavailable)); RRun (NWorker 0 VStep)] ++ d_open 0 ++ [RGive 0 [2] false; RRead 0; RRun NStepPop; RRun (NStepNext true); RRun (NStepNext true)].
Theorem C95_one_refuted : exists c, valid_options op_max_samples op_in_flight 1 [KGrpc 1] /\ r_run d_len (r_new op_max_samples op_in_flight 1 [KGrpc 1]) tf_broken = Some c /\ r_given c = [1; 2] /\ h_returned (r_p c) = [2].
Proof.
  exists (d_state (r_new op_max_samples op_in_flight 1 [KGrpc 1]) tf_broken). split; [by repeat constructor; right|]. split; [apply d_state_ok; vm_compute; reflexivity|]. split; vm_compute; reflexivity.
Qed.

(** Of an item with more steps the op returns the first one and the others are lost
    (the item has been taken from the table). *)
Definition tf_item : list (list tensor) := [[vec [1]; vec [2; 3]]; [mkTensor (TOther 1) [3; 2]%nat [1; 2; 2; 3; 3; 4]]].
Definition tf_cols : list tensor := [vec [1; 2; 3]; mkTensor (TOther 1) [3; 2]%nat [1; 2; 2; 3; 3; 4]].
Definition tf_first : list tensor := [mkTensor (t_ty (vec [])) [] [1]; mkTensor (TOther 1) [2]%nat [1; 2]].
Lemma ok_piece ty (sh : list nat) t d : length (t_data t) = Tensor.elements (t_shape t) -> Forall (elem_ok (t_ty t)) (t_data t) -> t_ty t = ty -> t_shape t = d :: sh -> (1 <= d)%nat ->
  tensor_ok t /\ t_ty t = ty /\ exists d, t_shape t = d :: sh /\ (1 <= d)%nat.
Proof. intros. split; [done|]. split; [done|]. by exists d. Qed.
Lemma tf_item_ok : Forall PropSample.column_ok tf_item /\ Forall2 joined tf_item tf_cols.
Proof.
  split.
  - constructor; [|constructor; [|constructor]].
    + split; [done|]. exists (t_ty (vec [])), []. constructor; [|constructor; [|constructor]]; eapply ok_piece; try reflexivity; try lia; repeat constructor.
    + split; [done|]. exists (TOther 1), [2%nat]. constructor; [|constructor]. eapply ok_piece; try reflexivity; try lia; repeat constructor.
  - constructor; [|constructor; [|constructor]].
    + exists []. split; [|done]. constructor; [|constructor; [|constructor]]; (split; [done|]); by eexists.
    + exists [2%nat]. split; [|done]. constructor; [|constructor]. split; [done|]. by eexists.
Qed.
Theorem C95_whole_refuted : ~ (forall spec m cols sq s bs types m' l, Forall PropSample.column_ok cols -> Forall2 joined cols bs -> make_sample m cols sq = Some s ->
  sample_op spec (PSample s) types = OpOk m' l -> bs = batched <$> l).
Proof.
  intros H. destruct tf_item_ok as [H1 H2]. destruct (make_sample (ex_meta 9) tf_item [false; false]) as [s|] eqn:E; [|done].
  specialize (H None (ex_meta 9) tf_item [false; false] s tf_cols (t_ty <$> tf_cols) (ex_meta 9) tf_first H1 H2 E).
  assert (sample_op None (PSample s) (t_ty <$> tf_cols) = OpOk (ex_meta 9) tf_first) as X by (vm_compute in E; injection E as <-; vm_compute; reflexivity). specialize (H X). discriminate H.
Qed.

(** Three steps in two columns that are divided differently; a column of another
    length; another number of outputs; another type. *)
Example C95_example : exists s, make_sample (ex_meta 9) tf_item [false; false] = Some s /\ Forall PropSample.column_ok tf_item /\ Forall2 joined tf_item tf_cols /\
  sample_op None (PSample s) (t_ty <$> tf_cols) = OpOk (ex_meta 9) tf_first /\ first_rows tf_cols tf_first /\
  sample_op None (PSample s) [t_ty (vec [])] = OpErr InvalidArgument /\ sample_op None (PSample s) [TOther 5; TOther 1] = OpErr Internal /\
  sample_op (Some info_specs) (PSample s) (t_ty <$> tf_cols) = OpErr InvalidArgument.
Proof.
  destruct (make_sample (ex_meta 9) tf_item [false; false]) as [s|] eqn:E; [|done]. exists s. split; [done|]. destruct tf_item_ok as [H1 H2]. split; [done|]. split; [done|].
  assert (X : sample_op None (PSample s) (t_ty <$> tf_cols) = OpOk (ex_meta 9) tf_first) by (vm_compute in E; injection E as <-; vm_compute; reflexivity).
  split; [done|]. split; [by apply (C95_first None (ex_meta 9) tf_item _ s tf_cols _ (ex_meta 9) tf_first H1 H2 E) in X as (_ & ? & _)|].
  vm_compute in E. injection E as <-. split; [vm_compute; reflexivity|]. split; vm_compute; reflexivity.
Qed.
Example C95_uneven_example : exists s, make_sample (ex_meta 9) [[vec [1; 2]]; [vec [3]]] [false; false] = Some s /\ sample_op None (PSample s) [t_ty (vec []); t_ty (vec [])] = OpErr InvalidArgument.
Proof. eexists. split; [reflexivity|]. vm_compute. reflexivity. Qed.
Definition tf_calm : list (rev Z) := d_open 0 ++ [RGive 0 [1] false; RRead 0; RRun NStepPop; RRun (NStepNext true); RRun (NStepNext true)].
Example C95_one_example : valid_options op_max_samples op_in_flight 1 [KGrpc 1] /\ Forall (fun e => undisturbed e = true) tf_calm /\
  exists c, r_run d_len (r_new op_max_samples op_in_flight 1 [KGrpc 1]) tf_calm = Some c /\ r_given c = [1] /\ h_returned (r_p c) = [1].
Proof.
  split; [by repeat constructor; right|]. split; [by repeat constructor|]. exists (d_state (r_new op_max_samples op_in_flight 1 [KGrpc 1]) tf_calm). split; [apply d_state_ok; vm_compute; reflexivity|]. split; vm_compute; reflexivity.
Qed.

(** The runs of C37_writer_example and C76_sampled_example: the op on the item in the last
    message.  The first item has three steps. *)
Definition tf_last (w : lw) (types : list dty) : option op_result :=
  r ← last (l_wire w); chunks ← async_run (fun _ => true) ∅ (removelast (l_wire w));
  match async_insert_request (fun _ => true) chunks r with
  | Some (IInsert _ ii data) =>
    match as_sample_local (mkSampled (mkSinfo (ex_meta 9) (ii_traj ii) (replicate 2 false)) data) with
    | AOk s => Some (sample_op None (PSample s) types)
    | _ => None
    end
  | _ => None
  end.
Example C95_writer_example : let R := lrun (lex_conf (Some 1)) (lex_first ++ [lex_create] ++ lex_rest) in
  lw_trace (lex_conf (Some 1)) (lw_new (lex_conf (Some 1)) 100) R.2 R.1 /\ smooth R.2 /\ tf_last R.1 [TOther 1; TOther 1] = Some (OpOk (ex_meta 9) (lstep 1)).
Proof. intros R. split; [apply lrun_trace|]. split; [apply smooth_sound|]; vm_compute; reflexivity. Qed.
Example C95_insert_example : let R := lrun iex_conf iex_two in
  lw_trace iex_conf (lw_new iex_conf 100) R.2 R.1 /\ insert_run iex_data iex_prios R.2 /\ tf_last R.1 [TOther 1; TOther 1] = Some (OpOk (ex_meta 9) iex_data).
Proof. intros R. split; [apply lrun_trace|]. split; [apply insert_run_sound|]; vm_compute; reflexivity. Qed.

Print Assumptions C95_first.
Print Assumptions C95_errors.
Print Assumptions C95_writer_partial.
Print Assumptions C95_insert.
Print Assumptions C95_whole_partial.
Print Assumptions C95_taken.
Print Assumptions C95_one_partial.
Print Assumptions C95_one_refuted.
Print Assumptions C95_whole_refuted.
