(** C69, C70: signatures as a Sampler and a client use them. *)
From Verif Require Import Base Trajectory Tensor TrajUtil ChunkerOptions Sample Stream Reactor PropTraj PropSample PropStream PropInsertStream
  Chunker PropChunker TrajWriter TrajWriterProofs PropTrajWriter Writer WriterProofs WriterConf WriterData WriterPlace WriterOwn WriterTrace PropWriter SigCheck.
Local Open Scope Z_scope.

(** ** Specification *)

(** [conforms sp t] (PropTrajWriter.v): the tensor has the type of the specification
    and the sizes that it gives.  The rows of a tensor conform: it has a first
    dimension, and without it conforms. *)
Definition rows_conform (sp : tspec) (t : tensor) : Prop := exists n row, t_shape t = n :: row /\ conforms sp (mkTensor (t_ty t) row []).

(** ** The check *)

Lemma dims_compatible_iff dims sh : dims_compatible dims sh = true <-> Forall2 (fun d n => d = None \/ d = Some n) dims sh.
Proof.
  split; [apply dims_conform|]. induction 1 as [|d n dims sh Hd H IH]; [done|]. cbn [dims_compatible]. rewrite IH, andb_true_r. destruct Hd as [->| ->]; [done|apply Nat.eqb_refl].
Qed.
Lemma fits_conforms sp t : bool_decide (t_ty t = sp_ty sp) && shape_compatible (sp_shape sp) (t_shape t) = true <-> conforms sp t.
Proof.
  unfold conforms. rewrite andb_true_iff, bool_decide_eq_true. unfold shape_compatible. destruct (sp_shape sp) as [dims|]; [|tauto]. by rewrite dims_compatible_iff.
Qed.
Definition mode_conforms (mode : vmode) : tspec -> tensor -> Prop := match mode with VBatched => rows_conform | _ => conforms end.
Lemma check_tensor_iff mode sp t : check_tensor mode sp t = true <-> mode_conforms mode sp t.
Proof.
  destruct mode; cbn [check_tensor mode_conforms]; [apply fits_conforms| |apply fits_conforms]. unfold rows_conform. destruct (t_shape t) as [|n row] eqn:E.
  - split; [done|]. by intros (? & ? & ? & _).
  - rewrite (fits_conforms sp (mkTensor (t_ty t) row [])). split; [intros H; by exists n, row|]. by intros (? & ? & [= <- <-] & H).
Qed.
Lemma forallb_combine_iff {A B} (f : A * B -> bool) (P : A -> B -> Prop) : (forall a b, f (a, b) = true <-> P a b) ->
  forall (l : list A) (k : list B), length l = length k -> forallb f (combine l k) = true <-> Forall2 P l k.
Proof.
  intros H. induction l as [|a l IH]; intros [|b k] Hl; cbn in Hl; try lia; [split; [constructor|done]|]. cbn [combine forallb]. rewrite andb_true_iff, H, IH by lia.
  split; [intros [? ?]; by constructor|]. intros HF. by apply Forall2_cons in HF.
Qed.
Lemma validate_iff spec mode cols : validate_output (Some spec) mode cols = Ok <-> length spec = (4 + length cols)%nat /\ Forall2 (mode_conforms mode) (drop 4 spec) cols.
Proof.
  unfold validate_output. destruct (4 + length cols =? length spec)%nat eqn:E; cbn [negb].
  - apply Nat.eqb_eq in E. rewrite <- (forallb_combine_iff (fun p => check_tensor mode p.1 p.2)) by (intros; apply check_tensor_iff || (rewrite drop_length; lia)).
    destruct (forallb _ _); [split; [by split|done]|split; [done|]; by intros [_ ?]].
  - apply Nat.eqb_neq in E. split; [done|]. intros [? _]. lia.
Qed.

(** ** C69 *)

(** *** What a Sampler with a specification hands out conforms to it, and it hands out
    whatever conforms. *)
Theorem C69_trajectory spec s m cols : as_trajectory s = SROk (m, cols) ->
  (get_next_trajectory (Some spec) s = GOk (m, cols) <-> length spec = (4 + length cols)%nat /\ Forall2 conforms (drop 4 spec) cols) /\
  (forall d, get_next_trajectory (Some spec) s = GOk d -> d = (m, cols)).
Proof.
  intros H. unfold get_next_trajectory. rewrite H. rewrite <- (validate_iff spec VTrajectory cols). destruct (bool_decide_reflect (validate_output (Some spec) VTrajectory cols = Ok)) as [E|E].
  - split; [done|]. by intros d [= <-].
  - split; [by split|]. done.
Qed.
Theorem C69_batched spec s ms cols : as_batched_timesteps s = SROk (ms, cols) ->
  (get_next_sample (Some spec) s = GOk (ms, cols) <-> length spec = (4 + length cols)%nat /\ Forall2 rows_conform (drop 4 spec) cols) /\
  (forall d, get_next_sample (Some spec) s = GOk d -> d = (ms, cols)).
Proof.
  intros H. unfold get_next_sample. rewrite H. rewrite <- (validate_iff spec VBatched cols). destruct (bool_decide_reflect (validate_output (Some spec) VBatched cols = Ok)) as [E|E].
  - split; [done|]. by intros d [= <-].
  - split; [by split|]. done.
Qed.
Theorem C69_timestep spec s m row last s' : sampler_next_timestep s = TSOk (m, row) last s' ->
  (get_next_step (Some spec) s = GStep (m, row) last s' <-> length spec = (4 + length row)%nat /\ Forall2 conforms (drop 4 spec) row) /\
  (forall d l s1, get_next_step (Some spec) s = GStep d l s1 -> d = (m, row)).
Proof.
  intros H. unfold get_next_step. rewrite H. cbn [snd]. rewrite <- (validate_iff spec VTimestep row). destruct (bool_decide_reflect (validate_output (Some spec) VTimestep row = Ok)) as [E|E].
  - split; [done|]. by intros d l s1 [= <- _ _].
  - split; [by split|]. done.
Qed.

(** *** What a client asks of the data of a table *)

(** The specification of a Sampler for a table whose signature the client has. *)
Lemma spec_of_cache c table now r spec c' mm : get_dtypes_and_shapes c table now r = (inr spec, c') -> cc_sigs c' = Some mm ->
  spec = match mm !! table with Some (Some sig) => Some (info_specs ++ sig) | _ => None end.
Proof.
  unfold get_dtypes_and_shapes, maybe_update. destruct (cc_sigs c) as [m|] eqn:E.
  - intros [= <- <-] Hm. rewrite E in Hm. injection Hm as ->. by destruct (mm !! table) as [[]|].
  - destruct now; [intros [= <- <-]; by rewrite E|]. destruct r as [st|info]; [done|]. destruct (locked_update c info) as [st c1] eqn:El.
    destruct (cc_sigs c1) as [m|] eqn:E1; destruct st; try done. intros [= <- <-]. rewrite E1. intros [= ->]. by destruct (mm !! table) as [[]|].
Qed.
Lemma user_of_cache c table dtypes shapes now r spec c' mm sig : new_sampler_user c table dtypes shapes now r = (inr spec, c') -> cc_sigs c' = Some mm ->
  mm !! table = Some (Some sig) -> spec = Some (info_specs ++ sig).
Proof.
  unfold new_sampler_user. destruct (negb _); [done|]. destruct (get_dtypes_and_shapes c table now r) as [[st|[sp|]] c1] eqn:E; [done| |].
  - destruct (_ && _); [|done]. intros [= <- <-] Hm Ht. rewrite (spec_of_cache _ _ _ _ _ _ _ E Hm), Ht. done.
  - intros [= <- <-] Hm Ht. pose proof (spec_of_cache _ _ _ _ _ _ _ E Hm) as Hn. by rewrite Ht in Hn.
Qed.

(** *** Items of a TrajectoryWriter *)

(** A TrajectoryWriter and a Sampler that have got the same signatures [mm]: an item
    that CreateItem accepted and the server stored (as in C39) is handed out by
    GetNextTrajectory, whether the types and shapes of the Sampler come from the
    signature alone or the caller gave some as well. *)
Theorem C69_end_to_end_partial o ep mm w pre r suf chunks c ii data it cols mt spec c1 c2 now rr : validate_options o = Ok ->
  tw_reach (tw_new o (Some mm) ep) w -> w_wire w = pre ++ r :: suf ->
  async_run (fun _ => true) ∅ pre = Some chunks -> async_insert_request (fun _ => true) chunks r = Some (IInsert c ii data) ->
  (it, cols) ∈ w_created w -> ii_key ii = wi_key it -> Forall (fun col => contiguous (w_cols w) col.1) cols ->
  cc_sigs c2 = Some mm ->
  get_dtypes_and_shapes c1 (wi_table it) now rr = (inr spec, c2) \/
    (mm !! wi_table it <> Some None /\ exists dtypes shapes, new_sampler_user c1 (wi_table it) dtypes shapes now rr = (inr spec, c2)) ->
  exists s out, as_sample_local (mkSampled (mkSinfo mt (ii_traj ii) (snd <$> cols)) data) = AOk s /\
    get_next_trajectory spec s = GOk (mt, out) /\ Forall2 (column_value (w_cols w)) cols out.
Proof.
  intros Ho Hr Hw H1 H2 H3 H4 H5 Hc Hs.
  destruct (C39_trajectory_partial o (Some mm) ep Ho w pre r suf chunks c ii data it cols mt Hr Hw H1 H2 H3 H4 H5) as (_ & s & out & A1 & A2 & A3).
  destruct (C58_signature o (Some mm) ep Ho w mm it cols out Hr eq_refl H3 A3) as (os & B1 & B2).
  exists s, out. split; [exact A1|]. split; [|exact A3].
  assert (spec = None \/ exists sig, os = Some sig /\ spec = Some (info_specs ++ sig)) as [->|(sig & -> & ->)].
  { destruct Hs as [Hs|(Hn & dtypes & shapes & Hs)].
    - rewrite (spec_of_cache _ _ _ _ _ _ _ Hs Hc), B1. destruct os as [sig|]; [right; by exists sig|by left].
    - destruct os as [sig|]; [|done]. right. exists sig. split; [done|]. exact (user_of_cache _ _ _ _ _ _ _ _ _ _ Hs Hc B1). }
  - unfold get_next_trajectory. by rewrite A2.
  - apply (C69_trajectory (info_specs ++ sig) s mt out A2). specialize (B2 sig eq_refl). split; [rewrite app_length, (Forall2_length _ _ _ B2); done|]. exact B2.
Qed.

(** *** Items of a Writer: batches and timesteps *)

(** The pieces of a column are of the kind of the whole column. *)
Definition piece_of (b : tensor) (p : tensor * nat) : Prop := t_ty p.1 = t_ty b /\ exists d, t_shape p.1 = d :: tail (t_shape b).
Lemma unpack_pieces col b : unpack_column col = Some b -> t_shape b <> [] -> Forall (piece_of b) col.
Proof.
  unfold unpack_column. intros H Hb.
  assert (G : forall ts, tensor_concat ts = Some b -> Forall (fun t => t_ty t = t_ty b /\ exists d, t_shape t = d :: tail (t_shape b)) ts).
  { intros [|t ts]; [done|]. unfold tensor_concat. destruct (forallb _ _) eqn:E; [|done]. intros [= <-]. cbn [t_ty t_shape tail]. rewrite forallb_forall in E.
    apply Forall_forall. intros u Hu. apply elem_of_list_In, E in Hu. apply andb_true_iff in Hu as [Hu H3]. apply andb_true_iff in Hu as [H1 H2].
    apply bool_decide_eq_true in H1, H2. split; [done|]. destruct (t_shape u) as [|d sh]; [done|]. exists d. by rewrite <- H2. }
  destruct col as [|[t o] [|p col]].
  - done.
  - injection H as ->. repeat constructor. cbn. destruct (t_shape b) as [|d sh]; [done|]. by exists d.
  - specialize (G _ H). apply Forall_fmap in G. exact G.
Qed.
Lemma unpack_all cols bs : unpack_columns cols = Some bs -> Forall2 (fun col b => unpack_column col = Some b) cols bs.
Proof.
  revert bs. induction cols as [|c cols IH]; intros bs; cbn [unpack_columns]; [intros [= <-]; constructor|]. destruct (unpack_column c) as [t|] eqn:E; [|done]. cbn [mbind option_bind].
  destruct (unpack_columns cols) as [ts|]; [|done]. cbn [mbind option_bind]. intros [= <-]. constructor; [done|by apply IH].
Qed.
Lemma fold_dims l a : foldl Z.add a ((fun p : tensor * nat => Z.of_nat (dim0 p.1)) <$> l) = a + Z.of_nat (list_sum (dim0 <$> (fst <$> l))).
Proof. revert a. induction l as [|x l IH]; intros a; [cbn; lia|]. cbn [fmap list_fmap foldl] in *. rewrite IH. unfold list_sum. cbn [foldr]. lia. Qed.
Lemma unpack_length col b : unpack_column col = Some b -> col_length col = Z.of_nat (dim0 b).
Proof.
  unfold col_length. rewrite fold_dims. unfold unpack_column. destruct col as [|[t o] [|p col]].
  - done.
  - intros [= ->]. cbn. lia.
  - unfold tensor_concat. cbn [fst fmap list_fmap]. destruct (forallb _ _); [|done]. intros [= <-]. unfold dim0 at 3. cbn [t_shape]. reflexivity.
Qed.
Lemma composed_all n cols : Forall (fun c => col_length c = n) cols -> forall prev, prev = -1 \/ prev = n -> composed_from prev cols = true.
Proof.
  induction 1 as [|c cols Hc H IH]; intros prev Hp; [done|]. cbn [composed_from]. rewrite Hc. destruct Hp as [->| ->].
  - rewrite Z.eqb_refl. cbn. apply IH. by right.
  - rewrite Z.eqb_refl, andb_false_r. apply IH. by right.
Qed.
Lemma squeeze_none n ts : squeeze_columns (replicate n false) ts = Some ts.
Proof. revert ts. induction n as [|n IH]; intros [|t ts]; try done. cbn [replicate squeeze_columns mbind option_bind]. rewrite IH. done. Qed.

(** A sample without squeezed columns whose columns are equally long is a batch of
    timesteps. *)
Lemma trajectory_batched s n k m out : as_trajectory s = SROk (m, out) -> s_squeeze s = replicate k false -> Forall (fun b => dim0 b = n) out ->
  as_batched_timesteps s = SROk (replicate (Z.to_nat (s_num s)) m, out) /\ unpack_columns (s_cols s) = Some out.
Proof.
  unfold as_trajectory, as_batched_timesteps. destruct (s_called s); [done|]. destruct (unpack_columns (s_cols s)) as [ts|] eqn:E; [|done]. intros H Hs Hn. rewrite Hs, squeeze_none in H.
  injection H as <- <-. assert (is_composed_of_timesteps s = true) as ->; [|done]. unfold is_composed_of_timesteps. apply (composed_all (Z.of_nat n)); [|by left].
  apply unpack_all in E. clear -E Hn. induction E as [|c b cols bs Hc E IH]; [done|]. apply Forall_cons in Hn as [Hn Hns]. constructor; [|by apply IH]. rewrite (unpack_length _ _ Hc). by rewrite Hn.
Qed.

(** Repeated calls for timesteps. *)
Inductive stepped : sample -> sample -> Prop :=
| stepped_refl s : stepped s s
| stepped_next s d last s' s'' : sampler_next_timestep s = TSOk d last s' -> stepped s' s'' -> stepped s s''.

Lemma step_pieces cols bs rs cols' : Forall2 (fun col b => Forall (piece_of b) col) cols bs -> step_cols cols = Some (rs, cols') ->
  Forall2 (fun r b => t_ty r = t_ty b /\ t_shape r = tail (t_shape b)) rs bs /\ Forall2 (fun col b => Forall (piece_of b) col) cols' bs.
Proof.
  intros H. revert rs cols'. induction H as [|col b cols bs Hc H IH]; intros rs cols'; cbn [step_cols]; [intros [= <- <-]; by split|].
  destruct col as [|[t off] rest]; cbn [step_col]; [done|]. apply Forall_cons in Hc as [[K1 (d & K2)] Hc]. cbn [fst] in K1, K2.
  destruct (Sample.sub_slice t off) as [u|] eqn:Eu; [|done]. unfold Sample.sub_slice in Eu. rewrite K2 in Eu.
  destruct (decide (off < d)%nat); [|done]. injection Eu as <-. cbn [mbind option_bind]. destruct (step_cols cols) as [[qs cs]|]; [|done]. cbn [mbind option_bind fst snd]. intros [= <- <-].
  destruct (IH _ _ eq_refl) as [I1 I2]. split; (constructor; [|done]).
  - done.
  - case_match; [done|]. constructor; [|done]. split; [done|]. by exists d.
Qed.
Lemma next_pieces s bs m row last s' : Forall2 (fun col b => Forall (piece_of b) col) (s_cols s) bs -> sampler_next_timestep s = TSOk (m, row) last s' ->
  Forall2 (fun r b => t_ty r = t_ty b /\ t_shape r = tail (t_shape b)) row bs /\ Forall2 (fun col b => Forall (piece_of b) col) (s_cols s') bs.
Proof.
  intros H. unfold sampler_next_timestep, get_next_timestep. destruct (negb _); [done|]. destruct (is_end_of_sample s); [done|].
  destruct (step_cols (s_cols s)) as [[rs cs]|] eqn:E; [|done]. cbn [mbind option_bind fst snd]. intros [= <- <- _ <-]. by apply (step_pieces _ _ _ _ H E).
Qed.

(** If the rows of the whole columns conform, every timestep is handed out. *)
Lemma steps_pass spec s s' bs : length spec = (4 + length bs)%nat -> Forall2 rows_conform (drop 4 spec) bs -> Forall2 (fun col b => Forall (piece_of b) col) (s_cols s) bs ->
  stepped s s' -> forall d last s'', sampler_next_timestep s' = TSOk d last s'' -> get_next_step (Some spec) s' = GStep d last s''.
Proof.
  intros Hl Hc Hp HS. induction HS as [s|s [m row] last s' s'' Hs HS IH].
  - intros [m row] last s'' Hn. apply (C69_timestep spec s m row last s'' Hn). destruct (next_pieces _ _ _ _ _ _ Hp Hn) as [HR _]. rewrite (Forall2_length _ _ _ HR). split; [done|].
    clear -Hc HR. revert row HR. induction Hc as [|sp b sps bs (n & rw & E & K) Hc IH]; intros row HR; inversion HR as [|r b' row' bs' [R1 R2] HR' E1 E2]; subst; [constructor|].
    constructor; [|by apply IH]. rewrite E in R2. cbn [tail] in R2. unfold conforms in *. cbn [t_ty t_shape] in K. by rewrite R1, R2.
  - apply IH. by destruct (next_pieces _ _ _ _ _ _ Hp Hs).
Qed.

Lemma step_column_conform c rows out sp : step_column c rows out -> rows <> [] -> (forall s t, s ∈ rows -> s !! c = Some t -> conforms sp t) ->
  dim0 out = length rows /\ rows_conform sp out.
Proof.
  intros (ty & sh & ts & HM & HK & ->) Hn Hc. apply mapM_Some in HM. cbn [dim0 stacked t_shape]. split; [symmetry; by eapply Forall2_length|].
  exists (length ts), sh. split; [done|]. destruct HM as [|s t rows ts Ht HM]; [done|]. apply Forall_cons in HK as [[K1 K2] _].
  destruct (Hc s t ltac:(left) Ht) as [C1 C2]. unfold conforms. cbn [stacked t_ty t_shape]. by rewrite <- K1, <- K2.
Qed.

(** A Writer and a Sampler that have got the same signatures: an item of the last [n]
    steps that CreateItem accepted and the server stored (as in C37) is handed out by
    GetNextSample, and timestep by timestep by GetNextTimestep. *)
Theorem C69_writer_partial p key tr w tr1 table n prio ikey ret tr2 pre r suf chunks c ii data mt sg mm spec c1 c2 now rr : conf_ok p ->
  lw_trace p (lw_new p key) tr w -> smooth tr ->
  tr = tr1 ++ (LCreate table n prio ikey, ret) :: tr2 -> ret = None \/ ret = Some Ok -> (forall st, (LFlush, st) ∉ tr1) -> 1 <= n ->
  l_wire w = pre ++ r :: suf -> async_run (fun _ => true) ∅ pre = Some chunks -> async_insert_request (fun _ => true) chunks r = Some (IInsert c ii data) -> ii_key ii = ikey ->
  let h := appended (returned tr1) in Forall (fun s => step_sig s = sg) h -> sg <> [] ->
  p_sigs p = Some mm -> cc_sigs c2 = Some mm -> mm !! table <> Some None ->
  get_dtypes_and_shapes c1 table now rr = (inr spec, c2) \/ (exists dtypes shapes, new_sampler_user c1 table dtypes shapes now rr = (inr spec, c2)) ->
  exists s out, as_sample_local (mkSampled (mkSinfo mt (ii_traj ii) (replicate (length sg) false)) data) = AOk s /\
    get_next_sample spec s = GOk (replicate (Z.to_nat (s_num s)) mt, out) /\ length out = length sg /\
    (forall c t, out !! c = Some t -> step_column c (last_steps (Z.to_nat n) h) t) /\
    forall s', stepped s s' -> forall d last s'', sampler_next_timestep s' = TSOk d last s'' -> get_next_step spec s' = GStep d last s''.
Proof.
  intros Hcf Ht Hs Htr Hret Hfl Hn Hw H1 H2 H3 h Hh Hsg Hm Hc Hsome Hsp.
  destruct (C37_writer_partial p key Hcf tr w tr1 table n prio ikey ret tr2 pre r suf chunks c ii data mt sg Ht Hs Htr Hret Hfl Hn Hw H1 H2 H3 Hh Hsg) as (_ & Hlen & s & out & A1 & A2 & A3 & A4).
  destruct (C58_writer p key Hcf tr w tr1 table n prio ikey ret tr2 mm Ht Htr Hret Hm) as (os & B1 & B2). fold h in Hlen, A4, B2.
  destruct os as [sig|]; [|done]. destruct (B2 sig eq_refl) as [_ BC]. clear B2.
  assert (spec = Some (info_specs ++ sig)) as ->.
  { destruct Hsp as [Hsp|(dt & sh & Hsp)]; [by rewrite (spec_of_cache _ _ _ _ _ _ _ Hsp Hc), B1|exact (user_of_cache _ _ _ _ _ _ _ _ _ _ Hsp Hc B1)]. }
  set (rows := last_steps (Z.to_nat n) h) in *.
  assert (Hrn : length rows = Z.to_nat n) by (unfold rows, last_steps; rewrite drop_length; lia).
  assert (Hr0 : rows <> []) by (intros E; rewrite E in Hrn; cbn in Hrn; lia).
  assert (Hls : length sig = length out).
  { rewrite A3. destruct rows as [|s0 rows0] eqn:Er; [done|]. apply Forall_inv in BC. rewrite (Forall2_length _ _ _ BC).
    assert (Hin : s0 ∈ h). { assert (Hx : s0 ∈ rows) by (rewrite Er; left). unfold rows, last_steps in Hx. clear -Hx. rewrite <- (take_drop (length h - Z.to_nat n) h), elem_of_app. by right. }
    rewrite Forall_forall in Hh. rewrite <- (Hh _ Hin). unfold step_sig. by rewrite fmap_length. }
  assert (HC : forall i t sp, out !! i = Some t -> sig !! i = Some sp -> dim0 t = Z.to_nat n /\ rows_conform sp t).
  { intros i t sp Ht' Hsp'. rewrite <- Hrn. apply (step_column_conform i); [by apply A4|done|]. intros x u Hx Hu. rewrite Forall_forall in BC. by apply (Forall2_lookup_lr _ _ _ _ _ _ (BC _ Hx) Hsp'). }
  assert (HD : Forall (fun b => dim0 b = Z.to_nat n) out).
  { apply Forall_lookup. intros i t Hi. destruct (lookup_lt_is_Some_2 sig i) as [sp Hi']; [rewrite Hls; by eapply lookup_lt_Some|]. by destruct (HC _ _ _ Hi Hi'). }
  assert (HF : Forall2 rows_conform sig out).
  { apply Forall2_same_length_lookup. split; [done|]. intros i sp t Hi Hi'. by apply (HC i). }
  assert (Hsq : s_squeeze s = replicate (length sg) false).
  { unfold as_sample_local, finish_sample in A1. cbn [sp_info si_squeeze si_meta] in A1. destruct (local_traj _ _) as [cols| |]; [|done..]. unfold make_sample in A1.
    destruct cols as [|[|x y] cols]; [done|done|]. destruct (is_composed_of_timesteps _); by injection A1 as <-. }
  destruct (trajectory_batched s _ _ _ _ A2 Hsq HD) as [E1 E2].
  assert (HL : length (info_specs ++ sig) = (4 + length out)%nat) by (rewrite app_length, Hls; done).
  exists s, out. split; [exact A1|]. split; [apply (C69_batched (info_specs ++ sig) s _ out E1); done|]. split; [exact A3|]. split; [exact A4|].
  intros s' HS. refine (steps_pass (info_specs ++ sig) s s' out HL HF _ HS).
  apply unpack_all in E2. clear -E2 HF. revert sig HF. induction E2 as [|col b cols bs Hc E IH]; intros sig HF; [constructor|].
  apply Forall2_cons_inv_r in HF as (sp & sig' & (k & row & Hk & _) & HF & ->). constructor; [|by eapply IH]. apply unpack_pieces; [done|]. by rewrite Hk.
Qed.

(** *** Types and shapes given by the caller *)

(** [u] demands nothing that [sp] does not demand. *)
Definition looser (u sp : tspec) : Prop :=
  sp_ty u = sp_ty sp /\ match sp_shape u, sp_shape sp with
                        | None, _ => True
                        | Some _, None => False
                        | Some du, Some ds => Forall2 (fun a b => a = None \/ a = b) du ds
                        end.
Lemma looser_conforms u sp t : looser u sp -> conforms sp t -> conforms u t.
Proof.
  intros [E H] [C1 C2]. split; [congruence|]. destruct (sp_shape u) as [du|]; [|done]. destruct (sp_shape sp) as [ds|]; [|done].
  clear -H C2. revert C2. generalize (t_shape t). induction H as [|a b du ds Hab H IH]; intros sh C; inversion C as [|b' n ds' sh' Hb HC]; subst; [constructor|].
  constructor; [|by apply IH]. destruct Hab as [->| ->]; [by left|done].
Qed.

(** What is handed out conforms to the types and shapes that the caller gave (except
    for the four tensors of the sample's information), if the table has no signature
    that the client knows of, or if its signature is at least as narrow. *)
Theorem C69_user_partial c table dtypes shapes now r spec c' s m cols : new_sampler_user c table dtypes shapes now r = (inr spec, c') ->
  (forall mm sig, cc_sigs c' = Some mm -> mm !! table = Some (Some sig) -> Forall2 looser (drop 4 (zip_with mkTspec dtypes shapes)) sig) ->
  get_next_trajectory spec s = GOk (m, cols) ->
  length dtypes = length shapes /\ length shapes = (4 + length cols)%nat /\ Forall2 conforms (drop 4 (zip_with mkTspec dtypes shapes)) cols.
Proof.
  intros H Hs Hg. assert (HT : as_trajectory s = SROk (m, cols)).
  { unfold get_next_trajectory in Hg. destruct (as_trajectory s) as [[m' cols']|]; [|done]. case_bool_decide; [|done]. by injection Hg as <- <-. }
  unfold new_sampler_user in H. destruct (negb (length dtypes =? length shapes)%nat) eqn:El; [done|]. apply negb_false_iff, Nat.eqb_eq in El. split; [done|].
  destruct (get_dtypes_and_shapes c table now r) as [[st|[sp|]] c1] eqn:E; [done| |].
  - destruct (_ && _) eqn:Ef; [|done]. injection H as <- <-. apply andb_true_iff in Ef as [Ef _]. apply Nat.eqb_eq in Ef.
    apply (proj1 (C69_trajectory sp s m cols HT)) in Hg as [G1 G2]. split; [lia|].
    assert (exists mm sig, cc_sigs c1 = Some mm /\ mm !! table = Some (Some sig) /\ sp = info_specs ++ sig) as (mm & sig & K1 & K2 & ->).
    { unfold get_dtypes_and_shapes in E. destruct (maybe_update c now r) as [[st|m0] c2] eqn:Em; [done|]. injection E as E <-. destruct (m0 !! table) as [[sig|]|] eqn:Et; try done. injection E as <-.
      exists m0, sig. split; [|done]. unfold maybe_update in Em. destruct (cc_sigs c) as [m1|] eqn:Ec; [injection Em as <- <-; done|].
      destruct now; [injection Em as <- <-; by rewrite lookup_empty in Et|]. destruct r as [st|info]; [done|]. destruct (locked_update c info) as [st c3]. destruct st; try done. destruct (cc_sigs c3) eqn:E3; [|done]. injection Em as <- <-. done. }
    change (drop 4 (info_specs ++ sig)) with sig in G2. specialize (Hs mm sig K1 K2). clear -Hs G2. revert cols G2. induction Hs as [|u sp us sig Hu Hs IH]; intros cols G; inversion G; subst; [constructor|].
    constructor; [by eapply looser_conforms|by apply IH].
  - injection H as <- <-. apply (proj1 (C69_trajectory _ s m cols HT)) in Hg as [G1 G2]. rewrite zip_with_length in G1. split; [lia|done].
Qed.

(** ** C70: the signatures that a client has *)

(** Calls of a client: ServerInfo, or one that needs signatures (NewWriter, NewSampler,
    NewTrajectoryWriter), with what the server answers if it is asked. *)
Inductive cop := CInfo (r : rpc) | CNeed (now : bool) (r : rpc).
Definition cop_rpc (o : cop) : rpc := match o with CInfo r | CNeed _ r => r end.
Definition cop_step (c : ccache) (o : cop) : ccache :=
  match o with CInfo r => (client_server_info c r).2 | CNeed now r => (maybe_update c now r).2 end.
Definition client_after (os : list cop) : ccache := foldl cop_step (mkCache None 0) os.

(** The signature that the answer lists for a table; the last entry counts if there
    are several. *)
Definition listed (info : server_info) (table : Z) : option (option (option (list tspec))) :=
  snd <$> last (filter (fun p => p.1 = table) (si_tables info)).

Lemma info_sigs_lookup tables m0 m table : info_sigs tables m0 = Some m ->
  Some <$> m !! table = match last (filter (fun p => p.1 = table) tables) with Some p => Some (p.2) | None => Some <$> m0 !! table end.
Proof.
  revert m0. induction tables as [|[name [sig|]] tables IH]; intros m0; cbn [info_sigs]; [by intros [= ->]| |done]. intros H. rewrite (IH _ H). rewrite filter_cons. cbn [fst].
  destruct (decide (name = table)) as [->|Hn].
  - rewrite lookup_insert. destruct (filter _ tables) as [|x l] eqn:E; [done|]. rewrite last_cons_cons. destruct (last (x :: l)) eqn:EE; [done|]. by apply last_None in EE.
  - rewrite lookup_insert_ne by done. done.
Qed.
(** The signatures of an answer, table by table. *)
Theorem C70_answer info m : info_sigs (si_tables info) ∅ = Some m -> forall table, Some <$> m !! table = listed info table.
Proof.
  intros H table. rewrite (info_sigs_lookup _ _ _ table H). unfold listed. destruct (last _); [done|]. by rewrite lookup_empty.
Qed.

Definition from_answer (os : list cop) (c : ccache) : Prop :=
  forall m, cc_sigs c = Some m -> exists info, RInfo info ∈ (cop_rpc <$> os) /\ info_sigs (si_tables info) ∅ = Some m /\ cc_id c = si_id info.
Lemma locked_from os c info : from_answer os c -> RInfo info ∈ (cop_rpc <$> os) -> from_answer os (locked_update c info).2.
Proof.
  intros H Hi. unfold locked_update. destruct (_ || _); [|done]. destruct (info_sigs _ _) as [m|] eqn:E; [|done]. cbn [snd]. intros m' [= <-]. by exists info.
Qed.
(** The cached signatures are those of one answer of the server. *)
Theorem C70_source os m : cc_sigs (client_after os) = Some m ->
  exists info, RInfo info ∈ (cop_rpc <$> os) /\ info_sigs (si_tables info) ∅ = Some m /\ cc_id (client_after os) = si_id info.
Proof.
  revert m. change (from_answer os (client_after os)). unfold client_after. induction os as [|o os IH] using rev_ind; [by intros m|].
  rewrite foldl_app. cbn [foldl]. set (c := foldl cop_step _ os) in *. assert (H : from_answer (os ++ [o]) c).
  { intros m Hm. destruct (IH m Hm) as (info & I1 & I2 & I3). exists info. split; [|done]. rewrite fmap_app, elem_of_app. by left. }
  assert (Hi : forall info, cop_rpc o = RInfo info -> RInfo info ∈ (cop_rpc <$> (os ++ [o]))) by (intros info <-; rewrite fmap_app, elem_of_app; right; left).
  destruct o as [[st|info]|now r]; cbn [cop_step client_server_info]; [done|by apply locked_from, Hi|].
  unfold maybe_update. destruct (cc_sigs c); [done|]. destruct now; [done|]. destruct r as [st|info]; [done|].
  pose proof (locked_from _ c info H (Hi info eq_refl)) as HL. destruct (locked_update c info) as [st c1]. cbn [snd] in HL. destruct st, (cc_sigs c1); done.
Qed.

(** As long as the server answers with the same tables, every call that waits for an
    answer and gets it has the signatures of the tables, and so has ServerInfo. *)
Theorem C70_stable os info m : (forall o i, o ∈ os -> cop_rpc o = RInfo i -> i = info) -> info_sigs (si_tables info) ∅ = Some m ->
  exists c', maybe_update (client_after os) false (RInfo info) = (inr m, c') /\ cc_sigs c' = Some m.
Proof.
  intros Hos Hm. set (c := client_after os). assert (HS : forall m', cc_sigs c = Some m' -> m' = m).
  { intros m' Hm'. destruct (C70_source os m' Hm') as (i & I1 & I2 & _). apply elem_of_list_fmap in I1 as (o & E & Ho). rewrite (Hos o i Ho (eq_sym E)) in I2. congruence. }
  unfold maybe_update. destruct c as [[m'|] id]; cbn [cc_sigs] in *; [rewrite (HS m' eq_refl); by eexists|]. unfold locked_update. cbn [cc_sigs bool_decide]. rewrite Hm. by eexists.
Qed.

(** A call of ServerInfo that returns OK brings the cache up to date, if the server
    gives every set of tables a number of its own. *)
Theorem C70_refresh_partial os info : (forall o i, o ∈ os -> cop_rpc o = RInfo i -> si_id i = si_id info -> si_tables i = si_tables info) ->
  let c := client_after os in (client_server_info c (RInfo info)).1 = Ok ->
  exists m, cc_sigs (client_server_info c (RInfo info)).2 = Some m /\ info_sigs (si_tables info) ∅ = Some m.
Proof.
  intros Hid c. unfold client_server_info, locked_update. destruct (_ || _) eqn:E.
  - destruct (info_sigs _ _) as [m|]; [|done]. intros _. by exists m.
  - intros _. apply orb_false_iff in E as [E1 E2]. apply bool_decide_eq_false in E1. apply negb_false_iff, Z.eqb_eq in E2. destruct (cc_sigs c) as [m|] eqn:Ec; [|done].
    destruct (C70_source os m Ec) as (i & I1 & I2 & I3). apply elem_of_list_fmap in I1 as (o & Eo & Ho). exists m. cbn [snd]. rewrite Ec. split; [done|].
    rewrite <- (Hid o i Ho (eq_sym Eo)); [done|]. fold c in I3. congruence.
Qed.

(** ** Examples *)

(** A server with the tables of the examples of PropTrajWriter.v. *)
Definition sx_info : server_info := mkInfo 1 [(5, Some (Some [mkTspec (TOther 1) (Some [None]); mkTspec (TOther 1) (Some [])])); (6, Some None)].
Definition sx_map : sigmap := default ∅ ex_sigs.
Lemma sx_client table : cc_sigs (get_dtypes_and_shapes (mkCache None 0) table false (RInfo sx_info)).2 = Some sx_map.
Proof. vm_compute. reflexivity. Qed.

(** The item of C39_example, sampled by a client that has asked the server. *)
Example C69_end_to_end_example : let w := after ex_opts ex_run in exists pre r chunks c ii data it cols spec c2, validate_options ex_opts = Ok /\ tw_reach (tw_new ex_opts (Some sx_map) 7) w /\
  w_wire w = pre ++ r :: [] /\ async_run (fun _ => true) ∅ pre = Some chunks /\ async_insert_request (fun _ => true) chunks r = Some (IInsert c ii data) /\
  (it, cols) ∈ w_created w /\ ii_key ii = wi_key it /\ Forall (fun col => contiguous (w_cols w) col.1) cols /\ cc_sigs c2 = Some sx_map /\
  get_dtypes_and_shapes (mkCache None 0) (wi_table it) false (RInfo sx_info) = (inr spec, c2) /\ (length <$> spec = Some 6%nat).
Proof.
  intros w. destruct C39_example as (pre & r & chunks & c & ii & data & it & cols & H1 & H2 & H3 & _ & H4 & H5 & H6 & H7 & H8 & (mm & sig & M1 & M2 & M3) & _).
  exists pre, r, chunks, c, ii, data, it, cols. destruct (get_dtypes_and_shapes (mkCache None 0) (wi_table it) false (RInfo sx_info)) as [[st|spec] c2] eqn:E.
  - exfalso. assert (forall t, exists sp, (get_dtypes_and_shapes (mkCache None 0) t false (RInfo sx_info)).1 = inr sp) as G by (intros t; vm_compute; by eexists).
    destruct (G (wi_table it)) as [sp G']. rewrite E in G'. discriminate G'.
  - exists spec, c2. assert (Hc : cc_sigs c2 = Some sx_map) by (rewrite <- (sx_client (wi_table it)), E; reflexivity).
    split; [exact H1|]. split; [exact H2|]. split; [exact H3|]. split; [exact H4|]. split; [exact H5|]. split; [exact H6|]. split; [exact H7|]. split; [exact H8|]. split; [exact Hc|].
    split; [reflexivity|]. rewrite (spec_of_cache _ _ _ _ _ _ _ E Hc). unfold sx_map. rewrite M1. cbn [default]. cbn [from_option id]. rewrite M2. cbn [fmap option_fmap option_map]. rewrite app_length, M3. reflexivity.
Qed.

(** The item of C37_writer_example, see there. *)
Definition lx_map : sigmap := default ∅ (p_sigs (lex_conf (Some 1))).
Definition lx_info : server_info := mkInfo 1 [(6, Some None); (5, Some (Some lex_sig))].
Example C69_writer_example : exists tr w tr1 ret tr2 pre r suf chunks c ii data spec c2,
  conf_ok (lex_conf (Some 1)) /\ lw_trace (lex_conf (Some 1)) (lw_new (lex_conf (Some 1)) 100) tr w /\ smooth tr /\
  tr = tr1 ++ (LCreate 5 3 (Fin 1) 42, ret) :: tr2 /\ (ret = None \/ ret = Some Ok) /\ (forall st, (LFlush, st) ∉ tr1) /\
  l_wire w = pre ++ r :: suf /\ async_run (fun _ => true) ∅ pre = Some chunks /\ async_insert_request (fun _ => true) chunks r = Some (IInsert c ii data) /\ ii_key ii = 42 /\
  Forall (fun s => step_sig s = step_sig (lstep 1)) (appended (returned tr1)) /\ p_sigs (lex_conf (Some 1)) = Some lx_map /\ cc_sigs c2 = Some lx_map /\ lx_map !! 5 = Some (Some lex_sig) /\
  get_dtypes_and_shapes (mkCache None 0) 5 false (RInfo lx_info) = (inr spec, c2).
Proof.
  destruct C37_writer_example as (tr & w & tr1 & w1 & ret & tr2 & pre & r & suf & chunks & c & ii & data & H1 & H2 & H3 & H4 & H5 & H6 & _ & _ & H7 & _ & H8 & H9 & H10 & _ & H11 & _).
  exists tr, w, tr1, ret, tr2, pre, r, suf, chunks, c, ii, data, (Some (info_specs ++ lex_sig)), (mkCache (Some lx_map) 1).
  split; [exact H1|]. split; [exact H2|]. split; [exact H3|]. split; [exact H4|]. split; [exact H5|]. split; [exact H6|]. split; [exact H7|]. split; [exact H8|]. split; [exact H9|].
  split; [exact H10|]. split; [exact H11|]. split; [reflexivity|]. split; [reflexivity|]. split; [reflexivity|]. reflexivity.
Qed.

(** *** What is not so *)

Definition sx_sample (t : tensor) : sample := default (mkSample (ex_meta 9) 0 [] [] false) (make_sample (ex_meta 9) [[t]] [false]).
Definition user_dtypes : list dty := (sp_ty <$> info_specs) ++ [TOther 1].
Definition user_shapes (n : nat) : list pshape := (sp_shape <$> info_specs) ++ [Some [Some n]].

(** The signature of the table leaves a size open; the caller gives it.  NewSampler
    agrees (client.cc:256-273), but then the Sampler checks the data against the
    signature alone: the caller asked for vectors of length 2 and gets one of
    length 3. *)
Theorem C69_user_refuted : ~ (forall c table dtypes shapes now r spec c' s m cols, new_sampler_user c table dtypes shapes now r = (inr spec, c') ->
  get_next_trajectory spec s = GOk (m, cols) -> Forall2 conforms (drop 4 (zip_with mkTspec dtypes shapes)) cols).
Proof.
  intros H. specialize (H (mkCache None 0) 8 user_dtypes (user_shapes 2) false (RInfo (mkInfo 1 [(8, Some (Some [mkTspec (TOther 1) (Some [None])]))]))).
  specialize (H (Some (info_specs ++ [mkTspec (TOther 1) (Some [None])])) (mkCache (Some {[ 8 := Some [mkTspec (TOther 1) (Some [None])] ]}) 1)).
  specialize (H (sx_sample (vec [1; 2; 3])) (ex_meta 9) [vec [1; 2; 3]] ltac:(vm_compute; reflexivity) ltac:(vm_compute; reflexivity)).
  apply Forall2_cons in H as [[_ H] _]. cbn in H. apply Forall2_cons in H as [[H|H] _]; discriminate H.
Qed.

(** Without a signature nothing is checked about the first four tensors: the caller
    asked for keys and probabilities of other types. *)
Theorem C69_info_refuted : ~ (forall c table dtypes shapes now r spec c' s d, new_sampler_user c table dtypes shapes now r = (inr spec, c') ->
  get_next_trajectory spec s = GOk d -> take 4 dtypes = sp_ty <$> info_specs).
Proof.
  intros H. specialize (H (mkCache None 0) 8 (replicate 5 (TOther 1)) (user_shapes 3) false (RInfo (mkInfo 1 [(8, Some None)]))).
  specialize (H (Some (zip_with mkTspec (replicate 5 (TOther 1)) (user_shapes 3))) (mkCache (Some {[ 8 := None ]}) 1)).
  specialize (H (sx_sample (vec [1; 2; 3])) (ex_meta 9, [vec [1; 2; 3]]) ltac:(vm_compute; reflexivity) ltac:(vm_compute; reflexivity)). discriminate H.
Qed.

(** The signature that a TrajectoryWriter checks includes the dimension of time, the one
    that GetNextSample and GetNextTimestep check does not: an item that fits its table
    can be refused by a Sampler with the same signature. *)
Definition step_run : list sev := append1 1 100 ++ append1 2 110 ++ append1 3 120 ++
  [SEv (ECreate 5 (Fin 1) [(run 0 0 1, false); (run 0 0 1, true)] 41); SEv EStart; SEv ENext; SEv (EChunk false OutOk); SEv (EChunk false OutOk); SEv (EChunk false OutOk); SEv ECheck; SEv (ESend OutOk)].
Theorem C69_modes_refuted : exists w r c ii data it cols s d s' spec, let mt := ex_meta 9 in
  tw_reach (tw_new ex_opts (Some sx_map) 7) w /\ w_wire w = [r] /\ async_insert_request (fun _ => true) ∅ r = Some (IInsert c ii data) /\ (it, cols) ∈ w_created w /\ ii_key ii = wi_key it /\
  (get_dtypes_and_shapes (mkCache None 0) (wi_table it) false (RInfo sx_info)).1 = inr spec /\
  as_sample_local (mkSampled (mkSinfo mt (ii_traj ii) (snd <$> cols)) data) = AOk s /\ get_next_trajectory spec s = GOk d /\
  is_composed_of_timesteps s = true /\ get_next_sample spec s = GError /\ get_next_step spec s = GStepError s'.
Proof.
  set (w := after ex_opts step_run). exists w, (default (mkIreq [] None) (last (w_wire w))).
  set (st := store_of (async_insert_request (fun _ => true) ∅ (default (mkIreq [] None) (last (w_wire w))))).
  exists st.1.1, (default (mkIitem 0 0 [] [] false) st.1.2), st.2, (ex_item w).1, (ex_item w).2.
  destruct (as_sample_local (mkSampled (mkSinfo (ex_meta 9) (ii_traj (default (mkIitem 0 0 [] [] false) st.1.2)) (snd <$> (ex_item w).2)) st.2)) as [s| |] eqn:Es;
    [|vm_compute in Es; discriminate..].
  exists s, (ex_meta 9, [vec [1]; mkTensor (TOther 1) [] [1]]).
  assert (Hs : s = mkSample (ex_meta 9) 1 [[(vec [1], 0%nat)]; [(vec [1], 0%nat)]] [false; true] false) by (vm_compute in Es; injection Es as <-; reflexivity).
  exists (mkSample (ex_meta 9) 1 [[]; []] [false; true] true), (Some (info_specs ++ [mkTspec (TOther 1) (Some [None]); mkTspec (TOther 1) (Some [])])).
  intros mt. split; [apply after_reach|]. split; [vm_compute; reflexivity|]. split; [vm_compute; reflexivity|].
  assert (Hc : w_created w = [ex_item w]) by (vm_compute; reflexivity). split; [rewrite Hc; apply elem_of_list_singleton; by destruct (ex_item w)|].
  split; [vm_compute; reflexivity|]. split; [vm_compute; reflexivity|]. split; [exact Es|]. rewrite Hs. clear. repeat split; vm_compute; reflexivity.
Qed.

(** A server is started again with other tables; the client keeps the old
    signatures: the Sampler for a table that now holds vectors of integers wants what
    the table used to hold. *)
Definition sx_new : server_info := mkInfo 2 [(8, Some (Some [mkTspec (TInt 32 true) (Some [None])]))].
Definition sx_old : server_info := mkInfo 1 [(8, Some (Some [mkTspec (TOther 1) (Some [])]))].
Theorem C70_stale_refuted : ~ (forall os info table spec sig c', get_dtypes_and_shapes (client_after os) table false (RInfo info) = (inr (Some spec), c') ->
  listed info table = Some (Some (Some sig)) -> spec = info_specs ++ sig).
Proof.
  intros H. specialize (H [CNeed false (RInfo sx_old)] sx_new 8 (info_specs ++ [mkTspec (TOther 1) (Some [])]) [mkTspec (TInt 32 true) (Some [None])] _ eq_refl eq_refl). discriminate H.
Qed.

(** With the timeout -infinity a client that knows nothing goes on with the empty map
    "without error" (client.cc:76-82); to a TrajectoryWriter this means that no table
    exists, and it never accepts an item. *)
Theorem C70_immediate_refuted r : exists sigs, new_trajectory_writer_sigs (client_after []) true r = (inr sigs, client_after []) /\
  forall o ep w table prio cols key w', tw_reach (tw_new o sigs ep) w -> create_item w table prio cols key <> TNext w' (Some Ok).
Proof.
  exists (Some ∅). split; [reflexivity|]. intros o ep w table prio cols key w' Hr.
  assert (w_sigs w = Some ∅) as Hs. { clear -Hr. induction Hr as [|w e w' ret H IH He E]; [done|]. rewrite <- IH. by eapply step_sigs. }
  unfold create_item. destruct (w_user w); try done. destruct (forallb _ cols); [done|]. destruct (bool_decide_reflect (w_unrec w = Ok)) as [Hu|Hu]; cbn [negb]; [|by intros [= _ ?]].
  destruct (columns_validate w cols) as [st|]; [|done]. destruct (bool_decide_reflect (st = Ok)) as [Hst|Hst]; cbn [negb]; [|by intros [= _ ?]].
  unfold item_validate. rewrite Hs, lookup_empty. done.
Qed.

(** A client that asked twice, before and after the server changed: C70_refresh. *)
Example C70_example : let os := [CNeed false (RFail DeadlineExceeded); CNeed false (RInfo sx_old); CInfo (RInfo sx_old)] in
  cc_sigs (client_after os) <> None /\ (forall o i, o ∈ os -> cop_rpc o = RInfo i -> i = sx_old) /\ (client_server_info (client_after os) (RInfo sx_new)).1 = Ok /\
  cc_sigs (client_server_info (client_after os) (RInfo sx_new)).2 <> cc_sigs (client_after os).
Proof.
  split; [discriminate|]. split.
  - intros o i Ho E. apply elem_of_list_In in Ho. cbn in Ho. destruct Ho as [<-|[<-|[<-|[]]]]; [discriminate E|by injection E|by injection E].
  - split; [reflexivity|]. intros E. apply (f_equal (fun m : option sigmap => m ≫= fun m => m !! 8)) in E. vm_compute in E. discriminate E.
Qed.
(** A narrower signature than what the caller gives: C69_user. *)
Example C69_user_example : exists c' spec, new_sampler_user (mkCache None 0) 8 user_dtypes (user_shapes 3) false (RInfo (mkInfo 1 [(8, Some (Some [mkTspec (TOther 1) (Some [Some 3%nat])]))])) = (inr (Some spec), c') /\
  (forall mm sig, cc_sigs c' = Some mm -> mm !! 8 = Some (Some sig) -> Forall2 looser (drop 4 (zip_with mkTspec user_dtypes (user_shapes 3))) sig) /\
  get_next_trajectory (Some spec) (sx_sample (vec [1; 2; 3])) = GOk (ex_meta 9, [vec [1; 2; 3]]) /\ get_next_trajectory (Some spec) (sx_sample (vec [1; 2])) = GError.
Proof.
  eexists (mkCache (Some {[ 8 := Some [mkTspec (TOther 1) (Some [Some 3%nat])] ]}) 1), (info_specs ++ [mkTspec (TOther 1) (Some [Some 3%nat])]). split; [vm_compute; reflexivity|]. split.
  - intros mm sig [= <-]. rewrite lookup_singleton. intros [= <-]. cbn [drop]. constructor; [|constructor]. vm_compute. first [done | by repeat constructor].
  - split; vm_compute; reflexivity.
Qed.

Print Assumptions C69_trajectory.
Print Assumptions C69_batched.
Print Assumptions C69_timestep.
Print Assumptions C69_end_to_end_partial.
Print Assumptions C69_writer_partial.
Print Assumptions C69_user_partial.
Print Assumptions C69_user_refuted.
Print Assumptions C69_info_refuted.
Print Assumptions C69_modes_refuted.
Print Assumptions C70_answer.
Print Assumptions C70_source.
Print Assumptions C70_stable.
Print Assumptions C70_refresh_partial.
Print Assumptions C70_stale_refuted.
Print Assumptions C70_immediate_refuted.
