(** C77: Client.sample. *)
From Verif Require Import Base Trajectory Tensor TrajUtil ChunkerOptions Sample Stream Reactor PropTraj PropSample PropStream PropInsertStream
  Chunker PropChunker PropDelta TrajWriter TrajWriterProofs PropTrajWriter Writer WriterProofs WriterConf WriterData WriterPlace WriterOwn WriterTrace PropWriter PropClose PyClient PropInsert PropSigCheck.
Local Open Scope Z_scope.

(** ** Specification *)

(** All columns have a first dimension, of the same size [n]. *)
Definition rows_everywhere (n : nat) (cols : list tensor) : Prop := Forall (fun c => exists sh, t_shape c = n :: sh) cols.
Definition right_leaves (leaves : option nat) (cols : list tensor) : Prop := match leaves with Some k => k = length cols | None => True end.
(** The timesteps of [cols]: one for each row, in order; each has the information of
    the sample and row [i] of every column. *)
Definition are_timesteps (m : meta) (n : nat) (cols : list tensor) (l : list (meta * list tensor)) : Prop :=
  length l = n /\ forall i d, l !! i = Some d -> d.1 = m /\ length d.2 = length cols /\ forall c col, cols !! c = Some col -> exists r, d.2 !! c = Some r /\ is_row col i r.

(** ** Proof *)

Lemma dups_one (l : list nat) : length (remove_dups l) = 1%nat <-> l <> [] /\ exists n, Forall (eq n) l.
Proof.
  split.
  - intros H. destruct (remove_dups l) as [|n [|]] eqn:E; try done. assert (HE : forall x, x ∈ l <-> x = n). { intros x. rewrite <- elem_of_remove_dups, E. apply elem_of_list_singleton. }
    split; [intros ->; done|]. exists n. apply Forall_forall. intros x Hx. symmetry. by apply HE.
  - intros [Hne [n H]]. assert (HE : forall x, x ∈ remove_dups l <-> x = n).
    { intros x. rewrite elem_of_remove_dups. split; [intros Hx; rewrite Forall_forall in H; symmetry; by apply H|]. intros ->. destruct l as [|y l]; [done|]. apply Forall_cons in H as [-> _]. left. }
    pose proof (NoDup_remove_dups l) as ND. destruct (remove_dups l) as [|a [|b r]]; [exfalso; assert (n ∈ []) as X by (by apply HE); by apply elem_of_nil in X|done|].
    assert (a = n) by (apply HE; left). assert (b = n) by (apply HE; right; left). subst. apply NoDup_cons in ND as [ND _]. exfalso. apply ND. left.
Qed.
Lemma lens_some cols ls : mapM py_len cols = Some ls <-> Forall2 (fun c n => head (t_shape c) = Some n) cols ls.
Proof. apply mapM_Some. Qed.
Lemma lens_equal cols ls n : mapM py_len cols = Some ls -> Forall (eq n) ls -> rows_everywhere n cols.
Proof.
  rewrite lens_some. intros H HF. induction H as [|c k cols ls H H2 IH]; [constructor|]. apply Forall_cons in HF as [-> HF]. constructor; [|by apply IH]. destruct (t_shape c) as [|d sh]; [done|]. injection H as ->. by exists sh.
Qed.
Lemma equal_lens cols n : rows_everywhere n cols -> mapM py_len cols = Some (replicate (length cols) n).
Proof. intros H. apply lens_some. induction H as [|c cols [sh H] _ IH]; [constructor|]. cbn. constructor; [by rewrite H|done]. Qed.
Lemma row_some i n cols : rows_everywhere n cols -> Forall tensor_ok cols -> (i < n)%nat -> exists row, mapM (fun c => Sample.sub_slice c i) cols = Some row /\ length row = length cols /\
  forall c col, cols !! c = Some col -> exists r, row !! c = Some r /\ is_row col i r.
Proof.
  intros H HO Hi. induction H as [|t cols [sh H] _ IH]; [by exists []|]. apply Forall_cons in HO as [[HO _] HO2]. destruct (IH HO2) as (row & E & L & R). assert (ES : Sample.sub_slice t i = Some (mkTensor (t_ty t) sh (take (Tensor.elements sh) (drop (i * Tensor.elements sh) (t_data t))))) by (unfold Sample.sub_slice; rewrite H; by rewrite decide_True).
  cbn [mapM]. rewrite ES. cbn [mbind option_bind]. rewrite E. cbn.
  eexists. split; [reflexivity|]. split; [cbn; by rewrite L|]. intros [|c] col; cbn; [|by apply R]. intros [= <-]. eexists. split; [reflexivity|]. exists n, sh. cbn. split; [done|]. split; [done|]. split; [done|]. split; [done|].
  rewrite H in HO. change (Tensor.elements (n :: sh)) with (n * Tensor.elements sh)%nat in HO. split.
  - rewrite take_length, drop_length, HO. nia.
  - intros j Hj. by rewrite lookup_take, lookup_drop.
Qed.
Lemma mapM_seq {A} (f : nat -> option A) (Q : nat -> A -> Prop) k : (forall i, (i < k)%nat -> exists x, f i = Some x /\ Q i x) -> exists l, mapM f (seq 0 k) = Some l /\ length l = k /\ forall i x, l !! i = Some x -> Q i x.
Proof.
  intros H. assert (G : forall k b, (forall i, (b <= i < b + k)%nat -> exists x, f i = Some x /\ Q i x) -> exists l, mapM f (seq b k) = Some l /\ length l = k /\ forall i x, l !! i = Some x -> Q (b + i)%nat x).
  { clear. induction k as [|k IH]; intros b H; [exists []; split; [done|]; split; [done|]; intros i x; by rewrite lookup_nil|].
    destruct (H b) as (x & E & HQ); [lia|]. destruct (IH (S b)) as (l & El & Ll & Hl); [intros i Hi; apply H; lia|]. cbn [seq mapM]. rewrite E. cbn [mbind option_bind]. rewrite El. cbn.
    exists (x :: l). split; [done|]. split; [cbn; by rewrite Ll|]. intros [|i] y; cbn; [intros [= <-]; by rewrite Nat.add_0_r|]. intros Hy. rewrite <- plus_n_Sm. by apply (Hl i). }
  destruct (G k 0%nat) as (l & E & L & HQ); [intros i Hi; apply H; lia|]. by exists l.
Qed.

(** ** C77 *)

(** A sample is split into timesteps if its columns have equal numbers of rows; the
    timesteps are those rows. *)
Theorem C77_split leaves m cols n : Forall tensor_ok cols -> cols <> [] -> rows_everywhere n cols -> right_leaves leaves cols ->
  exists l, sample_round true leaves (inr (m, cols)) = inr (YTimesteps l) /\ are_timesteps m n cols l.
Proof.
  intros HO Hne HR HL. unfold sample_round, split_timesteps. rewrite (equal_lens _ _ HR).
  rewrite (proj2 (dups_one _)) by (split; [by destruct cols|exists n; apply Forall_forall; by intros x [-> _]%elem_of_replicate]). cbn [negb Nat.eqb].
  assert (default 0%nat (head (replicate (length cols) n)) = n) as -> by (by destruct cols).
  destruct (mapM_seq (fun i => row ← mapM (fun c => Sample.sub_slice c i) cols; row ← unflatten leaves row; Some (m, row))
    (fun i d => d.1 = m /\ length d.2 = length cols /\ forall c col, cols !! c = Some col -> exists r, d.2 !! c = Some r /\ is_row col i r) n) as (l & E & L & Q).
  { intros i Hi. destruct (row_some i n cols HR HO Hi) as (row & E & L & R). exists (m, row). split; [|done]. rewrite E. cbn [mbind option_bind]. unfold unflatten. destruct leaves as [k|]; [|done]. cbn in HL. by rewrite L, HL, Nat.eqb_refl. }
  rewrite E. exists l. done.
Qed.
(** In all other cases the generator raises: TypeError if a column has no dimensions
    (it was squeezed), ValueError if the numbers of rows differ or there is no
    column. *)
Theorem C77_split_fails leaves m cols y : sample_round true leaves (inr (m, cols)) = inr y -> cols <> [] /\ exists n, rows_everywhere n cols.
Proof.
  unfold sample_round, split_timesteps. destruct (mapM py_len cols) as [ls|] eqn:E; [|done]. destruct (Nat.eqb_spec (length (remove_dups ls)) 1) as [Hd|Hd]; cbn [negb]; [|done]. intros _. apply dups_one in Hd as [Hne [n Hn]]. split; [intros ->; cbn in E; by injection E as <-|]. exists n. by eapply lens_equal.
Qed.
Theorem C77_split_raises leaves m cols : (exists c, c ∈ cols /\ t_shape c = []) -> sample_round true leaves (inr (m, cols)) = inl RTypeError.
Proof.
  intros (c & Hc & Hs). unfold sample_round, split_timesteps. destruct (mapM py_len cols) as [ls|] eqn:E; [|done]. apply lens_some in E. apply elem_of_list_lookup in Hc as [i Hi]. destruct (Forall2_lookup_l _ _ _ _ _ E Hi) as (n & _ & Hn). by rewrite Hs in Hn.
Qed.

(** Without emit_timesteps the columns are yielded as they are. *)
Theorem C77_trajectory leaves m cols : right_leaves leaves cols -> sample_round false leaves (inr (m, cols)) = inr (YTrajectory m cols).
Proof. unfold sample_round, unflatten. destruct leaves as [k|]; [|done]. intros ->. by rewrite Nat.eqb_refl. Qed.

(** The generator: the samples are yielded in the order in which the sampler gives
    them, at most [num] of them; it ends normally after exactly [num]; it raises what
    the first failing round raises; otherwise the sampler has not answered yet. *)
Theorem C77_generator emit leaves num pops l e : sample_loop emit leaves num pops = (l, e) ->
  (forall i y, l !! i = Some y -> exists q, pops !! i = Some q /\ sample_round emit leaves q = inr y) /\ (length l <= num)%nat /\
  match e with
  | Some None => length l = num
  | Some (Some r) => (length l < num)%nat /\ exists q, pops !! length l = Some q /\ sample_round emit leaves q = inl r
  | None => (length l < num)%nat /\ length pops = length l
  end.
Proof.
  revert pops l e. induction num as [|num IH]; intros pops l e; cbn [sample_loop].
  - intros [= <- <-]. split; [intros i y; by rewrite lookup_nil|done].
  - destruct pops as [|q pops]; [intros [= <- <-]; split; [intros i y; by rewrite lookup_nil|cbn; split; [lia|split; [lia|done]]]|].
    destruct (sample_round emit leaves q) as [r|y] eqn:E.
    + intros [= <- <-]. split; [intros i y; by rewrite lookup_nil|]. cbn. split; [lia|]. split; [lia|]. by exists q.
    + destruct (sample_loop emit leaves num pops) as [l' e'] eqn:El. intros [= <- <-]. destruct (IH _ _ _ El) as (H1 & H2 & H3). split; [|split; [cbn; lia|]].
      * intros [|i] z; cbn; [intros [= <-]; by exists q|apply H1].
      * destruct e' as [[r|]|]; cbn; [destruct H3 as [? ?]; split; [lia|done]|lia|destruct H3; split; lia].
Qed.

Lemma row_slice t i r : is_row t i r -> Sample.sub_slice t i = Some r.
Proof.
  intros (d & sh & H1 & H2 & H3 & H4 & H5 & H6). unfold Sample.sub_slice. rewrite H1, decide_True by done. destruct r as [ty shr rd]. cbn in *. subst. f_equal. f_equal. apply list_eq. intros j.
  destruct (decide (j < Tensor.elements sh)%nat) as [Hj|Hj]; [rewrite lookup_take, lookup_drop by done; by rewrite H6|]. rewrite lookup_take_ge by lia. symmetry. apply lookup_ge_None. lia.
Qed.
Lemma rows_unique m n cols l l' : are_timesteps m n cols l -> are_timesteps m n cols l' -> l = l'.
Proof.
  intros [L1 H1] [L2 H2]. apply list_eq. intros i. destruct (l !! i) as [d|] eqn:E, (l' !! i) as [d'|] eqn:E'; [|apply lookup_lt_Some in E; apply lookup_ge_None in E'; lia|apply lookup_lt_Some in E'; apply lookup_ge_None in E; lia|done].
  destruct (H1 i d E) as (A1 & A2 & A3), (H2 i d' E') as (B1 & B2 & B3). destruct d as [dm dr], d' as [dm' dr']. cbn in *. subst. do 2 f_equal. apply list_eq. intros c.
  destruct (cols !! c) as [col|] eqn:Ec.
  - destruct (A3 c col Ec) as (r & -> & Hr%row_slice), (B3 c col Ec) as (r' & -> & Hr'%row_slice). congruence.
  - apply lookup_ge_None in Ec. rewrite !lookup_ge_None_2 by lia. done.
Qed.
Lemma split_from m n cols l : cols <> [] -> rows_everywhere n cols -> are_timesteps m n cols l -> split_timesteps None m cols = inr l.
Proof.
  intros Hne HR [HL HT]. unfold split_timesteps. rewrite (equal_lens _ _ HR).
  rewrite (proj2 (dups_one _)) by (split; [by destruct cols|exists n; apply Forall_forall; by intros x [-> _]%elem_of_replicate]). cbn [negb Nat.eqb].
  assert (default 0%nat (head (replicate (length cols) n)) = n) as -> by (by destruct cols).
  destruct (mapM_seq (fun i => row ← mapM (fun c => Sample.sub_slice c i) cols; row ← unflatten None row; Some (m, row)) (fun i d => l !! i = Some d) n) as (l' & -> & L & Q).
  { intros i Hi. destruct (lookup_lt_is_Some_2 l i) as [[dm row] Hd]; [lia|]. exists (dm, row). split; [|done]. destruct (HT i _ Hd) as (A1 & A2 & A3). cbn in A1, A2, A3. subst dm.
    assert (mapM (fun c => Sample.sub_slice c i) cols = Some row) as ->; [|done]. apply mapM_Some. apply Forall2_same_length_lookup_2; [done|]. intros c x y Hx Hy. destruct (A3 c x Hx) as (r & Hr & Hr2%row_slice). congruence. }
  f_equal. apply list_eq. intros i. destruct (l' !! i) as [d|] eqn:E; [by rewrite (Q i d E)|]. apply lookup_ge_None in E. symmetry. apply lookup_ge_None. lia.
Qed.
(** The same timesteps as Sampler::GetNextTimestep gives (C44), if the columns are
    divided into pieces alike and none is squeezed. *)
Theorem C77_like_sampler m cols ds : cols <> [] -> Forall PropSample.column_ok cols -> same_split ds cols ->
  exists s ts outs, make_sample m cols (replicate (length cols) false) = Some s /\ as_trajectory s = SROk (m, ts) /\ timesteps s outs /\
    sample_round true None (inr (m, ts)) = inr (YTimesteps outs).
Proof.
  intros Hne Hok Hsp. destruct (C44_timesteps_partial m cols (replicate (length cols) false) ds Hne Hok Hsp) as (s & bs & outs & E1 & E2 & E3 & E4 & E5 & E6 & E7).
  exists s, bs, outs. split; [done|]. assert (Hbs : bs <> []) by (intros ->; destruct cols; done). assert (HS : s_squeeze s = replicate (length cols) false /\ s_meta s = m).
  { unfold make_sample in E1. destruct cols as [|[|t ts] cs]; [done|done|]. cbn zeta in E1. destruct (is_composed_of_timesteps _); by injection E1 as <-. }
  destruct HS as [HS HM]. unfold as_batched_timesteps in E2. unfold as_trajectory. destruct (s_called s); [done|]. destruct (negb _); [done|]. destruct (unpack_columns (s_cols s)) as [ts|]; [|done]. injection E2 as _ ->.
  rewrite HS, squeeze_none, HM. split; [done|]. split; [done|].
  assert (HR : rows_everywhere (list_sum ds) bs).
  { apply Forall_lookup. intros c b Hb. pose proof (E6 c b Hb) as Hd. unfold dim0 in Hd. destruct outs as [|d outs]; [inversion E4|]. destruct (E7 0%nat d eq_refl) as (_ & _ & HX). destruct (HX c b Hb) as (r & _ & (d0 & sh & Hs & _)). rewrite Hs in *. exists sh. by rewrite <- Hd. }
  unfold sample_round. rewrite (split_from m (list_sum ds) bs outs Hbs HR); [done|]. split; [done|]. intros i d Hd. by destruct (E7 i d Hd) as (? & ? & ?).
Qed.

(** What was inserted by insert is sampled as a list of one timestep, which is the
    data. *)
Theorem C77_insert_sample data prios sigs flight key tr w pre r suf chunks c ii d mt : match flight with Some n => 1 <= n | None => True end ->
  lw_trace (insert_conf sigs flight) (lw_new (insert_conf sigs flight) key) tr w -> insert_run data prios tr -> data <> [] -> Forall tensor_ok data ->
  l_wire w = pre ++ r :: suf -> async_run (fun _ => true) ∅ pre = Some chunks -> async_insert_request (fun _ => true) chunks r = Some (IInsert c ii d) ->
  exists s cols, as_sample_local (Stream.mkSampled (mkSinfo mt (ii_traj ii) (replicate (length data) false)) d) = AOk s /\ as_trajectory s = SROk cols /\
    sample_round true (Some (length data)) (inr cols) = inr (YTimesteps [(mt, data)]).
Proof.
  intros Hfl H HR Hd HO Hw Hrun Hreq. destruct (C76_insert_sampled data prios sigs flight key Hfl tr w pre r suf chunks c ii d mt H HR Hd Hw Hrun Hreq) as (_ & s & E1 & E2).
  exists s, (mt, batched <$> data). split; [done|]. split; [done|].
  destruct (C77_split (Some (length data)) mt (batched <$> data) 1) as (l & -> & Hl).
  - apply Forall_fmap. eapply Forall_impl; [exact HO|]. intros t [H1 H2]. split; [cbn; rewrite H1; unfold Tensor.elements; cbn; lia|done].
  - by destruct data.
  - apply Forall_fmap. apply Forall_forall. intros t _. by exists (t_shape t).
  - cbn. by rewrite fmap_length.
  - do 2 f_equal. eapply rows_unique; [exact Hl|]. split; [done|]. intros [|i] x; [|done]. intros [= <-]. split; [done|]. split; [cbn; by rewrite fmap_length|]. intros k col. rewrite list_lookup_fmap. cbn [snd]. destruct (data !! k) as [t|] eqn:Ek; [|done]. intros [= <-]. exists t. split; [done|].
    rewrite Forall_lookup in HO. destruct (HO k t Ek) as [HL _]. exists 1%nat, (t_shape t). split; [done|]. split; [lia|]. split; [done|]. split; [done|]. split; [done|]. intros j Hj. done.
Qed.

(** ** The cache of signatures *)

(** Calls of _get_signature_for_table by one client, with what the server would
    answer at the time of each. *)
Fixpoint sig_calls (cache : gmap Z (option nat)) (l : list (gmap Z (option nat) * Z)) : list (option (option nat)) :=
  match l with
  | [] => []
  | (info, table) :: l => let '(r, cache) := get_signature cache info table in r :: sig_calls cache l
  end.
(** Every call is answered from the first answer of the server that named a table. *)
Theorem C77_signature_cached l i info table r : Forall (fun x => x.1 <> ∅) l -> l !! i = Some (info, table) -> sig_calls ∅ l !! i = Some r ->
  exists info0 table0, head l = Some (info0, table0) /\ r = info0 !! table.
Proof.
  destruct l as [|[info0 table0] l]; [done|]. intros HF Hl Hr. exists info0, table0. split; [done|]. apply Forall_cons in HF as [Hne _]. cbn in Hne. cbn [sig_calls get_signature] in Hr. unfold get_signature in Hr. rewrite decide_True in Hr by done.
  assert (G : forall l i info table r, l !! i = Some (info, table) -> sig_calls info0 l !! i = Some r -> r = info0 !! table).
  { clear -Hne. induction l as [|[a t] l IH]; intros i info table r Hl Hr; [done|]. cbn [sig_calls] in Hr. unfold get_signature in Hr. rewrite decide_False in Hr by done. destruct i as [|i]; cbn in *; [congruence|by eapply IH]. }
  destruct i as [|i]; cbn in *; [congruence|by eapply G].
Qed.
(** So a table that was added when the server was started again is not found by a
    client that lives longer than the server. *)
Theorem C77_signature_refuted : ~ (forall l i info table r, Forall (fun x => x.1 <> ∅) l -> l !! i = Some (info, table) -> sig_calls ∅ l !! i = Some r -> r = info !! table).
Proof.
  intros H. specialize (H [({[5 := None]}, 5); ({[5 := None; 6 := None]}, 6)] 1%nat {[5 := None; 6 := None]} 6 None). discriminate H; [|done|].
  - constructor; [apply insert_non_empty|]. constructor; [apply insert_non_empty|constructor].
  - vm_compute. reflexivity.
Qed.

(** ** Runs *)

(** A trajectory of two columns of three rows. *)
Definition cex_cols : list tensor := [vec [1; 2; 3]; mkTensor (TOther 1) [3; 2]%nat [1; 2; 2; 3; 3; 4]].
Example C77_example : Forall tensor_ok cex_cols /\ rows_everywhere 3 cex_cols /\
  sample_loop true (Some 2%nat) 2 [inr (ex_meta 9, cex_cols); inr (ex_meta 8, [vec [1]; vec [1; 2]])] =
  ([YTimesteps [(ex_meta 9, [scalar 1; vec [1; 2]]); (ex_meta 9, [scalar 2; vec [2; 3]]); (ex_meta 9, [scalar 3; vec [3; 4]])]], Some (Some RValueError)).
Proof.
  split; [|split; [|vm_compute; reflexivity]].
  - assert (forallb tensor_ok_b cex_cols = true) as H by (vm_compute; reflexivity). apply Is_true_true, forallb_True in H. eapply Forall_impl; [exact H|]. intros t Ht%Is_true_true. by apply tensor_ok_b_sound.
  - repeat constructor; by eexists.
Qed.
(** A trajectory with a column that is a single step (squeezed) cannot be sampled with
    emit_timesteps, the default. *)
Example C77_squeezed_example : sample_round true None (inr (ex_meta 9, [scalar 7])) = inl RTypeError /\ sample_round true None (inr (ex_meta 9, [])) = inl RValueError.
Proof. split; reflexivity. Qed.
Example C77_like_sampler_example : even <> [] /\ Forall PropSample.column_ok even /\ same_split [2; 1]%nat even.
Proof. apply C44_example. Qed.
(** C77_insert_sample: the run of C76_sampled_example. *)
Example C77_insert_example : let R := lrun iex_conf iex_two in
  exists pre r chunks c ii d, lw_trace iex_conf (lw_new iex_conf 100) R.2 R.1 /\ insert_run iex_data iex_prios R.2 /\ l_wire R.1 = pre ++ r :: [] /\
  async_run (fun _ => true) ∅ pre = Some chunks /\ async_insert_request (fun _ => true) chunks r = Some (IInsert c ii d) /\ ii_table ii = 6.
Proof.
  intros R. set (st := store_of (async_insert_request (fun _ => true) (default ∅ (async_run (fun _ => true) ∅ (removelast (l_wire R.1)))) (default (mkIreq [] None) (last (l_wire R.1))))).
  exists (removelast (l_wire R.1)), (default (mkIreq [] None) (last (l_wire R.1))), (default ∅ (async_run (fun _ => true) ∅ (removelast (l_wire R.1)))), st.1.1, (default (mkIitem 0 0 [] [] false) st.1.2), st.2.
  split; [apply lrun_trace|]. split; [apply insert_run_sound; vm_compute; reflexivity|]. split; [vm_compute; reflexivity|]. split; [vm_compute; reflexivity|]. split; vm_compute; reflexivity.
Qed.
Example C77_signature_example : Forall (fun x : gmap Z (option nat) * Z => x.1 <> ∅) [({[5 := Some 2%nat]}, 5); ({[5 := None]}, 5)] /\ sig_calls ∅ [({[5 := Some 2%nat]}, 5); ({[5 := None]}, 5)] = [Some (Some 2%nat); Some (Some 2%nat)].
Proof. split; [constructor; [apply insert_non_empty|]; constructor; [apply insert_non_empty|constructor]|vm_compute; reflexivity]. Qed.

Print Assumptions C77_split.
Print Assumptions C77_split_fails.
Print Assumptions C77_split_raises.
Print Assumptions C77_trajectory.
Print Assumptions C77_generator.
Print Assumptions C77_like_sampler.
Print Assumptions C77_insert_sample.
Print Assumptions C77_signature_cached.
Print Assumptions C77_signature_refuted.
