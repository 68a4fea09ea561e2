(** C85: what a user of the Python TrajectoryWriter appends is what is sampled. *)
From stdpp Require Import strings gmap.
From Verif Require Import Base Signature PyWriter PyWriterProofs PropPyWriter Trajectory Table TableProofs Tensor TrajUtil ChunkerOptions Sample Stream PropStream Reactor
  PropTraj PropInsertStream Chunker PropChunker TrajWriter TrajWriterProofs PropTrajWriter PropChunkKeys PropSystem PropSystemAll PyTraj PyTrajProofs PyTrajInv.

(** ** Specification *)

(** [out] is the tensor with the values that the user asked for: the value itself
    for an index, else the stack of the values. *)
Definition wanted (tc : tcol) (out : tensor) : Prop :=
  exists ts, tc_want tc = Some <$> ts /\
    if tc_squeeze tc then ts = [out] else exists ty sh, Forall (same_kind ty sh) ts /\ out = stacked ty sh ts.

Definition as_column (tc : tcol) : list ref * bool := (tc_refs tc, tc_squeeze tc).

(** ** Invariant *)

Definition agrees (val : ref -> tensor) (m : cmap) : Prop := forall r t, tensor_at m r = Some t -> val r = t.
Definition val_of (m : cmap) (r : ref) : tensor := default (mkTensor (TOther 0) [] []) (tensor_at m r).
Lemma agrees_of m : agrees (val_of m) m.
Proof. intros r t H. unfold val_of. by rewrite H. Qed.
Lemma agrees_le val m m' : cols_le m m' -> agrees val m' -> agrees val m.
Proof. intros L H r t Ht. apply H. by eapply tensor_at_le. Qed.

Definition taken_ok (m : cmap) (tc : tcol) : Prop :=
  Forall2 (fun r v => exists t, tensor_at m r = Some t /\ v = Some t) (tc_refs tc) (tc_want tc) /\
  Forall (fun r => is_Some (cell_at m r)) (tc_refs tc) /\
  (tc_plain tc = true -> contiguous m (tc_refs tc)).

Definition step_ok (top : bool) (d : ptree (option tensor)) : Prop := wf_tree d /\ is_leaf d = top /\ exists p, is_Some (at_path d p).

Definition call_ok (top : bool) (c : client) : Prop :=
  match c_call c with
  | None => w_user (c_cxx c) = UIdle
  | Some (CAppending d partial fd refs) => exists rest,
      w_user (c_cxx c) = UAppend (length refs) rest (negb partial) (w_ep (c_cxx c)) (w_stp (c_cxx c)) /\
      drop (length refs) fd = rest /\ (length refs <= length fd)%nat /\ passed (c_py c) d = Some fd /\ step_ok top d /\
      pend_refs (w_cols (c_cxx c)) (PyWriter.w_cols (c_py c)) (w_open (c_py c)) (w_stp (c_cxx c)) fd refs
  | Some CFlushing => exists n, w_user (c_cxx c) = UWait n FinFlush
  | Some (CEnding clear) => (exists n, w_user (c_cxx c) = UWait n (FinEpisode clear)) /\ ep_cur (ep_of (c_log c)) = None
  end.

Record cinv (top : bool) (c : client) : Prop := {
  ci_win : winv (c_cxx c);
  ci_trace : forall val, agrees val (w_cols (c_cxx c)) -> py_trace val top (c_log c) (c_py c);
  ci_rows : rows (w_cols (c_cxx c)) (PyWriter.w_cols (c_py c)) (w_open (c_py c)) (w_stp (c_cxx c));
  ci_call : call_ok top c;
  ci_taken : Forall (taken_ok (w_cols (c_cxx c))) (c_taken c);
  ci_items : forall key tcs, (key, tcs) ∈ c_items c -> Forall (taken_ok (w_cols (c_cxx c))) tcs /\
    exists it, (it, as_column <$> tcs) ∈ w_created (c_cxx c) /\ wi_key it = key;
  ci_created : forall it cols, (it, cols) ∈ w_created (c_cxx c) -> exists tcs, cols = as_column <$> tcs /\ (wi_key it, tcs) ∈ c_items c }.

Lemma contiguous_le m m' refs : cols_le m m' -> Forall (fun r => is_Some (cell_at m r)) refs -> contiguous m refs -> contiguous m' refs.
Proof.
  intros L A H i r r' c' d' Hi Hi' Hc' Hd' E. rewrite Forall_forall in A. destruct (A _ (elem_of_list_lookup_2 _ _ _ Hi)) as [c Hc], (A _ (elem_of_list_lookup_2 _ _ _ Hi')) as [d Hd].
  apply (H i r r' c d Hi Hi' Hc Hd). destruct (cell_le_at _ _ _ _ L Hc) as (c2 & E1 & (E2 & _)), (cell_le_at _ _ _ _ L Hd) as (d2 & E3 & (E4 & _)). congruence.
Qed.
Lemma taken_le m m' tc : cols_le m m' -> taken_ok m tc -> taken_ok m' tc.
Proof.
  intros L (H1 & H2 & H3). split; [|split].
  - eapply Forall2_impl; [exact H1|]. intros r v (t & Ht & ->). exists t. split; [by eapply tensor_at_le|done].
  - eapply Forall_impl; [exact H2|]. intros r [c Hc]. destruct (cell_le_at _ _ _ _ L Hc) as (c' & Hc' & _). by eexists.
  - intros Hp. by apply (contiguous_le m m'); [..|apply H3].
Qed.

(** Nothing but the C++ writer changes. *)
Lemma frame_inv top c w : cinv top c -> winv w -> cols_le (w_cols (c_cxx c)) (w_cols w) -> nx (w_cols (c_cxx c)) (w_cols w) ->
  w_stp w = w_stp (c_cxx c) -> w_created w = w_created (c_cxx c) -> forall call,
  call_ok top (with_cxx c w call) -> cinv top (with_cxx c w call).
Proof.
  intros [I T R C K It Cr] W L N Es Ec call Hc. constructor; cbn [with_cxx c_cxx c_py c_log c_taken c_items]; rewrite ?Es, ?Ec; try done.
  - intros val Hv. apply T. by eapply agrees_le.
  - by apply (rows_mono (w_cols (c_cxx c))).
  - eapply Forall_impl; [exact K|]. intros tc. by apply taken_le.
  - intros key tcs H. destruct (It _ _ H) as [H1 H2]. split; [|done]. eapply Forall_impl; [exact H1|]. intros tc. by apply taken_le.
Qed.

(** The end of append. *)
Lemma log_append_inv top c w d (partial : bool) (call : PyWriter.cxx tensor ref) :
  winv w -> (forall val, agrees val (w_cols w) -> py_trace val top (c_log c) (c_py c)) -> w_user w = UIdle ->
  Forall (taken_ok (w_cols w)) (c_taken c) ->
  (forall key tcs, (key, tcs) ∈ c_items c -> Forall (taken_ok (w_cols w)) tcs /\ exists it, (it, as_column <$> tcs) ∈ w_created w /\ wi_key it = key) ->
  (forall it cols, (it, cols) ∈ w_created w -> exists tcs, cols = as_column <$> tcs /\ (wi_key it, tcs) ∈ c_items c) ->
  step_ok top d -> (forall val, agrees val (w_cols w) -> honest val call) ->
  (match passed (c_py c) d with
   | None => rows (w_cols w) (PyWriter.w_cols (c_py c)) (w_open (c_py c)) (w_stp w)
   | Some fd => match call fd with
     | None => rows (w_cols w) (PyWriter.w_cols (c_py c)) (w_open (c_py c)) (w_stp w)
     | Some refs => exists stp, w_stp w = (if partial then stp else stp + 1) /\ rows (w_cols w) (PyWriter.w_cols (c_py c)) (w_open (c_py c)) stp /\
         pend_refs (w_cols w) (PyWriter.w_cols (c_py c)) (w_open (c_py c)) stp fd refs
     end
   end) ->
  cinv top (log_append c w d partial call).
Proof.
  intros W T U K It Cr (D1 & D2 & D3) Hh Hrow. unfold log_append. destruct (append (c_py c) d partial call) as [r p] eqn:E.
  assert (Hok : forall val, agrees val (w_cols w) -> py_ok val top (c_log c) (PropPyWriter.EAppend d partial call)).
  { intros val Hv. split; [done|]. split; [by apply Hh|]. done. }
  constructor; cbn [c_cxx c_py c_log c_taken c_items c_call]; try done.
  - intros val Hv. apply (py_snoc val top (c_log c) (c_py c)); [by apply T|by apply Hok|exact E].
  - destruct (append_run (c_py c) d) as (w2 & ext & C2 & X2 & O2 & Hrun).
    assert (Fail : forall stp, rows (w_cols w) (PyWriter.w_cols (c_py c)) (w_open (c_py c)) stp -> rows (w_cols w) (PyWriter.w_cols w2) (w_open w2) stp).
    { intros stp H. rewrite C2, O2. by apply rows_ext. }
    destruct (passed (c_py c) d) as [fd|] eqn:Ep.
    2: { destruct (Hrun partial call) as (r' & _ & E'). rewrite E' in E. injection E as <- <-. by apply Fail. }
    destruct Hrun as [Ere Hrun]. rewrite Hrun in E. destruct (call fd) as [refs|] eqn:Ec.
    2: { injection E as <- <-. by apply Fail. }
    destruct Hrow as (stp & -> & R & P).
    pose proof (agrees_of (w_cols w)) as Hv. set (val := val_of (w_cols w)) in *.
    destruct (trace_inv val top _ _ (T val Hv)) as [ps Hinv].
    destruct (append_inv val top (c_log c) (c_py c) ps d partial (fun _ => None) PyCxxError w2 Hinv) as (_ & ps2 & Hinv2).
    { split; [done|]. split; [by intros ? ?|done]. }
    { exact (Hrun partial (fun _ => None)). }
    pose proof (v_core _ _ _ _ _ Hinv2) as Hcore.
    assert (Hlen : length fd = length (PyWriter.w_cols w2)).
    { unfold reorder in Ere. apply reorder_into_length in Ere. rewrite Ere, replicate_length, (k_size _ _ _ Hcore), (k_len _ _ _ Hcore). done. }
    assert (Hlr : length refs = length fd). { rewrite <- (Hh val Hv fd refs Ec). by rewrite fmap_length. }
    destruct (add_refs (w_open w2) (PyWriter.w_cols w2) refs) as [cols|] eqn:Ea.
    + injection E as <- <-. cbn [PyWriter.w_cols w_open]. eapply (rows_append _ (PyWriter.w_cols w2) (w_open w2) stp fd refs); [| |congruence| |exact Ea].
      * by apply Fail.
      * rewrite C2, O2. by apply pend_ext.
      * intros Hop. rewrite (PropPyWriter.v_open _ _ _ _ _ Hinv2), ep_of_snoc in Hop. cbn [ep_step] in Hop.
        apply Forall_forall. intros col Hcol. apply elem_of_list_lookup in Hcol as [i Hcol].
        destruct (lookup_lt_is_Some_2 ps2 i) as [p Hp]; [rewrite <- (k_len _ _ _ Hcore); by eapply lookup_lt_Some|].
        pose proof (v_content _ _ _ _ _ Hinv2 i p col Hp Hcol) as Hc. rewrite ep_of_snoc in Hc. cbn [ep_step] in Hc. intros ->.
        apply (f_equal length) in Hc. rewrite !fmap_length in Hc. unfold ep_steps in Hc. rewrite app_length in Hc. destruct (ep_cur (ep_of (c_log c))); [cbn in Hc; lia|done].
    + exfalso. injection E as <- <-. destruct (append_inv val top (c_log c) (c_py c) ps d partial call PyRuntimeError w2 Hinv (Hok val Hv)) as [H _]; [|done].
      rewrite Hrun, Ec, Ea. done.
Qed.

Lemma pend_honest val m cols open stp fd refs : agrees val m -> pend_refs m cols open stp fd refs -> length refs = length fd -> honest val (call_with fd (Some refs)).
Proof.
  intros Hv P Hl fd' refs'. unfold call_with. case_bool_decide as E; [|done]. subst fd'. intros [= <-].
  apply list_eq. intros j. rewrite list_lookup_fmap. destruct (refs !! j) as [o|] eqn:Ej.
  - specialize (P j o Ej). destruct (fd !! j) as [[t|]|] eqn:Ef.
    + destruct P as (n & -> & Ht & _). cbn. by rewrite (Hv _ _ Ht).
    + by rewrite P.
    + apply lookup_lt_Some in Ej. apply lookup_ge_None in Ef. lia.
  - cbn. symmetry. apply lookup_ge_None. apply lookup_ge_None in Ej. lia.
Qed.
Lemma none_honest val fd : honest val (call_with fd None).
Proof. intros x refs. unfold call_with. by case_bool_decide. Qed.

Lemma ret_frame top c w : cinv top c -> winv w -> cols_le (w_cols (c_cxx c)) (w_cols w) -> w_created w = w_created (c_cxx c) ->
  (forall val, agrees val (w_cols w) -> py_trace val top (c_log c) (c_py c)) /\ Forall (taken_ok (w_cols w)) (c_taken c) /\
  (forall key tcs, (key, tcs) ∈ c_items c -> Forall (taken_ok (w_cols w)) tcs /\ exists it, (it, as_column <$> tcs) ∈ w_created w /\ wi_key it = key) /\
  (forall it cols, (it, cols) ∈ w_created w -> exists tcs, cols = as_column <$> tcs /\ (wi_key it, tcs) ∈ c_items c).
Proof.
  intros [I T R C K It Cr] W L Ec. rewrite Ec. split; [|split; [|split; [|done]]].
  - intros val Hv. apply T. by eapply agrees_le.
  - eapply Forall_impl; [exact K|]. intros tc. by apply taken_le.
  - intros key tcs H. destruct (It _ _ H) as [H1 H2]. split; [|done]. eapply Forall_impl; [exact H1|]. intros tc. by apply taken_le.
Qed.

Lemma run_inv top c e c' : cinv top c -> tw_enabled (c_cxx c) e -> c_step c (CRun e) = Some c' -> cinv top c'.
Proof.
  intros Hinv He E. cbn [c_step] in E. destruct (runs c e) eqn:Hruns; [|done].
  destruct (tw_step (c_cxx c) e) as [| |w ret] eqn:Es; [done|done|].
  pose proof (ci_win _ _ Hinv) as I. pose proof (ci_call _ _ Hinv) as C. pose proof (ci_rows _ _ Hinv) as R.
  assert (W : winv w) by (pose proof (tw_step_inv _ _ I He) as H; by rewrite Es in H).
  pose proof (tw_step_cols _ _ _ _ I He Es) as L. pose proof (tw_step_nx _ _ _ _ I He Es) as N.
  destruct (background e) eqn:Hb.
  - destruct (bg_frame _ _ _ _ Hb Es) as (F1 & F2 & F3 & F4 & F5). unfold call_ok in C. destruct (c_call c) as [[d partial fd refs| |clear]|] eqn:Ecall.
    + destruct F5 as [->|(? & ? & ->)]; [|cbn [runs] in Hruns; rewrite Ecall in Hruns; done].
      assert (E' : Some (with_cxx c w (Some (CAppending d partial fd refs))) = Some c') by (destruct e; done). injection E' as <-.
      apply frame_inv; try done. unfold call_ok. cbn [with_cxx c_call c_cxx c_py]. destruct C as (rest & C1 & C2 & C3 & C4 & C5 & C6). exists rest. rewrite F1, F2, F3.
      split_and!; try done. by apply (pend_mono (w_cols (c_cxx c))).
    + destruct F5 as [->|(? & ? & ->)]; [|cbn [runs] in Hruns; rewrite Ecall in Hruns; done]. injection E as <-. apply frame_inv; try done.
      unfold call_ok. cbn [with_cxx c_call c_cxx]. by rewrite F3.
    + destruct F5 as [->|(? & ? & ->)]; [|cbn [runs] in Hruns; rewrite Ecall in Hruns; done]. injection E as <-. apply frame_inv; try done.
      unfold call_ok. cbn [with_cxx c_call c_cxx c_log]. by rewrite F3.
    + injection E as <-. apply frame_inv; try done. unfold call_ok. cbn [with_cxx c_call c_cxx]. by rewrite F3.
  - destruct e; try done; cbn [tw_step] in Es.
    + (* EColumn *)
      unfold call_ok in C. destruct (c_call c) as [[d partial fd refs| |clear]|] eqn:Ecall.
      2: { destruct C as [n C]. unfold append_col in Es. rewrite C in Es. discriminate Es. }
      2: { destruct C as [[n C] _]. unfold append_col in Es. rewrite C in Es. discriminate Es. }
      2: { unfold append_col in Es. rewrite C in Es. discriminate Es. }
      destruct C as (rest & C1 & C2 & C3 & C4 & C5 & C6). cbn [tw_enabled] in He.
      pose proof (column_step _ _ _ _ _ _ _ I He C1 Es) as (Ecr & H). destruct rest as [|[t|] rest].
      * destruct H as (-> & Hm & Hs & Hu). injection E as <-.
        assert (Hl : length refs = length fd) by (apply (f_equal length) in C2; rewrite drop_length in C2; cbn in C2; lia).
        destruct (ret_frame top c w Hinv W L Ecr) as (T' & K' & It' & Cr'). apply log_append_inv; try done; rewrite ?Hm.
        -- intros val Hv. eapply pend_honest; [exact Hv|exact C6|done].
        -- rewrite C4. unfold call_with. rewrite bool_decide_true by done. exists (w_stp (c_cxx c)). split; [by destruct partial|]. split; [exact R|exact C6].
      * destruct H as (Hs & [(st & -> & Hst & Hu)|(-> & Hu & k & h & cl & Hk & Hnr & Ht & Hc & Hcs & Hck & Hp)]).
        -- injection E as <-. rewrite bool_decide_false by done. destruct (ret_frame top c w Hinv W L Ecr) as (T' & K' & It' & Cr'). apply log_append_inv; try done.
           ++ intros val _. apply none_honest.
           ++ rewrite C4. unfold call_with. rewrite bool_decide_true by done. rewrite Hs. by apply (rows_mono (w_cols (c_cxx c))).
        -- injection E as <-. apply frame_inv; try done. unfold call_ok. cbn [with_cxx c_call c_cxx c_py].
           assert (Hfd : fd !! length refs = Some (Some t)). { rewrite <- (Nat.add_0_r (length refs)), <- lookup_drop, C2. done. }
           exists rest. rewrite app_length. cbn [length]. rewrite Nat.add_1_r. split; [done|]. split; [|split; [by apply lookup_lt_Some in Hfd|split; [done|split; [done|]]]].
           { rewrite <- (drop_drop fd (length refs) 1) || idtac. apply (f_equal (drop 1)) in C2. rewrite drop_drop, Nat.add_1_r in C2. exact C2. }
           rewrite Hs. intros j o Hj. apply lookup_app_Some in Hj as [Hj|[Hge Hj]].
           ++ apply (pend_mono (w_cols (c_cxx c)) (w_cols w)) in C6; [by apply C6|done..].
           ++ apply list_lookup_singleton_Some in Hj as [Hz <-].
           assert (j = length refs) as -> by (assert (Hz' : (j - length refs = 0)%nat) by exact Hz; assert (Hge' : (length refs <= j)%nat) by exact Hge; lia). rewrite Hfd, Hnr. exists (length (k_cells k)). split; [done|]. split; [done|].
              exists cl. split; [done|]. split; [by intros; rewrite Hcs|]. intros col r c' Hcol Hpr Hc' Ek.
              unfold prev in Hpr. destruct (pos (w_open (c_py c)) col) as [|p] eqn:Epos; [done|]. destruct (R _ _ Hcol) as [R1 _]. destruct (R1 _ _ Hpr) as (Er & [d0 Hd0] & R3).
              destruct (cell_le_at _ _ _ _ L Hd0) as (d1 & Hd1 & (Ek1 & _)). assert (d1 = c') as -> by congruence.
              assert (Hk0 : ce_key d0 = k_next k) by congruence. pose proof (R3 _ _ _ Hd0 Hk Hk0) as Hst. rewrite Epos in Hst.
              unfold cell_at in Hd0. rewrite Er, Hk in Hd0. cbn [mbind option_bind] in Hd0. specialize (Hp _ _ Hd0 Hk0). rewrite Er, Hp; [done|lia].
      * destruct H as (-> & Hm & Hs & Hu & Hnr). injection E as <-. apply frame_inv; try done. unfold call_ok. cbn [with_cxx c_call c_cxx c_py].
        assert (Hfd : fd !! length refs = Some None). { rewrite <- (Nat.add_0_r (length refs)), <- lookup_drop, C2. done. }
        exists rest. rewrite app_length. cbn [length]. rewrite Nat.add_1_r. split; [done|]. split; [|split; [by apply lookup_lt_Some in Hfd|split; [done|split; [done|]]]].
        { apply (f_equal (drop 1)) in C2. rewrite drop_drop, Nat.add_1_r in C2. exact C2. }
        rewrite Hs, Hm. intros j o Hj. apply lookup_app_Some in Hj as [Hj|[Hge Hj]]; [by apply C6|].
        apply list_lookup_singleton_Some in Hj as [Hz <-].
           assert (j = length refs) as -> by (assert (Hz' : (j - length refs = 0)%nat) by exact Hz; assert (Hge' : (length refs <= j)%nat) by exact Hge; lia). by rewrite Hfd, Hnr.
    + (* EDone *)
      unfold call_ok in C. destruct (c_call c) as [[d partial fd refs| |clear]|] eqn:Ecall.
      * destruct C as (rest & C1 & _). unfold flush_done in Es. rewrite C1 in Es. discriminate Es.
      * destruct C as [n Hu]. destruct (done_step _ _ _ _ _ _ _ _ I Hu Es) as (st & -> & Ecr & Hu' & [Hs|(_ & ? & _)]); [|done]. injection E as <-.
        by apply frame_inv.
      * destruct C as [[n Hu] Hcur]. destruct (done_step _ _ _ _ _ _ _ _ I Hu Es) as (st & -> & Ecr & Hu' & Hend). injection E as <-.
        destruct (ret_frame top c w Hinv W L Ecr) as (T' & K' & It' & Cr'). unfold log_end. destruct (end_episode (c_py c) clear (bool_decide (st = Ok))) as [r p] eqn:Ee.
        constructor; cbn [c_cxx c_py c_log c_taken c_items]; try done.
        -- intros val Hv. apply (py_snoc val top (c_log c) (c_py c)); [by apply T'|by intros _|exact Ee].
        -- assert (Hopen : w_open (c_py c) = false).
           { pose proof (agrees_of (w_cols w)) as Hv. destruct (trace_inv _ _ _ _ (T' _ Hv)) as [ps Hi]. rewrite (PropPyWriter.v_open _ _ _ _ _ Hi), Hcur. done. }
           unfold end_episode in Ee. destruct Hend as [Hs|(-> & _ & Hbuf)].
           ++ assert (R' : rows (w_cols w) (PyWriter.w_cols (c_py c)) (w_open (c_py c)) (w_stp w)) by (rewrite Hs; by apply (rows_mono (w_cols (c_cxx c)))).
              destruct (bool_decide _); cbn [negb] in Ee; injection Ee as <- <-; [|done]. destruct clear; [|done]. cbn [PyWriter.w_cols w_open]. by eapply rows_clear.
           ++ rewrite bool_decide_true in Ee by done. cbn [negb] in Ee. injection Ee as <- <-.
              assert (R' : rows (w_cols w) (PyWriter.w_cols (c_py c)) (w_open (c_py c)) (w_stp (c_cxx c))) by (by apply (rows_mono (w_cols (c_cxx c)))).
              destruct clear; cbn [PyWriter.w_cols w_open]; [by eapply rows_clear|]. eapply rows_end; [exact (v_cols w W)|exact Hbuf|exact R'].
      * unfold flush_done in Es. rewrite C in Es. discriminate Es.
Qed.

Lemma passed_ok (w : py) d fd : wf_tree d -> (forall p t, value_at d p = Some t -> tensor_ok t) -> passed w d = Some fd ->
  Forall (fun o => match o with Some t => tensor_ok t | None => True end) fd.
Proof.
  intros Hd Ht E. destruct (append_run w d) as (w2 & ext & _ & _ & _ & H). rewrite E in H. destruct H as [H _].
  apply Forall_forall. intros [t|] Hx; [|done]. unfold reorder in H. destruct (reorder_into_elem _ _ _ _ _ H Hx) as [H1|(p & H1)].
  - apply elem_of_replicate in H1 as [? _]. done.
  - apply (Ht p t). unfold value_at. by rewrite (proj1 (flat_spec d p (Some t) Hd) H1).
Qed.

Lemma take_ok top c p s h col refs : cinv top c -> history (c_py c) = Some h -> at_path h p = Some col -> get_refs col s = Some refs ->
  taken_ok (w_cols (c_cxx c)) (mkTcol refs (squeezes s) (asked (c_log c) p s) (plain s)).
Proof.
  intros [I T R _ _ _ _] Hh Hp Hg. set (m := w_cols (c_cxx c)) in *. pose proof (agrees_of m) as Hv. destruct (trace_inv _ _ _ _ (T _ Hv)) as [ps Hi].
  destruct (history_at _ _ _ _ _ _ (v_core _ _ _ _ _ Hi) Hh Hp) as (i & Hcol & Hps). pose proof (v_content _ _ _ _ _ Hi i p col Hps Hcol) as Hc.
  destruct (R _ _ Hcol) as [R1 R2]. apply get_pick in Hg.
  assert (Hcell : Forall (fun r => is_Some (cell_at m r)) refs).
  { apply Forall_forall. intros r Hr. assert (Hin : Some r ∈ pick s col) by (rewrite Hg; by apply elem_of_list_fmap_1). apply pick_elem, elem_of_list_lookup in Hin as [j Hj].
    by destruct (R1 _ _ Hj) as (_ & ? & _). }
  split; [|split; [exact Hcell|]]; cbn [tc_refs tc_want tc_plain].
  - unfold asked. rewrite <- Hc, pick_fmap, Hg, <- list_fmap_compose. apply Forall2_fmap_r. apply Forall_Forall2_diag. eapply Forall_impl; [exact Hcell|].
    intros r [cl Hcl]. assert (Ht : is_Some (tensor_at m r)).
    { destruct (cell_col _ _ _ Hcl) as (k & h0 & Hk). destruct (proj1 (v_cols _ I) _ _ _ Hk) as (IK & _). unfold cell_at in Hcl. unfold tensor_at. fold m in Hk. rewrite Hk in *. cbn [mbind option_bind fst snd] in *.
      destruct (lookup_lt_is_Some_2 h0 r.2) as [x ->]; [rewrite (ki_len _ _ IK); by eapply lookup_lt_Some|by eexists]. }
    destruct Ht as [t Ht]. exists t. split; [done|]. cbn. by rewrite (Hv _ _ Ht).
  - intros Hpl. destruct (pick_plain s col Hpl) as [o Ho]. intros j r r' c1 c2 Hj Hj' Hc1 Hc2 Ek.
    destruct (Ho j (Some r) (Some r')) as [H1 H2]; [by rewrite Hg, list_lookup_fmap, Hj|by rewrite Hg, list_lookup_fmap, Hj'|]. by apply (R2 (o + j)%nat r r' c1 c2).
Qed.
Lemma sub_ok m tc s refs : taken_ok m tc -> get_refs (Some <$> tc_refs tc) s = Some refs -> taken_ok m (mkTcol refs (squeezes s) (pick s (tc_want tc)) (tc_plain tc && plain s)).
Proof.
  intros (H1 & H2 & H3) Hg. apply get_pick in Hg. rewrite pick_fmap in Hg. apply (inj (fmap Some)) in Hg.
  assert (Hz : exists ts, mapM (tensor_at m) (tc_refs tc) = Some ts /\ tc_want tc = Some <$> ts).
  { revert H1. generalize (tc_refs tc), (tc_want tc). induction 1 as [|r v rs vs (t & Ht & ->) H IH]; [by exists []|]. destruct IH as (ts & E1 & ->). exists (t :: ts). cbn.
    rewrite Ht. cbn. by rewrite E1. }
  split; [|split]; cbn [tc_refs tc_want tc_plain].
  - destruct Hz as (ts & E1 & ->). rewrite <- Hg.
    assert (Ew : Some <$> ts = tensor_at m <$> tc_refs tc).
    { apply mapM_Some in E1. revert E1. generalize (tc_refs tc). clear. intros rs H. induction H as [|r t rs ts' E H IH]; [done|]. cbn. by rewrite E, IH. }
    rewrite Ew, pick_fmap. apply Forall2_fmap_r, Forall_Forall2_diag, Forall_forall. intros r Hr. apply pick_elem in Hr. apply elem_of_list_lookup in Hr as [j Hj].
    destruct (Forall2_lookup_l _ _ _ _ _ H1 Hj) as (v & _ & t & Ht & _). exists t. done.
  - rewrite <- Hg. apply Forall_forall. intros r Hr. apply pick_elem in Hr. rewrite Forall_forall in H2. by apply H2.
  - intros [Hp Hpl]%andb_prop. destruct (pick_plain s (tc_refs tc) Hpl) as [o Ho]. intros j r r' c1 c2 Hj Hj' Hc1 Hc2 Ek. rewrite <- Hg in Hj, Hj'.
    destruct (Ho j r r' Hj Hj') as [E1 E2]. by apply (H3 Hp (o + j)%nat r r' c1 c2).
Qed.

Lemma step_cinv top c e c' : cinv top c -> c_enabled top c e -> c_step c e = Some c' -> cinv top c'.
Proof.
  intros Hinv He E. destruct e as [d partial nk|p s|i s|table prio cols key|n nk|clear nk|p o ok|e]; [..|by eapply run_inv]; cbn [c_step] in E;
    (destruct (c_call c) as [call|] eqn:Ecall; [discriminate E|]);
    pose proof (ci_call _ _ Hinv) as C; unfold call_ok in C; rewrite Ecall in C;
    pose proof (ci_win _ _ Hinv) as I; pose proof (ci_rows _ _ Hinv) as R.
  - (* append *)
    destruct He as (D1 & D2 & D3 & D4 & D5).
    assert (Fail : forall call, (forall fd, passed (c_py c) d = Some fd -> call fd = None) -> (forall val, honest val call) -> cinv top (log_append c (c_cxx c) d partial call)).
    { intros call H Hh. destruct (ret_frame top c (c_cxx c) Hinv I (cols_le_refl _) eq_refl) as (T' & K' & It' & Cr'). apply log_append_inv; try done.
      destruct (passed (c_py c) d) as [fd|]; [|exact R]. rewrite (H fd eq_refl). exact R. }
    destruct (passed (c_py c) d) as [fd|] eqn:Ep; [|injection E as <-; apply Fail; [done|by intros val ? ?]].
    assert (Hen : tw_enabled (c_cxx c) (TrajWriter.EAppend fd (negb partial) nk)) by (split; [exact D4|by eapply passed_ok]).
    destruct (tw_step (c_cxx c) (TrajWriter.EAppend fd (negb partial) nk)) as [| |w ret] eqn:Es; [discriminate E|discriminate E|].
    assert (W : winv w) by (pose proof (tw_step_inv _ _ I Hen) as H; by rewrite Es in H).
    pose proof (tw_step_cols _ _ _ _ I Hen Es) as L. pose proof (tw_step_nx _ _ _ _ I Hen Es) as N.
    cbn [tw_step] in Es. unfold append_begin in Es. rewrite C in Es. destruct (bool_decide _).
    + destruct (add_chunkers (c_cxx c) 0 fd nk) as [w1|] eqn:Ea; [|discriminate Es]. injection Es as <- <-. injection E as <-.
      destruct (add_chunkers_frame _ _ _ _ _ Ea) as (m & ->). apply frame_inv; try done. unfold call_ok. cbn [with_cxx c_call c_cxx c_py set_user set_cols w_user w_ep w_stp length].
      exists fd. split; [done|]. split; [done|]. split; [lia|]. split; [done|]. split; [done|]. intros j o Hj. by rewrite lookup_nil in Hj.
    + injection Es as <- <-. injection E as <-. apply Fail; [done|by intros val ? ?].
  - (* history *)
    destruct (history (c_py c)) as [h|] eqn:Eh; [|discriminate E]. cbn [mbind option_bind] in E. destruct (at_path h p) as [col|] eqn:Ep; [|discriminate E]. cbn [mbind option_bind] in E.
    destruct (get_refs col s) as [refs|] eqn:Eg; [|discriminate E]. cbn [mbind option_bind] in E. injection E as <-.
    pose proof (take_ok _ _ _ _ _ _ _ Hinv Eh Ep Eg) as Hok. destruct Hinv as [_ T _ _ K It Cr].
    constructor; cbn [c_cxx c_py c_log c_taken c_items]; try done. apply Forall_app. split; [done|]. by apply Forall_singleton.
  - destruct (c_taken c !! i) as [tc|] eqn:Ei; [|discriminate E]. cbn [mbind option_bind] in E. destruct (get_refs _ s) as [refs|] eqn:Eg; [|discriminate E]. cbn [mbind option_bind] in E. injection E as <-.
    destruct Hinv as [_ T _ _ K It Cr]. rewrite Forall_forall in K. pose proof (K _ (elem_of_list_lookup_2 _ _ _ Ei)) as Hok. apply (sub_ok _ _ s refs) in Hok; [|done].
    constructor; cbn [c_cxx c_py c_log c_taken c_items]; try done. apply Forall_app. split; [by apply Forall_forall|]. by apply Forall_singleton.
  - (* create_item *)
    destruct (mapM _ cols) as [tcs|] eqn:Em; [|discriminate E]. cbn [mbind option_bind] in E.
    change (fun tc => (tc_refs tc, tc_squeeze tc)) with as_column in E.
    destruct (tw_step (c_cxx c) (ECreate table prio (as_column <$> tcs) key)) as [| |w ret] eqn:Es; [discriminate E|discriminate E|].
    assert (Hen : tw_enabled (c_cxx c) (ECreate table prio (as_column <$> tcs) key)) by exact He.
    assert (W : winv w) by (pose proof (tw_step_inv _ _ I Hen) as H; by rewrite Es in H).
    assert (Htc : Forall (taken_ok (w_cols (c_cxx c))) tcs).
    { apply Forall_forall. intros tc Htc. apply mapM_Some in Em. apply elem_of_list_lookup in Htc as [j Hj]. apply (Forall2_lookup_r _ _ _ _ _ Em) in Hj as (x & _ & Hx).
      pose proof (ci_taken _ _ Hinv) as K. rewrite Forall_forall in K. apply K. by eapply elem_of_list_lookup_2. }
    cbn [tw_step] in Es. unfold create_item in Es. rewrite C in Es.
    assert (Same : forall st, st <> Ok -> w = c_cxx c -> ret = Some st -> cinv top c').
    { intros st Hst -> ->. rewrite bool_decide_false in E by done. injection E as <-. destruct Hinv as [_ T _ _ K It Cr]. by constructor. }
    destruct (forallb _ _); [injection Es as <- <-; by apply (Same InvalidArgument)|].
    destruct (bool_decide_reflect (w_unrec (c_cxx c) = Ok)) as [|Hun]; cbn [negb] in Es; [|injection Es as <- <-; by apply (Same (w_unrec (c_cxx c)))].
    destruct (columns_validate _ _) as [st|]; [|discriminate Es]. destruct (bool_decide_reflect (st = Ok)) as [|Hst]; cbn [negb] in Es; [|injection Es as <- <-; by apply (Same st)].
    destruct (item_validate _ _) as [st'|]; [|discriminate Es]. destruct (bool_decide_reflect (st' = Ok)) as [|Hst']; cbn [negb] in Es; [|injection Es as <- <-; by apply (Same st')].
    injection Es as <- <-. rewrite bool_decide_true in E by done. injection E as <-. destruct Hinv as [_ T _ _ K It Cr].
    constructor; cbn [c_cxx c_py c_log c_taken c_items set_created set_queue w_cols w_created w_stp w_user]; try done.
    + intros k2 tcs2 [H|H]%elem_of_app.
      * destruct (It _ _ H) as [H1 (it & H2 & H3)]. split; [done|]. exists it. split; [apply elem_of_app; by left|done].
      * apply elem_of_list_singleton in H. injection H as -> ->. split; [done|]. eexists. split; [apply elem_of_app; right; by apply elem_of_list_singleton|done].
    + intros it cs [H|H]%elem_of_app.
      * destruct (Cr _ _ H) as (tcs2 & -> & H2). exists tcs2. split; [done|]. apply elem_of_app. by left.
      * apply elem_of_list_singleton in H. injection H as -> ->. exists tcs. split; [done|]. apply elem_of_app. right. by apply elem_of_list_singleton.
  - (* flush *)
    destruct (n <? 0); [by injection E as <-|].
    assert (Hen : tw_enabled (c_cxx c) (EFlush n nk)) by exact He.
    destruct (tw_step (c_cxx c) (EFlush n nk)) as [| |w ret] eqn:Es; [discriminate E|discriminate E|].
    assert (W : winv w) by (pose proof (tw_step_inv _ _ I Hen) as H; by rewrite Es in H).
    pose proof (tw_step_cols _ _ _ _ I Hen Es) as L. pose proof (tw_step_nx _ _ _ _ I Hen Es) as N.
    cbn [tw_step] in Es. rewrite C in Es.
    destruct (flush_begin_inv (c_cxx c) n FinFlush nk I C He Logic.I) as (m' & Ef & _ & _). rewrite Ef in Es. injection Es as <- <-. injection E as <-.
    destruct (signal_frame (set_cols (c_cxx c) m')) as (q & Eq). rewrite Eq in *. apply frame_inv; try done. unfold call_ok. cbn. by eexists.
  - (* end_episode *)
    destruct He as [Hcur He]. assert (Hen : tw_enabled (c_cxx c) (EEpisode clear nk)) by exact He.
    destruct (tw_step (c_cxx c) (EEpisode clear nk)) as [| |w ret] eqn:Es; [discriminate E|discriminate E|].
    assert (W : winv w) by (pose proof (tw_step_inv _ _ I Hen) as H; by rewrite Es in H).
    pose proof (tw_step_cols _ _ _ _ I Hen Es) as L. pose proof (tw_step_nx _ _ _ _ I Hen Es) as N.
    cbn [tw_step] in Es. rewrite C in Es. destruct (bool_decide _).
    + destruct (flush_begin_inv (c_cxx c) 0 (FinEpisode clear) nk I C He eq_refl) as (m' & Ef & _ & _). rewrite Ef in Es. injection Es as <- <-. injection E as <-.
      destruct (signal_frame (set_cols (c_cxx c) m')) as (q & Eq). rewrite Eq in *. apply frame_inv; try done. unfold call_ok. cbn. split; [by eexists|done].
    + injection Es as <- <-. injection E as <-. unfold log_end, end_episode. cbn [negb]. destruct Hinv as [_ T _ _ K It Cr].
      constructor; cbn [c_cxx c_py c_log c_taken c_items]; try done. intros val Hv. apply (py_snoc val top (c_log c) (c_py c)); [by apply T|done|done].
  - (* configure *)
    destruct (PyWriter.configure (c_py c) p o ok) as [r q] eqn:Eq. injection E as <-.
    assert (F : PyWriter.w_cols q = PyWriter.w_cols (c_py c) /\ w_open q = w_open (c_py c)).
    { unfold PyWriter.configure in Eq. destruct (w_paths (c_py c) !! p); [destruct ok|]; by injection Eq as <- <-. }
    destruct F as [F1 F2]. destruct Hinv as [_ T _ _ K It Cr]. constructor; cbn [c_cxx c_py c_log c_taken c_items]; rewrite ?F1, ?F2; try done.
    intros val Hv. apply (py_snoc val top (c_log c) (c_py c)); [by apply T|done|exact Eq].
Qed.

Lemma reach_cinv top o sigs ep c : validate_options o = Ok -> c_reach top (c_new o sigs ep) c -> cinv top c.
Proof.
  intros Ho. induction 1 as [|c e c' _ IH He E]; [|by eapply step_cinv]. constructor; cbn [c_new c_cxx c_py c_log c_taken c_items].
  - by apply tw_new_inv.
  - intros val _. constructor.
  - intros i col Hi. by destruct i.
  - done.
  - constructor.
  - intros key tcs H. by apply elem_of_nil in H.
  - intros it cols H. by apply elem_of_nil in H.
Qed.
Lemma cxx_reach top o sigs ep c : c_reach top (c_new o sigs ep) c -> tw_reach (tw_new o sigs ep) (c_cxx c).
Proof.
  induction 1 as [|c e c' _ IH He E]; [constructor|].
  assert (S : forall ev w ret, tw_enabled (c_cxx c) ev -> tw_step (c_cxx c) ev = TNext w ret -> tw_reach (tw_new o sigs ep) w) by (intros ev w ret H1 H2; by eapply tr_step).
  destruct e as [d partial nk|p s|i s|table prio cols key|n nk|clear nk|p o' ok|e]; cbn [c_step c_enabled] in *.
  8: { destruct (runs c e); [|discriminate E]. destruct (tw_step (c_cxx c) e) as [| |w ret] eqn:Es; [discriminate E|discriminate E|]. pose proof (S _ _ _ He Es) as Hw.
       destruct (c_call c) as [[d partial fd refs| |clear]|]; destruct ret as [st|]; injection E as <-; try exact Hw.
       - unfold log_append. by destruct (append _ _ _ _).
       - unfold log_end. by destruct (end_episode _ _ _). }
  all: destruct (c_call c); [discriminate E|].
  - destruct He as (D1 & D2 & D3 & D4 & D5). destruct (passed (c_py c) d) as [fd|] eqn:Ep.
    + destruct (tw_step _ _) as [| |w [st|]] eqn:Es; [discriminate E|discriminate E|..]; apply S in Es; try (split; [exact D4|by eapply passed_ok]); injection E as <-; [|exact Es].
      unfold log_append. by destruct (append _ _ _ _).
    + injection E as <-. unfold log_append. by destruct (append _ _ _ _).
  - destruct (history _); [|discriminate E]. cbn [mbind option_bind] in E. destruct (at_path _ _); [|discriminate E]. cbn [mbind option_bind] in E. destruct (get_refs _ _); [|discriminate E]. by injection E as <-.
  - destruct (c_taken c !! i); [|discriminate E]. cbn [mbind option_bind] in E. destruct (get_refs _ _); [|discriminate E]. by injection E as <-.
  - destruct (mapM _ _) as [tcs|]; [|discriminate E]. cbn [mbind option_bind] in E. destruct (tw_step _ _) as [| |w [st|]] eqn:Es; [discriminate E|discriminate E|..|discriminate E]. injection E as <-. refine (S _ _ _ _ Es). exact He.
  - destruct (n <? 0); [by injection E as <-|]. destruct (tw_step _ _) as [| |w [st|]] eqn:Es; [discriminate E|discriminate E|..]; injection E as <-; refine (S _ _ _ _ Es); exact He.
  - destruct He as [_ He]. destruct (tw_step _ _) as [| |w [st|]] eqn:Es; [discriminate E|discriminate E|..]; apply S in Es; try exact He; injection E as <-; [|exact Es]. unfold log_end. by destruct (end_episode _ _ _).
  - destruct (PyWriter.configure _ _ _ _). by injection E as <-.
Qed.

(** ** C85 *)

Lemma taken_wanted m tc out : taken_ok m tc -> column_value m (as_column tc) out -> wanted tc out.
Proof.
  intros (H & _ & _) V. unfold as_column in V. destruct V as (ts & Hts & V). cbn [fst snd] in *. exists ts. split; [|].
  - clear V. revert ts Hts. induction H as [|r v rs vs (t & Ht & ->) _ IH]; intros ts Hts; cbn [mapM] in Hts; [injection Hts as <-; done|].
    rewrite Ht in Hts. cbn [mbind option_bind] in Hts. destruct (mapM (tensor_at m) rs) as [ts'|]; [|discriminate Hts]. injection Hts as <-. cbn. f_equal. by apply IH.
  - exact V.
Qed.

(** An item that create_item made of columns without strides: its columns have
    values, and they are those that the user appended. *)
Theorem C85_item_partial top o sigs ep c key tcs : validate_options o = Ok -> c_reach top (c_new o sigs ep) c -> (key, tcs) ∈ c_items c ->
  Forall (fun tc => tc_plain tc = true) tcs ->
  (exists it, (it, as_column <$> tcs) ∈ w_created (c_cxx c) /\ wi_key it = key) /\
  Forall (fun col => contiguous (w_cols (c_cxx c)) col.1) (as_column <$> tcs) /\
  forall out, Forall2 (column_value (w_cols (c_cxx c))) (as_column <$> tcs) out -> Forall2 wanted tcs out.
Proof.
  intros Ho Hr Hin Hp. destruct (ci_items _ _ (reach_cinv _ _ _ _ _ Ho Hr) key tcs Hin) as [Ht Hit]. split; [exact Hit|]. split.
  - apply Forall_fmap. rewrite Forall_forall in Ht. rewrite Forall_forall in Hp. apply Forall_forall. intros tc Htc. cbn. by apply Ht, Hp.
  - clear Hin Hit Hp. intros out V. rewrite Forall2_fmap_l in V. induction V as [|tc x tcs out V _ IH]; [constructor|]. apply Forall_cons in Ht as [H1 H2].
    constructor; [by eapply taken_wanted|by apply IH].
Qed.

Print Assumptions C85_item_partial.
