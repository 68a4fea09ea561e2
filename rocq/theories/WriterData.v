(** The data of the Writer: what is in its chunks, its buffer and its items. *)
From Verif Require Import Base Trajectory Tensor TrajUtil ChunkerOptions Sample Stream Reactor Chunker PropChunker PropDelta PropInsertStream PropTraj TrajWriter TrajWriterProofs Writer WriterProofs.
Local Open Scope Z_scope.

(** ** Chunks can be built *)

(** The steps of the buffer; the chunks. *)
Definition rows_ok (rows : list step) : Prop := Forall (Forall tensor_ok) rows /\ forall a b, a ∈ rows -> b ∈ rows -> length a = length b.
Definition chunk_ok (delta : bool) (c : lchunk) : Prop :=
  lc_rows c <> [] /\ rows_ok (lc_rows c) /\ lc_end c - lc_start c + 1 = Z.of_nat (length (lc_rows c)) /\ build_chunk delta (lc_rows c) = Some (Some (lc_data c)).
Definition shape_inv (p : lconf) (w : lw) : Prop := rows_ok (l_buffer w) /\ Forall (chunk_ok (p_delta p)) (l_chunks w).

(** One column of a list of steps. *)
Definition column (i : nat) (rows : list step) : option (list tensor) := mapM (fun s : step => s !! i) rows.

Lemma batch_columns_some rows n : (forall r, r ∈ rows -> (n <= length r)%nat) -> forall k i, (i + k <= n)%nat -> exists x, batch_columns rows i k = Some x.
Proof.
  intros Hr. induction k as [|k IH]; intros i Hi; [by eexists|]. cbn [batch_columns]. unfold batch_column.
  assert (exists ts, mapM (fun s : step => s !! i) rows = Some ts) as [ts ->].
  { apply mapM_is_Some_2, Forall_forall. intros r Hx. apply lookup_lt_is_Some_2. specialize (Hr r Hx). lia. }
  cbn [mbind option_bind]. match goal with |- context [match ?x with Some _ => _ | None => Some None end] => destruct x end; [|by eexists].
  destruct (IH (S i)) as [x ->]; [lia|]. by eexists.
Qed.
(** What is in the columns. *)
Definition column_batch (rows : list step) (i : nat) (t : tensor) : Prop :=
  exists ty sh ts, column i rows = Some ts /\ Forall (same_kind ty sh) ts /\ t = stacked ty sh ts.
Lemma batch_columns_spec rows : forall k i l, batch_columns rows i k = Some (Some l) ->
  length l = k /\ forall j t, l !! j = Some t -> column_batch rows (i + j) t.
Proof.
  induction k as [|k IH]; intros i l; cbn [batch_columns]; [intros [= <-]; split; [done|]; intros j t; by rewrite lookup_nil|].
  unfold batch_column. destruct (mapM _ rows) as [ts|] eqn:Em; [|done]. cbn [mbind option_bind].
  match goal with |- context [match ?x with Some _ => _ | None => Some None end] => destruct x as [t|] eqn:Et end; [|done].
  destruct (batch_columns rows (S i) k) as [[l'|]|] eqn:Eb; [|done|done]. cbn. intros [= <-]. destruct (IH _ _ Eb) as [H1 H2]. split; [cbn; by rewrite H1|].
  assert (Ht : tf_concat (batched <$> ts) = Some t). { destruct ts as [|u ts]; [done|]. destruct (forallb _ _); [done|discriminate]. }
  intros [|j] t' Hj; cbn in Hj.
  - injection Hj as <-. rewrite Nat.add_0_r. apply tf_concat_inv in Ht as (ty & sh & H3 & ->). by exists ty, sh, ts.
  - rewrite <- plus_n_Sm. by apply (H2 j).
Qed.
Lemma column_ok i rows ts : Forall (Forall tensor_ok) rows -> column i rows = Some ts -> Forall tensor_ok ts /\ length ts = length rows.
Proof.
  intros Hr H. apply mapM_Some in H. split; [|by apply Forall2_length in H]. induction H as [|r t rows ts H1 H2 IH]; [constructor|]. apply Forall_cons in Hr as [Hr1 Hr2].
  constructor; [|by apply IH]. by eapply Forall_lookup_1.
Qed.
Lemma encode_lookup l es : delta_encode_list l false = Some es -> forall j t, l !! j = Some t -> exists e, es !! j = Some e /\ delta_encode t false = Some e.
Proof.
  revert es. induction l as [|t l IH]; intros es; cbn [delta_encode_list]; [done|]. destruct (delta_encode t false) as [e|] eqn:E; [|done]. cbn [mbind option_bind].
  destruct (delta_encode_list l false) as [es'|]; [|done]. cbn. intros [= <-] [|j] u Hj; cbn in *; [injection Hj as <-; by exists e|by eapply IH].
Qed.

Lemma batch_ok rows k i l : rows <> [] -> Forall (Forall tensor_ok) rows -> batch_columns rows i k = Some (Some l) ->
  Forall (fun t => tensor_ok t /\ exists r sh, t_shape t = r :: sh /\ (1 <= r)%nat) l.
Proof.
  intros Hne Hr H. apply batch_columns_spec in H as [_ H]. apply Forall_lookup. intros j t Hj. destruct (H j t Hj) as (ty & sh & ts & H1 & H2 & ->).
  destruct (column_ok _ _ _ Hr H1) as [H3 H4]. split; [by apply stacked_ok|]. exists (length ts), sh. split; [done|]. rewrite H4. destruct rows; [done|cbn; lia].
Qed.
Lemma build_some delta rows : rows <> [] -> rows_ok rows -> is_Some (build_chunk delta rows).
Proof.
  intros Hne [R1 R2]. unfold build_chunk. destruct rows as [|r rows]; [done|].
  destruct (batch_columns_some (r :: rows) (length r)) with (k := length r) (i := 0%nat) as [x E]; [|lia|].
  { intros s Hs. rewrite (R2 s r); [lia|done|left]. }
  rewrite E. cbn [mbind option_bind]. destruct x as [l|]; [|by eexists]. destruct delta; [|by eexists].
  apply batch_ok in E; [|done|done]. destruct (C31_list l E) as (es & -> & _). by eexists.
Qed.
Lemma build_spec delta rows d : rows_ok rows -> build_chunk delta rows = Some (Some d) ->
  exists r, head rows = Some r /\ length (cd_tensors d) = length r /\
  forall i, (i < length r)%nat -> exists ty sh ts, column i rows = Some ts /\ Forall (same_kind ty sh) ts /\ Forall tensor_ok ts /\ length ts = length rows /\
    unpack_chunk_column d (Z.of_nat i) = UOk (stacked ty sh ts).
Proof.
  intros [R1 R2]. unfold build_chunk. destruct rows as [|r rows]; [done|]. destruct (batch_columns _ _ _) as [[l|]|] eqn:E; cbn [mbind option_bind]; [|done|done].
  pose proof (batch_ok (r :: rows) _ _ _ ltac:(done) R1 E) as BO. apply batch_columns_spec in E as [E1 E2]. intros H. exists r. split; [done|].
  assert (CD : length (cd_tensors d) = length r /\ forall i t, l !! i = Some t -> unpack_chunk_column d (Z.of_nat i) = UOk t).
  { destruct delta.
    - destruct (C31_list l BO) as (es & D1 & D2 & D3). rewrite D1 in H. cbn in H. injection H as <-. cbn. split; [by rewrite <- (Forall2_length _ _ _ D2)|].
      intros i t Hi. destruct (lookup_lt_is_Some_2 es i) as [e He]; [rewrite <- (Forall2_length _ _ _ D2); by eapply lookup_lt_Some|].
      destruct (encode_lookup _ _ D3 i e He) as (t' & T1 & T2). rewrite Hi in T1. injection T1 as <-.
      pose proof (lookup_lt_Some _ _ _ He). unfold unpack_chunk_column. cbn. rewrite decide_False by lia. rewrite Nat2Z.id, He. by rewrite T2.
    - cbn in H. injection H as <-. cbn. split; [done|]. intros i t Hi. pose proof (lookup_lt_Some _ _ _ Hi). unfold unpack_chunk_column. cbn. rewrite decide_False by lia. by rewrite Nat2Z.id, Hi. }
  destruct CD as [CD1 CD2]. split; [done|]. intros i Hi. destruct (lookup_lt_is_Some_2 l i) as [t Ht]; [lia|]. destruct (E2 i t Ht) as (ty & sh & ts & H1 & H2 & ->).
  destruct (column_ok _ _ _ R1 H1) as [H3 H4]. exists ty, sh, ts. split; [done|]. split; [done|]. split; [done|]. split; [done|]. by apply CD2.
Qed.

(** ** The shape of the data *)

Lemma rows_ok_snoc rows r : rows_ok rows -> Forall tensor_ok r -> match rows with [] => True | s :: _ => length s = length r end -> rows_ok (rows ++ [r]).
Proof.
  intros [R1 R2] Hr Hl. split; [apply Forall_app; split; [done|by constructor]|].
  assert (HL : forall a, a ∈ rows -> length a = length r). { intros a Ha. destruct rows as [|s rows]; [by apply elem_of_nil in Ha|]. rewrite <- Hl. apply R2; [done|left]. }
  intros a b. rewrite !elem_of_app, !elem_of_list_singleton. intros [Ha| ->] [Hb| ->]; [by apply R2|by apply HL|symmetry; by apply HL|done].
Qed.
Lemma rows_ok_removelast rows : rows_ok rows -> rows_ok (removelast rows).
Proof.
  destruct rows as [|r rows'] using rev_ind; [done|]. rewrite removelast_last. intros [R1 R2]. apply Forall_app in R1 as [R1 _]. split; [done|].
  intros a b Ha Hb. apply R2; apply elem_of_app; by left.
Qed.
Lemma shape_same p w w' : shape_inv p w -> l_buffer w' = l_buffer w -> l_chunks w' = l_chunks w -> shape_inv p w'.
Proof. unfold shape_inv. by intros H -> ->. Qed.
Lemma write_begin_shape p w c w' ret : shape_inv p w -> write_begin p w c = LNext w' ret -> shape_inv p w'.
Proof. intros S. unfold write_begin. destruct (l_stream w); [by intros [= <- <-]|]. destruct (p_flight p); [destruct (_ || _); [done|]|]; by intros [= <- <-]. Qed.
Lemma close_begin_shape p w r w' ret : shape_inv p w -> close_begin w r = LNext w' ret -> shape_inv p w'.
Proof. intros [S1 S2]. unfold close_begin. destruct (l_stream w); [destruct (l_half w); [done|]|]; intros [= <- <-]; [done|]. split; [done|constructor]. Qed.
Lemma call_failed_shape p w c st w' ret : shape_inv p w -> call_failed p w c st = LNext w' ret -> shape_inv p w'.
Proof.
  intros S. unfold call_failed. destruct c; [|by intros [= <- <-]..|].
  - intros [= <- <-]. destruct S as [S1 S2]. split; [cbn; by apply rows_ok_removelast|done].
  - destruct (_ || _); [by intros [= <- <-]|by apply close_begin_shape].
Qed.
Lemma write_end_shape p w c st nk w' ret : shape_inv p w -> write_end p w c st nk = LNext w' ret -> shape_inv p w'.
Proof.
  intros S. assert (SF : shape_inv p (ls_fail w (removelast (l_chunks w)) true)).
  { destruct S as [S1 S2]. split; [done|]. cbn. destruct (l_chunks w) as [|c' cs] using rev_ind; [done|]. rewrite removelast_last. by apply Forall_app in S2 as [? _]. }
  destruct (trim_front_suffix (p_len p) (p_max p) (l_chunks w)) as (pre & E1 & _).
  assert (SA : forall w2, l_buffer w2 = [] -> l_chunks w2 = trim_front (p_len p) (p_max p) (l_chunks w) -> shape_inv p w2).
  { intros w2 H1 H2. unfold shape_inv. rewrite H1, H2. destruct S as [_ S2]. split; [split; [constructor|intros ? ? H; by apply elem_of_nil in H]|]. rewrite E1 in S2. by apply Forall_app in S2 as [_ ?]. }
  unfold write_end. destruct c.
  2: { case_bool_decide; [by intros [= <- <-]|by apply call_failed_shape]. }
  all: case_bool_decide; [|by apply call_failed_shape].
  1-2: intros [= <- <-]; by apply SA. apply close_begin_shape. by apply SA.
Qed.
Lemma finish_begin_shape p w c w' ret : shape_inv p w -> l_buffer w <> [] -> finish_begin p w c = LNext w' ret -> shape_inv p w'.
Proof.
  intros S Hb. unfold finish_begin. destruct (build_chunk _ _) as [[d|]|] eqn:E; [|by apply call_failed_shape|done]. apply write_begin_shape.
  destruct S as [S1 S2]. split; [done|]. cbn. apply Forall_app. split; [done|]. constructor; [|constructor]. split; [done|]. split; [done|]. split; [cbn; lia|done].
Qed.
Lemma lw_step_shape p w e w' ret : pinv p w -> shape_inv p w -> lw_enabled w e -> lw_step p w e = LNext w' ret -> shape_inv p w'.
Proof.
  intros I S He. pose proof I as [_ Hcl HP]. destruct e as [data|table m prio key| |r|big o nk|st nk|m|]; cbn [lw_step]; unfold idle.
  - destruct (l_pos w) eqn:E; [|done]. unfold append. destruct (l_closed w) eqn:Hc; [by intros [= <- <-]|].
    destruct (match l_buffer w with [] => _ | _ => _ end) eqn:Eb; [by intros [= <- <-]|]. destruct (l_ring w !! l_loc w) as [old|]; [|done]. cbn zeta.
    assert (SA : forall a b c, shape_inv p (ls_append w (l_buffer w ++ [data]) a b c)).
    { intros. destruct S as [S1 S2]. split; [|done]. cbn. apply rows_ok_snoc; [done|done|]. destruct (l_buffer w); [done|]. apply negb_false_iff, Nat.eqb_eq in Eb. done. }
    destruct (_ <? _)%nat; [intros [= <- <-]; apply SA|]. apply finish_begin_shape; [apply SA|]. cbn. by destruct (l_buffer w).
  - destruct (l_pos w) eqn:E; [|done]. unfold lw_create. destruct (l_closed w) eqn:Hc; [by intros [= <- <-]|].
    destruct (_ || _); [by intros [= <- <-]|]. destruct (_ <? _); [by intros [= <- <-]|]. destruct (check_signature _ _ _ _) as [st|]; [|done].
    destruct (negb _); [by intros [= <- <-]|]. match goal with |- context [match ?x with Some _ => _ | None => _ end] => destruct x as [tr|]; [|done] end. cbn zeta.
    set (w1 := ls_create w _ _). assert (S1 : shape_inv p w1) by (by eapply shape_same). destruct (l_buffer w1); [|by intros [= <- <-]]. by apply write_begin_shape.
  - destruct (l_pos w) eqn:E; [|done]. unfold lw_flush. destruct (l_closed w) eqn:Hc; [by intros [= <- <-]|]. destruct (l_pending w) eqn:Ep; [by intros [= <- <-]|].
    apply finish_begin_shape; [done|]. intros Hb. destruct (HP eq_refl) as ((_ & R2 & _) & _). specialize (R2 Hb). by rewrite Ep in R2.
  - destruct (l_pos w) eqn:E; [|done]. unfold lw_close. destruct (l_closed w) eqn:Hc; [by intros [= <- <-]|]. destruct (l_pending w) eqn:Ep; [by apply close_begin_shape|].
    apply finish_begin_shape; [done|]. intros Hb. destruct (HP eq_refl) as ((_ & R2 & _) & _). specialize (R2 Hb). by rewrite Ep in R2.
  - destruct (l_pos w) as [|c ph] eqn:E; [done|].
    destruct ph as [rest req keep|req keep|req keep| | | | | | |]; cbn [call_step] in *.
    + destruct rest as [|ch rest]; [by intros [= <- <-]|]. unfold chunk_scan. destruct (_ && _); [|by intros [= <- <-]].
      destruct big; [|by intros [= <- <-]]. destruct (l_half w); [done|]. unfold lsend. destruct o; by intros [= <- <-].
    + destruct (l_pending w) as [|it rest] eqn:Ep; [by apply write_end_shape|].
      destruct (p_flight p); [destruct (confirm_items w _) as [[]|]|]; by intros [= <- <-].
    + unfold item_write. destruct (l_pending w) as [|it rest] eqn:Ep; [done|]. destruct (l_half w) eqn:Hh; [done|]. unfold lsend.
      destruct (write_ok o); destruct (delivered o); by intros [= <- <-].
    + destruct (l_half w); [done|]. by intros [= <- <-].
    + destruct (stop_worker p w) as [st w1] eqn:Es. apply stop_worker_fields in Es as (b & f & ->). case_bool_decide; [by intros [= <- <-]|]. by apply write_end_shape.
    + done.
    + destruct (confirm_items w 0); [|done]. by intros [= <- <-].
    + destruct (confirm_items w 0); [|done]. by intros [= <- <-].
    + destruct (stop_worker p w) as [st w1] eqn:Es. apply stop_worker_fields in Es as (b & f & ->). by intros [= <- <-].
    + done.
  - unfold stream_finish. destruct (l_pos w) as [|c ph] eqn:E; [done|]. destruct ph; try done; [|intros [= <- <-]; destruct S; split; [done|constructor]].
    destruct (_ && _); [by apply write_begin_shape|by apply write_end_shape].
  - destruct (_ && _); [|done]. by intros [= <- <-].
  - destruct (_ && _); [|done]. by intros [= <- <-].
Qed.
Theorem lw_reach_shape p key w : conf_ok p -> lw_reach p (lw_new p key) w -> shape_inv p w.
Proof.
  intros Hcf. induction 1 as [|w e w' ret H IH He E].
  - split; [split; [constructor|intros ? ? Hx; by apply elem_of_nil in Hx]|constructor].
  - eapply lw_step_shape; [by eapply lw_reach_inv|exact IH|exact He|exact E].
Qed.

(** ** The effect of an action on the data *)

(** The call that is writing a chunk that it has just built. *)
Definition cb (x : lpos) : option lcall :=
  match x with
  | LRun c (PScan _ _ _ | PItem _ _ | PWrite _ _ | PDone | PStop | PFinish) => match c with CCreate _ => None | _ => Some c end
  | _ => None
  end.
Definition next_chunk (w : lw) (rows : list step) (d : chunk_data) : lchunk :=
  mkLchunk (l_next w) d (l_index w) (l_index w + Z.of_nat (length rows) - 1) rows.

Inductive deff (p : lconf) (w w' : lw) : Prop :=
| de_quiet new pre :
    cb (l_pos w') = cb (l_pos w) -> l_chunks w = pre ++ l_chunks w' -> (cb (l_pos w) <> None -> pre = []) -> l_buffer w' = l_buffer w -> l_next w' = l_next w -> l_hist w' = l_hist w ->
    l_ring w' = l_ring w -> l_loc w' = l_loc w -> l_place w' = l_place w -> l_made w' = l_made w -> l_keys w' = l_keys w -> l_failed w' = l_failed w ->
    l_sent w' = l_sent w ++ new -> (forall x, x ∈ new -> x ∈ lc_wire <$> l_chunks w) -> deff p w w'
| de_append data :
    (length (l_buffer w') < p_len p)%nat -> cb (l_pos w) = None -> cb (l_pos w') = None -> l_chunks w' = l_chunks w -> l_buffer w' = l_buffer w ++ [data] -> l_next w' = l_next w -> l_hist w' = l_hist w ++ [data] ->
    l_ring w' = <[l_loc w := Some (step_sig data)]> (l_ring w) -> l_loc w' = ((l_loc w + 1) mod p_max p)%nat -> l_place w' = l_place w -> l_made w' = l_made w ->
    l_keys w' = l_keys w -> l_failed w' = l_failed w -> l_sent w' = l_sent w -> deff p w w'
| de_append_start data old d :
    (p_len p <= length (l_buffer w'))%nat -> cb (l_pos w) = None -> cb (l_pos w') = Some (CAppend old) -> l_chunks w' = l_chunks w ++ [next_chunk w (l_buffer w ++ [data]) d] -> l_buffer w' = l_buffer w ++ [data] ->
    build_chunk (p_delta p) (l_buffer w ++ [data]) = Some (Some d) ->
    l_next w' = l_next w -> l_hist w' = l_hist w ++ [data] -> l_ring w !! l_loc w = Some old ->
    l_ring w' = <[l_loc w := Some (step_sig data)]> (l_ring w) -> l_loc w' = ((l_loc w + 1) mod p_max p)%nat ->
    l_place w' = <[l_next w := (length (l_hist w') - length (l_buffer w'), length (l_buffer w'))%nat]> (l_place w) -> l_made w' = l_made w ->
    l_keys w' = l_keys w -> l_failed w' = l_failed w -> l_sent w' = l_sent w -> deff p w w'
| de_start c d :
    cb (l_pos w) = None -> cb (l_pos w') = Some c -> (forall old, c <> CAppend old) -> l_chunks w' = l_chunks w ++ [next_chunk w (l_buffer w) d] -> l_buffer w' = l_buffer w ->
    build_chunk (p_delta p) (l_buffer w) = Some (Some d) ->
    l_next w' = l_next w -> l_hist w' = l_hist w -> l_ring w' = l_ring w -> l_loc w' = l_loc w ->
    l_place w' = <[l_next w := (length (l_hist w') - length (l_buffer w'), length (l_buffer w'))%nat]> (l_place w) -> l_made w' = l_made w ->
    l_keys w' = l_keys w -> l_failed w' = l_failed w -> l_sent w' = l_sent w -> deff p w w'
| de_done nk pre c :
    cb (l_pos w) = Some c -> cb (l_pos w') = None -> nk ∉ l_keys w -> l_chunks w = pre ++ l_chunks w' -> l_buffer w' = [] -> l_next w' = nk -> l_hist w' = l_hist w ->
    l_ring w' = l_ring w -> l_loc w' = l_loc w -> l_place w' = l_place w -> l_made w' = l_made w -> l_keys w' = nk :: l_keys w -> l_failed w' = l_failed w ->
    l_sent w' = l_sent w -> deff p w w'
| de_fail c :
    cb (l_pos w) = Some c -> cb (l_pos w') = None -> l_failed w' = true -> l_made w' = l_made w ->
    match c with
    | CAppend old => l_hist w' = removelast (l_hist w) /\ l_loc w' = ring_back p (l_loc w) 0 /\ l_ring w' = <[l_loc w' := old]> (l_ring w)
    | _ => l_hist w' = l_hist w /\ l_loc w' = l_loc w /\ l_ring w' = l_ring w
    end -> deff p w w'
| de_create table n prio key cols tr :
    cb (l_pos w) = None -> cb (l_pos w') = None -> l_chunks w' = l_chunks w -> l_buffer w' = l_buffer w -> l_next w' = l_next w -> l_hist w' = l_hist w ->
    l_ring w' = l_ring w -> l_loc w' = l_loc w -> l_place w' = l_place w -> l_made w' = l_made w ++ [mkLmade (mkLitem key table prio tr) n (l_hist w) (steps_held w)] ->
    l_keys w' = l_keys w -> l_failed w' = l_failed w -> l_sent w' = l_sent w ->
    0 <= n <= Z.of_nat (length (l_chunks w) * p_len p + length (l_buffer w)) -> n <= Z.of_nat (p_max p) -> check_signature p w table (Z.to_nat n) = Some Ok ->
    num_columns w = Some cols -> flat_timestep_trajectory (item_chunks w n).1 cols (- (item_chunks w n).2) n = Some tr -> deff p w w'.

(** A state with the same data. *)
Definition dsame (w w' : lw) : Prop :=
  l_chunks w' = l_chunks w /\ l_buffer w' = l_buffer w /\ l_next w' = l_next w /\ l_hist w' = l_hist w /\ l_ring w' = l_ring w /\ l_loc w' = l_loc w /\
  l_place w' = l_place w /\ l_made w' = l_made w /\ l_keys w' = l_keys w /\ l_failed w' = l_failed w /\ l_sent w' = l_sent w.
Lemma de_same p w w' : cb (l_pos w') = cb (l_pos w) -> dsame w w' -> deff p w w'.
Proof. intros H (H1 & H2 & H3 & H4 & H5 & H6 & H7 & H8 & H9 & H10 & H11). apply (de_quiet p w w' [] []); try done; [by rewrite H11, app_nil_r|]. intros x Hx. by apply elem_of_nil in Hx. Qed.

Lemma write_begin_data p w c w' ret : write_begin p w c = LNext w' ret -> dsame w w' /\ l_pos w' = LRun c (PScan (l_chunks w) [] []).
Proof. unfold write_begin. destruct (l_stream w); [by intros [= <- <-]|]. destruct (p_flight p); [destruct (_ || _); [done|]|]; by intros [= <- <-]. Qed.
Lemma close_begin_data w r w' ret : close_begin w r = LNext w' ret -> cb (l_pos w') = None /\
  (dsame w w' \/ (l_chunks w' = [] /\ l_buffer w' = l_buffer w /\ l_next w' = l_next w /\ l_hist w' = l_hist w /\ l_ring w' = l_ring w /\ l_loc w' = l_loc w /\
  l_place w' = l_place w /\ l_made w' = l_made w /\ l_keys w' = l_keys w /\ l_failed w' = l_failed w /\ l_sent w' = l_sent w)).
Proof. unfold close_begin. destruct (l_stream w); [destruct (l_half w); [done|]|]; intros [= <- <-]; (split; [done|]); [by left|by right]. Qed.
Lemma de_close p w r w' ret : cb (l_pos w) = None -> close_begin w r = LNext w' ret -> deff p w w'.
Proof.
  intros Hc H. apply close_begin_data in H as [H1 [H|(H2 & H)]]; [apply de_same; [by rewrite H1, Hc|done]|].
  destruct H as (H3 & H4 & H5 & H6 & H7 & H8 & H9 & H10 & H11 & H12). apply (de_quiet p w w' [] (l_chunks w)); try done.
  - by rewrite H1, Hc.
  - by rewrite H2, app_nil_r.
  - by rewrite H12, app_nil_r.
  - intros x Hx. by apply elem_of_nil in Hx.
Qed.

Lemma write_failed_data p w c st w' ret ch cs : cb (l_pos w) = Some c -> l_chunks w = cs ++ [ch] -> call_failed p (ls_fail w (removelast (l_chunks w)) true) c st = LNext w' ret -> deff p w w'.
Proof.
  intros Hc Hch. set (w1 := ls_fail w _ true). unfold call_failed. destruct c as [old|key| |r].
  - intros [= <- <-]. by eapply de_fail.
  - exfalso. destruct (l_pos w) as [|[] []]; discriminate.
  - intros [= <- <-]. by eapply de_fail.
  - destruct (_ || _); [intros [= <- <-]; by eapply de_fail|]. intros H. apply close_begin_data in H as [H1 [H|(H2 & H)]].
    + destruct H as (H1' & H2 & H3 & H4 & H5 & H6 & H7 & H8 & H9 & H10 & H11). by eapply de_fail.
    + destruct H as (H3 & H4 & H5 & H6 & H7 & H8 & H9 & H10 & H11 & H12). by eapply de_fail.
Qed.
Lemma write_end_data p w c st nk w' ret : (exists ph, l_pos w = LRun c ph /\ match ph with PWait | PCloseWait | PCloseStop | PCloseFinish => False | _ => True end) -> writing w c -> nk ∉ l_keys w ->
  write_end p w c st nk = LNext w' ret -> deff p w w'.
Proof.
  intros (ph & Hpos & Hph) Hwr Hnk. unfold write_end. destruct (trim_front_suffix (p_len p) (p_max p) (l_chunks w)) as (pre & E1 & _).
  destruct c as [old|key| |r].
  2: { assert (cb (l_pos w) = None) by (rewrite Hpos; by destruct ph). case_bool_decide; intros [= <- <-]; by apply de_same. }
  all: match type of Hpos with _ = LRun ?cc _ => assert (HC : cb (l_pos w) = Some cc) by (rewrite Hpos; by destruct ph) end.
  all: case_bool_decide; [|destruct Hwr as (_ & _ & _ & (cs & ch & Hcs & _) & _); by eapply write_failed_data].
  1-2: intros [= <- <-]; by eapply de_done.
  intros H2. apply close_begin_data in H2 as [H3 [H2|(H4 & H2)]].
  - destruct H2 as (A1 & A2 & A3 & A4 & A5 & A6 & A7 & A8 & A9 & A10 & A11). apply (de_done p w w' nk pre (CClose r)); try done. by rewrite A1.
  - destruct H2 as (A2 & A3 & A4 & A5 & A6 & A7 & A8 & A9 & A10 & A11). apply (de_done p w w' nk (l_chunks w) (CClose r)); try done. by rewrite H4, app_nil_r.
Qed.

Lemma finish_begin_data p w c w' ret : cb (l_pos w) = None -> match c with CFlush | CClose _ => True | _ => False end -> finish_begin p w c = LNext w' ret -> deff p w w'.
Proof.
  intros Hc Hcc. unfold finish_begin. destruct (build_chunk _ _) as [[d|]|] eqn:E; [..|done].
  - intros H. apply write_begin_data in H as [(A1 & A2 & A3 & A4 & A5 & A6 & A7 & A8 & A9 & A10 & A11) HP]. apply (de_start p w w' c d); try done; [rewrite HP; by destruct c|by destruct c|].
    rewrite A7, A4, A2. done.
  - unfold call_failed. destruct c; try done; [intros [= <- <-]; by apply de_same|]. destruct (_ || _); [intros [= <- <-]; by apply de_same|]. by apply de_close.
Qed.

Lemma ring_back_next p loc : (loc < p_max p)%nat -> ring_back p ((loc + 1) mod p_max p) 0 = loc.
Proof.
  intros H. unfold ring_back. rewrite Nat2Z.inj_mod. rewrite Z.sub_0_r. rewrite Zminus_mod_idemp_l. rewrite Nat2Z.inj_add. 
  replace (Z.of_nat loc + Z.of_nat 1 - 1) with (Z.of_nat loc) by lia. rewrite Z.mod_small by lia. lia.
Qed.
Lemma append_data p w data w' ret : pinv p w -> l_pos w = LIdle -> append p w data = LNext w' ret -> deff p w w'.
Proof.
  intros I Hpos. pose proof I as [[_ _ [G1 G2]] _ _]. unfold append. destruct (l_closed w); [intros [= <- <-]; by apply de_same|].
  destruct (match l_buffer w with [] => _ | _ => _ end); [intros [= <- <-]; by apply de_same|]. destruct (l_ring w !! l_loc w) as [old|] eqn:Er; [|done]. cbn zeta.
  assert (Hc : cb (l_pos w) = None) by (by rewrite Hpos).
  destruct (Nat.ltb_spec (length (l_buffer (ls_append w (l_buffer w ++ [data]) (<[l_loc w:=Some (step_sig data)]> (l_ring w)) ((l_loc w + 1) mod p_max p)%nat (l_hist w ++ [data])))) (p_len p)) as [Hlt|Hge]; [intros [= <- <-]; by eapply de_append|].
  set (w1 := ls_append w _ _ _ _). unfold finish_begin. destruct (build_chunk _ _) as [[d|]|] eqn:E; [..|done].
  - intros H. apply write_begin_data in H as [(A1 & A2 & A3 & A4 & A5 & A6 & A7 & A8 & A9 & A10 & A11) HP]. apply (de_append_start p w w' data old d); try done; [by rewrite A2|by rewrite HP|].
    rewrite A7, A4, A2. done.
  - intros [= <- <-]. apply de_same; [by rewrite Hc|]. unfold dsame. cbn. rewrite !removelast_last, ring_back_next by done.
    rewrite list_insert_insert, list_insert_id by done. tauto.
Qed.
Lemma create_data p w table n prio key w' ret : l_pos w = LIdle -> lw_create p w table n prio key = LNext w' ret -> deff p w w'.
Proof.
  intros Hpos. unfold lw_create. assert (Hc : cb (l_pos w) = None) by (by rewrite Hpos). destruct (l_closed w); [intros [= <- <-]; by apply de_same|].
  destruct ((n <? 0) || _) eqn:E1; [intros [= <- <-]; by apply de_same|]. destruct (Z.of_nat (p_max p) <? n) eqn:E2; [intros [= <- <-]; by apply de_same|].
  destruct (check_signature _ _ _ _) as [st|] eqn:Es; [|done].
  case_bool_decide as Hst; cbn [negb]; [|intros [= <- <-]; by apply de_same]. subst st. destruct (num_columns w) as [cols|] eqn:En; [|done]. cbn [mbind option_bind].
  destruct (item_chunks w n) as [cs rm] eqn:Ei. destruct (flat_timestep_trajectory cs cols (- rm) n) as [tr|] eqn:Et; [|done]. cbn zeta.
  apply orb_false_iff in E1 as [E1 E3]. apply Z.ltb_ge in E1, E2, E3. set (w1 := ls_create w _ _).
  assert (DE : forall w2, dsame w1 w2 -> cb (l_pos w2) = None -> deff p w w2).
  { intros w2 (A1 & A2 & A3 & A4 & A5 & A6 & A7 & A8 & A9 & A10 & A11) H. eapply (de_create p w w2 table n prio key cols tr); try done. by rewrite Ei. }
  destruct (l_buffer w1).
  - intros H. apply write_begin_data in H as [H1 HP]. apply DE; [done|by rewrite HP].
  - intros [= <- <-]. apply DE; [done|done].
Qed.

Lemma lsend_data w m o : exists new, dsame w (ls_deliver w (l_wire w) (l_sent w)) /\ l_sent (lsend w m o) = l_sent w ++ new /\ (forall x, x ∈ new -> x ∈ ir_chunks m) /\
  l_chunks (lsend w m o) = l_chunks w /\ l_buffer (lsend w m o) = l_buffer w /\ l_next (lsend w m o) = l_next w /\ l_hist (lsend w m o) = l_hist w /\ l_ring (lsend w m o) = l_ring w /\ l_loc (lsend w m o) = l_loc w /\
  l_place (lsend w m o) = l_place w /\ l_made (lsend w m o) = l_made w /\ l_keys (lsend w m o) = l_keys w /\ l_failed (lsend w m o) = l_failed w.
Proof. unfold lsend. destruct (delivered o); [by exists (ir_chunks m)|]. exists []. split; [done|]. split; [by rewrite app_nil_r|]. split; [intros x Hx; by apply elem_of_nil in Hx|done]. Qed.

Lemma check_signature_same p w w' table n : l_ring w' = l_ring w -> l_loc w' = l_loc w -> check_signature p w' table n = check_signature p w table n.
Proof.
  intros E1 E2. unfold check_signature. destruct (p_sigs p) as [mm|]; [|done]. destruct (mm !! table) as [[sig|]|]; [|done..].
  generalize 0%nat. induction n as [|n IH]; intros t; [done|]. cbn [check_steps]. rewrite E1, E2. destruct (l_ring w !! _) as [[got|]|]; [|done..]. cbn. destruct (sig_fits sig got); [apply IH|done].
Qed.
Lemma lw_step_data p w e w' ret : conf_ok p -> pinv p w -> lw_enabled w e -> lw_step p w e = LNext w' ret -> deff p w w'.
Proof.
  intros Hcf I He. pose proof I as [_ Hcl HP]. destruct e as [data|table m prio key| |r|big o nk|st nk|m|]; cbn [lw_step]; unfold idle.
  - destruct (l_pos w) eqn:E; [|done]. by apply append_data.
  - destruct (l_pos w) eqn:E; [|done]. by apply create_data.
  - destruct (l_pos w) eqn:E; [|done]. unfold lw_flush. assert (cb (l_pos w) = None) by (by rewrite E). destruct (l_closed w) eqn:Hc; [intros [= <- <-]; by apply de_same|]. destruct (l_pending w) eqn:Ep; [intros [= <- <-]; by apply de_same|].
    by apply finish_begin_data.
  - destruct (l_pos w) eqn:E; [|done]. unfold lw_close. assert (cb (l_pos w) = None) by (by rewrite E). destruct (l_closed w) eqn:Hc; [intros [= <- <-]; by apply de_same|]. destruct (l_pending w) eqn:Ep; [by apply de_close|].
    by apply finish_begin_data.
  - destruct (l_pos w) as [|c ph] eqn:E; [done|].
    destruct ph as [rest req keep|req keep|req keep| | | | | | |]; cbn [call_step] in *.
    + destruct rest as [|ch rest]; [intros [= <- <-]; apply de_same; by rewrite ?E|]. unfold chunk_scan. destruct (_ && _); [|intros [= <- <-]; apply de_same; by rewrite ?E].
      destruct big; [|intros [= <- <-]; apply de_same; by rewrite ?E]. destruct (l_half w); [done|]. set (m := mkIreq _ None).
      destruct (lsend_data w m o) as (new & _ & S1 & S2 & S3 & S4 & S5 & S6 & S7 & S8 & S9 & S10 & S11 & S12).
      assert (SN : forall x, x ∈ new -> x ∈ lc_wire <$> l_chunks w).
      { intros x Hx. apply S2 in Hx. destruct HP as (_ & _ & _ & dn & EC & (_ & _ & _ & S4')). cbn in Hx. rewrite elem_of_app, elem_of_list_singleton in Hx. rewrite EC, fmap_app, elem_of_app.
        destruct Hx as [Hx| ->]; [left; by apply S4' in Hx as [? _]|right; left]. }
      destruct (write_ok o); intros [= <- <-]; (eapply (de_quiet p w _ new []); [cbn; by rewrite ?E|try done..]).
    + destruct (l_pending w) as [|it rest] eqn:Ep; [apply write_end_data; [by exists (PItem req keep)|apply HP|done]|].
      destruct (p_flight p); [destruct (confirm_items w _) as [[]|]|]; intros [= <- <-]; (apply de_same; [cbn; by rewrite E|done]).
    + unfold item_write. destruct (l_pending w) as [|it rest] eqn:Ep; [done|]. destruct (l_half w) eqn:Hh; [done|]. set (m := litem_message p it req keep).
      destruct (lsend_data w m o) as (new & _ & S1 & S2 & S3 & S4 & S5 & S6 & S7 & S8 & S9 & S10 & S11 & S12).
      assert (SN : forall x, x ∈ new -> x ∈ lc_wire <$> l_chunks w).
      { intros x Hx. apply S2 in Hx. destruct HP as (_ & _ & _ & (_ & _ & _ & S4') & _). by apply S4' in Hx as [? _]. }
      destruct (write_ok o); intros [= <- <-]; (eapply (de_quiet p w _ new []); [cbn; by rewrite ?E|try done..]).
    + destruct (l_half w); [done|]. intros [= <- <-]. apply de_same; [cbn; by rewrite E|done].
    + destruct (stop_worker p w) as [st w1] eqn:Es. apply stop_worker_fields in Es as (b & f & ->). case_bool_decide; [intros [= <- <-]; apply de_same; [cbn; by rewrite E|done]|].
      intros H2. assert (DD : deff p (ls_stop w b f) w'); [|destruct DD; [eapply de_quiet|eapply de_append|eapply de_append_start|eapply de_start|eapply de_done|eapply de_fail|eapply de_create]; try eassumption; (etransitivity; [|eassumption]); symmetry; by apply check_signature_same].
      revert H2. apply write_end_data; [by exists PStop|apply HP|done].
    + done.
    + destruct (confirm_items w 0); [|done]. intros [= <- <-]. apply de_same; [cbn; rewrite E; by destruct c|done].
    + destruct (confirm_items w 0); [|done]. intros [= <- <-]. apply de_same; [cbn; rewrite E; by destruct c|done].
    + destruct (stop_worker p w) as [st w1] eqn:Es. apply stop_worker_fields in Es as (b & f & ->). intros [= <- <-]. apply de_same; [cbn; rewrite E; by destruct c|done].
    + done.
  - unfold stream_finish. destruct (l_pos w) as [|c ph] eqn:E; [done|]. destruct ph; try done.
    + destruct (_ && _).
      * intros H. apply write_begin_data in H as [H1 H2]. apply de_same; [rewrite H2, E; by destruct c|done].
      * intros H2. assert (DD : deff p (ls_shut w false false [] 0 0) w'); [|destruct DD; [eapply de_quiet|eapply de_append|eapply de_append_start|eapply de_start|eapply de_done|eapply de_fail|eapply de_create]; try eassumption; (etransitivity; [|eassumption]); symmetry; by apply check_signature_same].
        revert H2. apply write_end_data; [by exists PFinish|apply HP|apply He].
    + intros [= <- <-]. eapply (de_quiet p w _ [] (l_chunks w)); try done; cbn; rewrite ?E, ?app_nil_r; try done. intros x Hx. by apply elem_of_nil in Hx.
  - destruct (_ && _); [|done]. intros [= <- <-]. by apply de_same.
  - destruct (_ && _); [|done]. intros [= <- <-]. by apply de_same.
Qed.
