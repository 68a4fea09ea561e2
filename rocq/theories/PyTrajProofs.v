(** Invariants of the Python TrajectoryWriter on top of the C++ TrajectoryWriter. *)
From stdpp Require Import strings gmap.
From Verif Require Import Base Signature PyWriter PyWriterProofs PropPyWriter Trajectory Tensor TrajUtil ChunkerOptions Sample Stream Reactor
  PropTraj PropInsertStream Chunker PropChunker TrajWriter TrajWriterProofs PropTrajWriter PropChunkKeys PropSystem PyTraj.

(** ** The next key of a Chunker *)

(** The next key of a Chunker stays or is one that no cell has. *)
Definition nx (m m' : cmap) : Prop := forall c k h, m !! c = Some (k, h) ->
  exists k' h', m' !! c = Some (k', h') /\ (k_next k' = k_next k \/ k_next k' ∉ ce_key <$> k_cells k).
Definition nxt (nk : nat -> Z) (m m' : cmap) : Prop := forall c k h, m !! c = Some (k, h) ->
  exists k' h', m' !! c = Some (k', h') /\ (k_next k' = k_next k \/ k_next k' = nk c).
Lemma nx_refl m : nx m m.
Proof. intros c k h H. exists k, h. split; [done|by left]. Qed.
Lemma nxt_refl nk m : nxt nk m m.
Proof. intros c k h H. exists k, h. split; [done|by left]. Qed.
Lemma nxt_trans nk a b c : nxt nk a b -> nxt nk b c -> nxt nk a c.
Proof.
  intros H1 H2 i k h Hi. destruct (H1 _ _ _ Hi) as (k1 & h1 & E1 & D1). destruct (H2 _ _ _ E1) as (k2 & h2 & E2 & D2). exists k2, h2. split; [done|].
  destruct D2 as [->|D2]; [done|by right].
Qed.
Lemma nxt_nx nk m m' : (forall c, no_key m (nk c)) -> nxt nk m m' -> nx m m'.
Proof.
  intros Hf H c k h Hc. destruct (H _ _ _ Hc) as (k' & h' & E & [D|D]); exists k', h'; (split; [done|]); [by left|]. right. rewrite D.
  specialize (Hf c _ _ _ Hc). unfold chunk_keys_of in Hf. by apply not_elem_of_cons in Hf as [_ ?].
Qed.

Lemma flush_next k nk st k' : k_flush k nk = Some (st, k') -> (k_next k' = k_next k \/ k_next k' = nk) /\ (st = Ok -> k_buffer k' = []).
Proof.
  unfold k_flush, flush_locked. destruct (k_buffer k) eqn:Eb; [intros [= <- <-]; split; [by left|done]|].
  destruct (tf_concat _); [|intros [= <- <-]; split; [by left|done]].
  destruct (if get_delta _ then _ else _); [|done]. cbn [mbind option_bind]. destruct (range_of _ _ _); [|done]. cbn [mbind option_bind].
  intros [= <- <-]. split; [by right|done].
Qed.
Lemma append_next k t ep step nk st id k' : k_append k t ep step nk = Some (st, id, k') -> k_next k' = k_next k \/ k_next k' = nk.
Proof.
  unfold k_append. destruct (negb _); [intros [= <- <- <-]; by left|]. destruct (negb _); [intros [= <- <- <-]; by left|].
  cbn zeta. cbn [k_opts k_buffer].
  assert (G : (if get_max (k_opts k) <=? Z.of_nat (length (k_buffer k ++ [batched t]))
     then '(st, k0) ← flush_locked (push k t ep step) nk;
       if bool_decide (st = Ok) then Some (Ok, last (k_active (trim k0)), trim k0) else Some (st, None, k0)
     else Some (Ok, last (k_active (trim (push k t ep step))), trim (push k t ep step))) = Some (st, id, k') -> k_next k' = k_next k \/ k_next k' = nk).
  { destruct (_ <=? _).
    - destruct (flush_locked (push k t ep step) nk) as [[s k1]|] eqn:Ef; [|done]. cbn [mbind option_bind]. apply flush_next in Ef as [Ef _].
      destruct (bool_decide _); intros [= <- <- <-]; exact Ef.
    - intros [= <- <- <-]. by left. }
  unfold push in G. destruct (k_buffer k) as [|b bs] eqn:Eb; [exact G|].
  destruct (last (k_active k) ≫= fun i => k_cells k !! i) as [c|]; [|done]. cbn [mbind option_bind].
  destruct (negb _); [intros [= <- <- <-]; by left|]. destruct (_ <=? ce_step c); [intros [= <- <- <-]; by left|]. exact G.
Qed.
Lemma kstep_next k h e k' h' : k_step k h e = Some (k', h') -> k_next k' = k_next k \/ key_made e = Some (k_next k').
Proof.
  destruct e as [t ep step nk|nk|nk|o|a]; cbn [k_step key_made].
  - destruct (k_append k t ep step nk) as [[[st id] k1]|] eqn:E; [|done]. cbn [mbind option_bind]. intros [= <- _].
    apply append_next in E as [E|E]; [by left|right; by rewrite E].
  - destruct (k_flush k nk) as [[st k1]|] eqn:E; [|done]. cbn [mbind option_bind]. intros [= <- _].
    apply flush_next in E as [[E|E] _]; [by left|right; by rewrite E].
  - intros [= <- _]. by right.
  - intros [= <- _]. left. unfold k_apply_config. destruct (k_buffer k); [|done]. by destruct (bool_decide _).
  - intros [= <- _]. by left.
Qed.

Lemma insert_nx m c k h e k' h' : m !! c = Some (k, h) -> k_step k h e = Some (k', h') ->
  (forall x, key_made e = Some x -> no_key m x) -> nx m (<[c := (k', h')]> m).
Proof.
  intros Hc E Hf d k1 h1 Hd. destruct (decide (c = d)) as [->|Hne].
  - rewrite Hc in Hd. injection Hd as <- <-. exists k', h'. rewrite lookup_insert. split; [done|].
    apply kstep_next in E as [E|E]; [by left|]. right. specialize (Hf _ E _ _ _ Hc). unfold chunk_keys_of in Hf. by apply not_elem_of_cons in Hf as [_ ?].
  - exists k1, h1. rewrite lookup_insert_ne by done. split; [done|by left].
Qed.
Lemma insert_nxt nk (m : cmap) c k h e k' h' : m !! c = Some (k, h) -> k_step k h e = Some (k', h') ->
  (forall x, key_made e = Some x -> x = nk c) -> nxt nk m (<[c := (k', h')]> m).
Proof.
  intros Hc E Hf d k1 h1 Hd. destruct (decide (c = d)) as [->|Hne].
  - rewrite Hc in Hd. injection Hd as <- <-. exists k', h'. rewrite lookup_insert. split; [done|].
    apply kstep_next in E as [E|E]; [by left|]. right. by apply Hf.
  - exists k1, h1. rewrite lookup_insert_ne by done. split; [done|by left].
Qed.

Lemma force_flush_nxt rs nk : forall w st w', force_flush w rs nk = Some (st, w') -> nxt nk (w_cols w) (w_cols w').
Proof.
  induction rs as [|r rs IH]; intros w st w'; cbn [force_flush]; [intros [= <- <-]; apply nxt_refl|].
  destruct (is_ready w r); [apply IH|]. destruct (w_cols w !! r.1) as [[k h]|] eqn:Ek; [|done]. cbn [mbind option_bind].
  destruct (k_flush k (nk r.1)) as [[s k1]|] eqn:Ef; [|done]. cbn [mbind option_bind]. unfold col_step. rewrite Ek. cbn [mbind option_bind k_step]. rewrite Ef. cbn [mbind option_bind].
  assert (N : nxt nk (w_cols w) (<[r.1 := (k1, h)]> (w_cols w))).
  { apply (insert_nxt nk _ r.1 k h (KFlush (nk r.1))); [done|cbn [k_step]; by rewrite Ef|by intros x [= <-]]. }
  destruct (bool_decide _).
  - intros H. eapply nxt_trans; [exact N|]. exact (IH _ _ _ H).
  - intros [= <- <-]. exact N.
Qed.
Lemma end_chunkers_nxt clear cs nk : forall w st w', end_chunkers w clear cs nk = Some (st, w') -> nxt nk (w_cols w) (w_cols w') /\
  (st = Ok -> forall c, c ∈ cs \/ (forall k h, w_cols w !! c = Some (k, h) -> k_buffer k = []) -> forall k h, w_cols w' !! c = Some (k, h) -> k_buffer k = []).
Proof.
  induction cs as [|c cs IH]; intros w st w'; cbn [end_chunkers].
  { intros [= <- <-]. split; [apply nxt_refl|]. intros _ c [H%elem_of_nil|H]; [done|exact H]. }
  assert (STEP : forall e k h k1, w_cols w !! c = Some (k, h) -> k_step k h e = Some (k1, h) -> (forall x, key_made e = Some x -> x = nk c) -> k_buffer k1 = [] ->
    end_chunkers (set_cols w (<[c := (k1, h)]> (w_cols w))) clear cs nk = Some (st, w') -> nxt nk (w_cols w) (w_cols w') /\
    (st = Ok -> forall d, d ∈ c :: cs \/ (forall k h, w_cols w !! d = Some (k, h) -> k_buffer k = []) -> forall k h, w_cols w' !! d = Some (k, h) -> k_buffer k = [])).
  { intros e k h k1 Ek Es Hm Hb H. destruct (IH _ _ _ H) as [I1 I2]. split.
    - eapply nxt_trans; [|exact I1]. by apply (insert_nxt nk _ c k h e).
    - intros Hst d Hd. apply (I2 Hst d). cbn [w_cols set_cols]. destruct (decide (c = d)) as [<-|Hne].
      + right. intros k2 h2. rewrite lookup_insert. by intros [= <- <-].
      + destruct Hd as [[->|Hd]%elem_of_cons|Hd]; [done|by left|]. right. intros k2 h2. rewrite lookup_insert_ne by done. apply Hd. }
  destruct clear.
  - unfold col_step. destruct (w_cols w !! c) as [[k h]|] eqn:Ek; [|done]. cbn [mbind option_bind k_step].
    apply (STEP (KReset (nk c)) k h); [done|done|by intros x [= <-]|done].
  - destruct (w_cols w !! c) as [[k h]|] eqn:Ek; [|done]. cbn [mbind option_bind]. destruct (k_flush k (nk c)) as [[s k1]|] eqn:Ef; [|done]. cbn [mbind option_bind].
    unfold col_step. rewrite Ek. cbn [mbind option_bind k_step]. rewrite Ef. cbn [mbind option_bind].
    destruct (bool_decide_reflect (s = Ok)) as [->|Hs].
    + apply (STEP (KFlush (nk c)) k h); [done|cbn [k_step]; by rewrite Ef|by intros x [= <-]|]. apply flush_next in Ef as [_ Hb]. exact (Hb eq_refl).
    + intros [= <- <-]. split; [|done]. cbn [w_cols set_unrec set_cols]. apply (insert_nxt nk _ c k h (KFlush (nk c))); [done|cbn [k_step]; by rewrite Ef|by intros x [= <-]].
Qed.

Lemma add_chunkers_keeps data nk : forall w i w', add_chunkers w i data nk = Some w' -> forall c x, w_cols w !! c = Some x -> w_cols w' !! c = Some x.
Proof.
  induction data as [|[t|] data IH]; intros w i w'; cbn [add_chunkers]; [by intros [= <-]| |apply IH].
  destruct (w_cols w !! i) as [p|] eqn:Ei; [apply IH|]. destruct (k_new _ _ _) as [k|]; [|done]. cbn [mbind option_bind].
  intros H c x Hc. apply (IH _ _ _ H). cbn [w_cols set_cols]. rewrite lookup_insert_ne by congruence. done.
Qed.

(** Every action. *)
Lemma tw_step_nx w e w' ret : winv w -> tw_enabled w e -> tw_step w e = TNext w' ret -> nx (w_cols w) (w_cols w').
Proof.
  intros I He E.
  assert (S : w_cols w' = w_cols w -> nx (w_cols w) (w_cols w')) by (intros ->; apply nx_refl).
  destruct e as [| |big o| | |o| |st|keys|c a|data inc nk|nk|table prio cols key|n nk|clear nk|timeout nk newep|c o|]; cbn [tw_enabled] in He; cbn [tw_step] in E.
  1-9: apply S; clear S; repeat (case_match; try discriminate E); injection E as <- <-; cbn [w_cols set_pos set_wire set_flight set_queue set_acked];
       rewrite ?return_cols, ?send_cols; cbn [w_cols set_pos set_wire set_flight set_queue set_acked]; rewrite ?send_cols; reflexivity.
  - destruct (w_pos w); try discriminate E. unfold col_step in E. destruct (w_cols w !! c) as [[k h]|] eqn:Hk; [|discriminate E]. cbn [mbind option_bind k_step] in E. injection E as <- <-.
    cbn [w_cols set_cols]. by apply (insert_nx _ c k h (KTune a)).
  - unfold append_begin in E. destruct (w_user w); try discriminate E. destruct (bool_decide _); [|injection E as <- <-; by apply S].
    destruct (add_chunkers w 0 data nk) as [w1|] eqn:Ea; [|discriminate E]. injection E as <- <-. cbn [w_cols set_user].
    intros c k h Hc. exists k, h. split; [exact (add_chunkers_keeps _ _ _ _ _ Ea _ _ Hc)|by left].
  - unfold append_col in E. destruct (w_user w) as [|i rest inc ep stp|] eqn:Hu; try discriminate E.
    destruct rest as [|[t|] rest].
    + destruct (_ && _); [|discriminate E]. injection E as <- <-. apply S. cbn [w_cols set_user]. by rewrite signal_cols.
    + destruct (w_cols w !! i) as [[k h]|] eqn:Hk; [|discriminate E]. cbn [mbind option_bind] in E. unfold col_step in E. rewrite Hk in E. cbn [mbind option_bind] in E.
      destruct (k_step k h (KAppend t ep stp nk)) as [[k' h']|] eqn:Es.
      2: { destruct (k_append k t ep stp nk) as [[[? ?] ?]|]; discriminate E. }
      assert (N : nx (w_cols w) (<[i := (k', h')]> (w_cols w))) by (apply (insert_nx _ i k h _ k' h' Hk Es); by intros x [= <-]).
      destruct (k_append k t ep stp nk) as [[[st id] k2]|]; [|discriminate E]. cbn [mbind option_bind] in E.
      destruct (bool_decide _); injection E as <- <-; exact N.
    + injection E as <- <-. by apply S.
  - unfold create_item in E. repeat (case_match; try discriminate E); injection E as <- <-; by apply S.
  - destruct (w_user w); try discriminate E. unfold flush_begin in E. destruct (force_flush _ _ _) as [[st w1]|] eqn:Ef; [|discriminate E]. apply force_flush_nxt in Ef.
    apply (nxt_nx nk); [exact (proj1 He)|]. destruct (bool_decide _); injection E as <- <-; [|exact Ef]. cbn [w_cols set_user]. by rewrite signal_cols.
  - destruct (w_user w); try discriminate E. destruct (bool_decide (w_unrec w = Ok)); [|injection E as <- <-; by apply S].
    unfold flush_begin in E. destruct (force_flush _ _ _) as [[st w1]|] eqn:Ef; [|discriminate E]. apply force_flush_nxt in Ef.
    apply (nxt_nx nk); [exact (proj1 He)|]. destruct (bool_decide _); injection E as <- <-; [|exact Ef]. cbn [w_cols set_user]. by rewrite signal_cols.
  - unfold flush_done in E. destruct (w_user w) as [| |n fin]; try discriminate E.
    destruct (flush_cond w n); [|destruct timeout; [injection E as <- <-; by apply S|discriminate E]]. cbn zeta in E.
    destruct (negb _); [injection E as <- <-; by apply S|]. destruct fin as [|clear]; [injection E as <- <-; by apply S|].
    destruct (end_chunkers _ _ _ _) as [[st w1]|] eqn:Ee; [|discriminate E]. apply end_chunkers_nxt in Ee as [Ee _]. cbn [w_cols set_user] in Ee.
    apply (nxt_nx nk); [exact (proj1 He)|]. destruct (bool_decide _); injection E as <- <-; exact Ee.
  - unfold configure in E. destruct (w_user w); try discriminate E. destruct (negb _); [injection E as <- <-; by apply S|].
    destruct (w_cols w !! c) as [[k h]|] eqn:Hk.
    + unfold col_step in E. rewrite Hk in E. cbn [mbind option_bind k_step] in E. injection E as <- <-. cbn [w_cols set_cols].
      by apply (insert_nx _ c k h (KConfig (clone o))).
    + injection E as <- <-. by apply S.
  - unfold close in E. apply S. destruct (w_closed w); injection E as <- <-; [done|]. by rewrite signal_cols.
Qed.

(** Actions that belong to no call of the user. *)
Definition background (e : tev) : bool :=
  match e with EAppend _ _ _ | EColumn _ | ECreate _ _ _ _ | EFlush _ _ | EEpisode _ _ | EDone _ _ _ => false | _ => true end.
Lemma bg_frame w e w' ret : background e = true -> tw_step w e = TNext w' ret ->
  w_stp w' = w_stp w /\ w_ep w' = w_ep w /\ w_user w' = w_user w /\ w_created w' = w_created w /\ (ret = None \/ exists c o, e = TrajWriter.EConfigure c o).
Proof.
  assert (G : forall x : tw, (exists m fl ac wi q p u cl, x = set_cols (set_closed (set_unrec (set_pos (set_queue (set_wire (set_acked (set_flight w fl) ac) wi) q) p) u) cl) m) ->
     w_stp x = w_stp w /\ w_ep x = w_ep w /\ w_user x = w_user w /\ w_created x = w_created w) by (intros x (m & fl & ac & wi & q & p & u & cl & ->); done).
  assert (id : w = set_cols (set_closed (set_unrec (set_pos (set_queue (set_wire (set_acked (set_flight w (w_flight w)) (w_acked w)) (w_wire w)) (w_queue w)) (w_pos w)) (w_unrec w)) (w_closed w)) (w_cols w)) by (by destruct w).
  assert (SR : forall x st, w_stp (worker_return x st) = w_stp x /\ w_ep (worker_return x st) = w_ep x /\ w_user (worker_return x st) = w_user x /\ w_created (worker_return x st) = w_created x).
  { intros x st. destruct (return_frame x st) as (p & u & ->). done. }
  assert (SS : forall x, w_stp (signal x) = w_stp x /\ w_ep (signal x) = w_ep x /\ w_user (signal x) = w_user x /\ w_created (signal x) = w_created x).
  { intros x. destruct (signal_frame x) as (p & ->). done. }
  clear G id.
  assert (SN : forall x m o, w_stp (send x m o) = w_stp x /\ w_ep (send x m o) = w_ep x /\ w_user (send x m o) = w_user x /\ w_created (send x m o) = w_created x).
  { intros x m o. unfold send. by destruct (delivered o). }
  destruct e as [| |big o| | |o| |st|keys|c a|data inc nk|nk|table prio cols key|n nk|clear nk|timeout nk newep|c o|]; try done; intros _ E; cbn [tw_step] in E.
  - destruct (w_pos w); try discriminate E. destruct (negb _); [|destruct (w_closed w)]; injection E as <- <-; [destruct (SR w (w_unrec w)) as (->&->&->&->)|destruct (SR w Cancelled) as (->&->&->&->)|]; split_and!; try done; by left.
  - destruct (w_pos w); try discriminate E. destruct (w_closed w); [|destruct (w_queue w); [discriminate E|]]; injection E as <- <-; split_and!; try done; by left.
  - destruct (w_pos w) as [| |it rest s req| | | | | |]; try discriminate E. destruct rest as [|r rest]; [injection E as <- <-; split_and!; try done; by left|].
    destruct (w_cell w r) as [c|]; [|discriminate E]. destruct (ce_chunk c); [|injection E as <- <-; split_and!; try done; by left].
    destruct (bool_decide _); [injection E as <- <-; split_and!; try done; by left|]. cbn zeta in E. destruct big; injection E as <- <-; [|split_and!; try done; by left].
    cbn [w_stp w_ep w_user w_created set_pos].
    match goal with |- w_stp (send ?x ?m ?o) = _ /\ _ => destruct (SN x m o) as (->&->&->&->) end. split_and!; try done; by left.
  - destruct (w_pos w) as [| | |it s req| | | | |]; try discriminate E. destruct (forallb _ _); [|destruct (forallb _ _)]; injection E as <- <-; split_and!; try done; by left.
  - destruct (w_pos w); try discriminate E. injection E as <- <-; split_and!; try done; by left.
  - destruct (w_pos w) as [| | | | |it s req| | |]; try discriminate E. cbn zeta in E. destruct (write_ok o); injection E as <- <-; cbn [w_stp w_ep w_user w_created set_pos set_flight];
      destruct (SN w (item_message it req s) o) as (->&->&->&->); split_and!; try done; by left.
  - destruct (w_pos w); try discriminate E. injection E as <- <-; split_and!; try done; by left.
  - destruct (w_pos w); try discriminate E. injection E as <- <-. destruct (SR w st) as (->&->&->&->). split_and!; try done; by left.
  - destruct (w_pos w); try discriminate E; (destruct (forallb _ keys); [|discriminate E]; injection E as <- <-; split_and!; try done; by left).
  - destruct (w_pos w); try discriminate E. destruct (col_step w c (KTune a)) as [w1|] eqn:Ec; [|discriminate E]. apply col_step_frame in Ec as (m & ->). injection E as <- <-. split_and!; try done; by left.
  - unfold configure in E. destruct (w_user w) eqn:Hu; try discriminate E. destruct (negb _); [injection E as <- <-; split_and!; try done; right; by eexists _, _|].
    destruct (w_cols w !! c) as [[k h]|]; [|injection E as <- <-; split_and!; try done; right; by eexists _, _].
    destruct (col_step w c _) as [w1|] eqn:Ec; [|discriminate E]. apply col_step_frame in Ec as (m & ->). injection E as <- <-. split_and!; try done; right; by eexists _, _.
  - unfold close in E. injection E as <- <-. destruct (w_closed w); [split_and!; try done; by left|]. destruct (SS (set_closed w true)) as (->&->&->&->). split_and!; try done; by left.
Qed.

(** ** The C++ calls *)

Lemma append_ref k h t ep stp nk id k' : kinv k h -> one_chunk k -> tensor_ok t -> nk ∉ chunk_keys_of k -> k_append k t ep stp nk = Some (Ok, id, k') ->
  id = Some (length (k_cells k)) /\ (length (k_cells k) <? length (k_cells k'))%nat = true /\
  (exists c, k_cells k' !! length (k_cells k) = Some c /\ ce_key c = k_next k /\ ce_step c = stp) /\
  (forall p cp, k_cells k !! p = Some cp -> ce_key cp = k_next k -> ce_step cp = stp - 1 -> S p = length (k_cells k)).
Proof.
  intros I O Ht Hf E. apply not_elem_of_cons in Hf as [Hn1 Hn2].
  destruct (push_le k h t ep stp I O) as (_ & P2 & _ & P4).
  assert (Hnew : k_cells (push k t ep stp) !! length (k_cells k) = Some (mkCell (k_next k) (k_offset k) ep stp None)).
  { unfold push. cbn [k_cells]. rewrite lookup_app_r by lia. by rewrite Nat.sub_diag. }
  assert (Hprev : kinv (push k t ep stp) (h ++ [(t, ep, stp)]) -> forall p cp, k_cells k !! p = Some cp -> ce_key cp = k_next k -> ce_step cp = stp - 1 -> S p = length (k_cells k)).
  { intros I1 p cp Hp Hk Hs. pose proof (lookup_lt_Some _ _ _ Hp) as Hlt. destruct (decide (S p = length (k_cells k))) as [|Hne]; [done|exfalso].
    assert (Hge : (k_first k <= p)%nat). { destruct (decide (p < k_first k)%nat) as [Hl|]; [|lia]. by destruct (ki_old _ _ I _ _ Hl Hp). }
    destruct (lookup_lt_is_Some_2 (k_cells k) (S p)) as [cq Hq]; [lia|].
    pose proof (ki_inc _ _ I1) as Hi. rewrite P4 in Hi.
    assert (L : forall i c, k_cells k !! i = Some c -> (k_first k <= i)%nat -> drop (k_first k) (k_cells (push k t ep stp)) !! (i - k_first k)%nat = Some c).
    { intros i c Hc Hle. rewrite lookup_drop. replace (k_first k + (i - k_first k))%nat with i by lia. unfold push. cbn [k_cells]. by apply lookup_app_l_Some. }
    destruct (Hi (p - k_first k)%nat (S p - k_first k)%nat cp cq) as [_ H1]; [lia|by apply L|apply L; [done|lia]|].
    destruct (Hi (S p - k_first k)%nat (length (k_cells k) - k_first k)%nat cq (mkCell (k_next k) (k_offset k) ep stp None)) as [_ H2];
      [lia|apply L; [done|lia]|rewrite lookup_drop; by replace (k_first k + (length (k_cells k) - k_first k))%nat with (length (k_cells k)) by lia|].
    cbn [ce_step] in H2. lia. }
  destruct (append_cases k h t ep stp nk I Ht Hn1 Hn2) as [(st & Hst & Eq)|(I1 & [[Hl Eq]|[(_ & k1 & Hfl & Eq)|(_ & st & Hst & _ & _ & Eq)]])]; rewrite Eq in E.
  - injection E as -> _ _. done.
  - injection E as <- <-. split; [done|]. split; [apply Nat.ltb_lt; unfold trim, push; cbn [k_cells]; rewrite app_length; cbn; lia|]. split; [|exact (Hprev I1)].
    eexists. split; [unfold trim; cbn [k_cells]; exact Hnew|done].
  - injection E as <- <-. split; [done|].
    destruct (flush_le _ _ _ _ _ I1 P2 Hfl) as (L & _). destruct (L _ _ Hnew) as (c & Hc & (Hk & _ & _ & Hs & _)).
    split; [apply Nat.ltb_lt; unfold trim; cbn [k_cells]; by apply lookup_lt_Some in Hc|]. split; [|exact (Hprev I1)].
    exists c. unfold trim. cbn [k_cells]. split; [exact Hc|done].
  - injection E as -> _ _. done.
Qed.

Lemma column_step w nk i rest inc w' ret : winv w -> TrajWriter.fresh w nk -> w_user w = UAppend i rest inc (w_ep w) (w_stp w) -> append_col w nk = TNext w' ret ->
  w_created w' = w_created w /\
  match rest with
  | [] => ret = Some Ok /\ w_cols w' = w_cols w /\ w_stp w' = (if inc then w_stp w + 1 else w_stp w) /\ w_user w' = UIdle
  | None :: rest => ret = None /\ w_cols w' = w_cols w /\ w_stp w' = w_stp w /\ w_user w' = UAppend (S i) rest inc (w_ep w') (w_stp w') /\ next_ref w nk = None
  | Some t :: rest => w_stp w' = w_stp w /\
    ((exists st, ret = Some st /\ st <> Ok /\ w_user w' = UIdle) \/
     (ret = None /\ w_user w' = UAppend (S i) rest inc (w_ep w') (w_stp w') /\
      exists k h c, w_cols w !! i = Some (k, h) /\ next_ref w nk = Some (i, length (k_cells k)) /\
        tensor_at (w_cols w') (i, length (k_cells k)) = Some t /\ cell_at (w_cols w') (i, length (k_cells k)) = Some c /\ ce_step c = w_stp w /\ ce_key c = k_next k /\
        (forall p cp, k_cells k !! p = Some cp -> ce_key cp = k_next k -> ce_step cp = w_stp w - 1 -> S p = length (k_cells k))))
  end.
Proof.
  intros I Hf Hu E. pose proof (v_user w I) as U. rewrite Hu in U. cbn in U. destruct U as (_ & _ & U). unfold append_col in E. rewrite Hu in E.
  destruct rest as [|[t|] rest].
  - rewrite !Z.eqb_refl in E. cbn [andb] in E. injection E as <- <-.
    destruct (signal_frame (set_stp w (if inc then w_stp w + 1 else w_stp w))) as (p & ->). done.
  - destruct (U 0%nat t eq_refl) as [[[k h] Hk] Ht]. rewrite Nat.add_0_r in Hk. rewrite Hk in E. cbn [mbind option_bind] in E.
    destruct (proj1 (v_cols w I) _ _ _ Hk) as (IK & OC & _). cbn [fst snd] in IK, OC.
    unfold next_ref. rewrite Hu, Hk. cbn [mbind option_bind]. unfold col_step in E. rewrite Hk in E. cbn [mbind option_bind k_step] in E.
    destruct (k_append k t (w_ep w) (w_stp w) nk) as [[[st id] k']|] eqn:Ek; [|discriminate E]. cbn [mbind option_bind] in *.
    destruct (bool_decide_reflect (st = Ok)) as [->|Hst].
    + injection E as <- <-. cbn [w_created w_stp w_user w_ep w_cols set_user set_cols]. split; [done|]. split; [done|]. right. split; [done|]. split; [done|].
      destruct (append_ref _ _ _ _ _ _ _ _ IK OC Ht (Hf _ _ _ Hk) Ek) as (-> & Hlt & (c & Hc & Hck & Hcs) & Hp). cbn [mbind option_bind]. rewrite Hlt.
      exists k, h, c. split; [done|]. split; [done|]. unfold tensor_at, cell_at. cbn [fst snd]. rewrite lookup_insert. cbn [mbind option_bind].
      split; [|split; [exact Hc|done]].
      rewrite lookup_app_r by (rewrite (ki_len _ _ IK); lia). rewrite (ki_len _ _ IK), Nat.sub_diag. done.
    + injection E as <- <-. cbn [w_created w_stp w_user set_user set_failed set_cols]. split; [done|]. split; [done|]. left. by exists st.
  - injection E as <- <-. unfold next_ref. rewrite Hu. done.
Qed.

Lemma done_step w timeout nk newep n fin w' ret : winv w -> w_user w = UWait n fin -> flush_done w timeout nk newep = TNext w' ret ->
  exists st, ret = Some st /\ w_created w' = w_created w /\ w_user w' = UIdle /\
   (w_stp w' = w_stp w \/ st = Ok /\ fin <> FinFlush /\ forall c k h, w_cols w' !! c = Some (k, h) -> k_buffer k = []).
Proof.
  intros I Hu E. unfold flush_done in E. rewrite Hu in E.
  destruct (flush_cond w n); [|destruct timeout; [injection E as <- <-; eexists; split_and!; try done; by left|discriminate E]].
  cbn zeta in E. destruct (negb _); [injection E as <- <-; eexists; split_and!; try done; by left|].
  destruct fin as [|clear]; [injection E as <- <-; eexists; split_and!; try done; by left|].
  destruct (end_chunkers _ _ _ _) as [[st w1]|] eqn:Ee; [|discriminate E].
  destruct (end_chunkers_frame _ _ _ _ _ _ Ee) as (m & u & Ew). pose proof (end_chunkers_nxt _ _ _ _ _ _ Ee) as [_ Hb].
  assert (F : w_created w1 = w_created w /\ w_user w1 = UIdle /\ w_stp w1 = w_stp w) by (by rewrite Ew).
  destruct F as (F1 & F2 & F3).
  assert (Hd : forall c k h, w_cols w1 !! c = Some (k, h) -> is_Some (w_cols w !! c)).
  { intros c k h Hc. revert Ee. change (w_cols w) with (w_cols (set_user w UIdle)). generalize (columns (set_user w UIdle)). revert Hc. clear.
    generalize (set_user w UIdle). intros w0 Hc cs. revert w0. induction cs as [|d cs IH]; intros w0; cbn [end_chunkers]; [intros [= <- <-]; by eexists|].
    assert (G : forall e w2, col_step w0 d e = Some w2 -> is_Some (w_cols w2 !! c) -> is_Some (w_cols w0 !! c)).
    { intros e w2. unfold col_step. destruct (w_cols w0 !! d) as [[k0 h0]|] eqn:E0; [|done]. cbn [mbind option_bind]. destruct (k_step k0 h0 e) as [[k1 h1]|]; [|done]. cbn [mbind option_bind].
      intros [= <-]. cbn [w_cols set_cols]. destruct (decide (d = c)) as [->|]; [intros _; by eexists|by rewrite lookup_insert_ne]. }
    destruct clear.
    - destruct (col_step w0 d _) as [w2|] eqn:E2; [|done]. cbn [mbind option_bind]. intros H. by apply (G _ _ E2), IH.
    - destruct (w_cols w0 !! d) as [[k0 h0]|] eqn:E0; [|done]. cbn [mbind option_bind]. destruct (k_flush _ _) as [[s k1]|]; [|done]. cbn [mbind option_bind].
      destruct (col_step w0 d _) as [w2|] eqn:E2; [|done]. cbn [mbind option_bind]. destruct (bool_decide _); [intros H; by apply (G _ _ E2), IH|].
      intros [= <- <-]. apply (G _ _ E2). cbn [w_cols set_unrec] in Hc. by eexists. }
  destruct (bool_decide_reflect (st = Ok)) as [->|Hst]; injection E as <- <-; eexists; (split; [done|]); cbn [w_created w_user w_stp w_cols set_stp set_ep]; (split; [done|]); (split; [done|]).
  - right. split; [done|]. split; [done|]. intros c k h Hc. apply (Hb eq_refl c) with (h := h); [|done]. left.
    destruct (Hd _ _ _ Hc) as [x Hx]. unfold columns. apply elem_of_list_fmap. exists (c, x). split; [done|]. by apply elem_of_map_to_list.
  - by left.
Qed.
