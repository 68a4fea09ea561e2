(** The protocol of the Writer: an invariant of its states. *)
From Verif Require Import Base Trajectory Tensor TrajUtil ChunkerOptions Sample Stream Reactor Chunker PropInsertStream PropTraj TrajWriter TrajWriterProofs Writer.
Local Open Scope Z_scope.

Definition keys_of (w : lw) : list Z := lc_key <$> l_chunks w.
Definition pend_keys (l : list litem) : list Z := concat ((fun it => get_chunk_keys (li_traj it)) <$> l).

(** What the server knows of the current stream. *)
Definition live (w : lw) : Prop := l_stream w = true -> l_half w = false ->
  l_streamed w ⊆ list_to_set (keys_of w) /\ l_streamed w ⊆ held (l_wire w).

(** Between calls; while a call writes. *)
Definition resting (next : Z) (keys : list Z) (buffer : list step) (pending : list litem) : Prop :=
  NoDup (next :: keys) /\ (buffer = [] -> pending = []) /\ (forall k, k ∈ pend_keys pending -> k = next \/ k ∈ keys).
Definition at_rest (w : lw) : Prop := resting (l_next w) (keys_of w) (l_buffer w) (l_pending w).
Definition writing (w : lw) (c : lcall) : Prop :=
  NoDup (keys_of w) /\ (forall k, k ∈ pend_keys (l_pending w) -> k ∈ keys_of w) /\
  match c with
  | CCreate key => l_buffer w = [] /\ l_next w ∉ keys_of w /\ (l_pending w = [] \/ exists it, l_pending w = [it] /\ li_key it = key)
  | _ => l_buffer w <> [] /\ (exists cs ch, l_chunks w = cs ++ [ch] /\ lc_key ch = l_next w) /\
         match c with CAppend _ => removelast (l_buffer w) = [] -> l_pending w = [] | _ => True end
  end.

(** The request and keep_chunk_keys. *)
Definition scanned (w : lw) (dn : list lchunk) (req : list kchunk) (keep : list Z) : Prop :=
  NoDup keep /\ (forall k, k ∈ keep -> k ∈ lc_key <$> dn /\ (k ∈ l_streamed w \/ k ∈ kc_key <$> req)) /\
  (forall k, k ∈ lc_key <$> dn -> k ∈ l_streamed w \/ k ∈ pend_keys (l_pending w) -> k ∈ keep) /\
  (forall c, c ∈ req -> c ∈ lc_wire <$> dn /\ kc_key c ∈ keep).
Definition phase_ok (w : lw) (c : lcall) (ph : lphase) : Prop :=
  match ph with
  | PScan rest req keep => writing w c /\ live w /\ l_stream w = true /\ exists dn, l_chunks w = dn ++ rest /\ scanned w dn req keep
  | PItem req keep => writing w c /\ live w /\ l_stream w = true /\ scanned w (l_chunks w) req keep
  | PWrite req keep => writing w c /\ live w /\ l_stream w = true /\ scanned w (l_chunks w) req keep /\ l_pending w <> []
  | PDone => writing w c /\ l_stream w = true
  | PStop | PFinish => writing w c /\ l_stream w = true /\ l_half w = true
  | PWait => c = CFlush /\ at_rest w /\ live w /\ l_pending w = []
  | PCloseWait | PCloseStop | PCloseFinish => (exists r, c = CClose r) /\ l_stream w = true /\ l_half w = true
  end.
(** The part of the invariant that does not depend on the position. *)
Record ginv (p : lconf) (w : lw) : Prop := {
  a_keys : forall k, k = l_next w \/ k ∈ keys_of w -> k ∈ l_keys w;
  a_wire : wire_ok ∅ (l_wire w);
  a_ring : length (l_ring w) = p_max p /\ (l_loc w < p_max p)%nat }.
Record pinv (p : lconf) (w : lw) : Prop := {
  a_general : ginv p w;
  a_closed : l_closed w = true -> l_pos w = LIdle;
  a_pos : match l_pos w with
          | LIdle => l_closed w = false -> at_rest w /\ live w
          | LRun c ph => phase_ok w c ph
          end }.

Lemma pinv_new p key : conf_ok p -> pinv p (lw_new p key).
Proof.
  intros (H1 & H2 & _). split; [split|..]; cbn.
  - intros k [->|Hk]; [set_solver|by apply elem_of_nil in Hk].
  - done.
  - rewrite replicate_length. lia.
  - done.
  - intros _. split; [|done]. split; [cbn; constructor; [set_solver|constructor]|]. split; [done|]. intros k Hk. by apply elem_of_nil in Hk.
Qed.

(** ** Steps *)

Lemma scan_start w : scanned w [] [] [].
Proof. split; [constructor|]. split; [intros k Hk; by apply elem_of_nil in Hk|]. split; intros k Hk; by apply elem_of_nil in Hk. Qed.

(** States that agree on what the general part looks at. *)
Lemma ginv_same p w w' : ginv p w -> l_next w' = l_next w -> l_chunks w' = l_chunks w -> l_keys w' = l_keys w -> l_wire w' = l_wire w ->
  l_ring w' = l_ring w -> l_loc w' = l_loc w -> ginv p w'.
Proof. intros [H1 H2 H3] E1 E2 E3 E4 E5 E6. split; unfold keys_of in *; by rewrite ?E1, ?E2, ?E3, ?E4, ?E5, ?E6. Qed.

Lemma write_begin_inv p w c w' ret : ginv p w -> l_closed w = false -> writing w c -> live w ->
  write_begin p w c = LNext w' ret -> pinv p w' /\ ret = None.
Proof.
  intros G Hc Hwr Hl. unfold write_begin. destruct (l_stream w) eqn:Hs.
  - intros [= <- <-]. split; [|done]. split; [by eapply ginv_same|cbn; by rewrite Hc|]. cbn.
    split; [done|]. split; [done|]. split; [done|]. exists []. split; [done|]. apply scan_start.
  - assert (HG : forall b, pinv p (ls_open w ∅ true false b [] 0 0 (LRun c (PScan (l_chunks w) [] [])))).
    { intros b. destruct G as [G1 G2 G3]. split; [by split|cbn; by rewrite Hc|]. cbn. split; [done|]. split; [intros _ _; split; apply empty_subseteq|].
      split; [done|]. exists []. split; [done|]. apply scan_start. }
    destruct (p_flight p); [destruct (_ || _); [done|]|]; intros [= <- <-]; (split; [|done]); apply HG.
Qed.

Lemma close_begin_inv p w r w' ret : ginv p w -> l_closed w = false -> close_begin w r = LNext w' ret -> pinv p w'.
Proof.
  intros G Hc. unfold close_begin. destruct (l_stream w) eqn:Hs; [destruct (l_half w); [done|]|]; intros [= <- <-].
  - split; [by eapply ginv_same|cbn; by rewrite Hc|]. cbn. split; [by eexists|done].
  - destruct G as [G1 G2 G3]. split; [split; cbn; try done|done|done]. intros k [->|Hx]; [apply G1; by left|by apply elem_of_nil in Hx].
Qed.

Lemma pend_keys_app l it : pend_keys (l ++ [it]) = pend_keys l ++ get_chunk_keys (li_traj it).
Proof. unfold pend_keys. rewrite fmap_app, concat_app. cbn. by rewrite app_nil_r. Qed.

Lemma ring_back_lt p loc t : (1 <= p_max p)%nat -> (ring_back p loc t < p_max p)%nat.
Proof. intros H. unfold ring_back. pose proof (Z.mod_pos_bound (Z.of_nat loc - 1 - Z.of_nat t) (Z.of_nat (p_max p))). lia. Qed.

(** A failed call leaves the writer at rest if, without its chunk, it was. *)
Lemma call_failed_inv p w c st w' ret : (1 <= p_max p)%nat -> ginv p w -> l_closed w = false -> live w ->
  match c with
  | CCreate _ => resting (l_next w) (keys_of w) (l_buffer w) (removelast (l_pending w))
  | CAppend _ => resting (l_next w) (keys_of w) (removelast (l_buffer w)) (l_pending w)
  | _ => at_rest w
  end ->
  call_failed p w c st = LNext w' ret -> pinv p w'.
Proof.
  intros Hp G Hc HL HR. unfold call_failed. destruct c as [old|key| |retry].
  - intros [= <- <-]. destruct G as [G1 G2 G3]. split; [split; cbn; try done|cbn; done|cbn; done].
    rewrite insert_length. split; [by destruct G3|]. by apply ring_back_lt.
  - intros [= <- <-]. split; [by eapply ginv_same|cbn; done|cbn; done].
  - intros [= <- <-]. split; [by eapply ginv_same|cbn; done|cbn; done].
  - destruct (_ || _).
    + intros [= <- <-]. split; [by eapply ginv_same|cbn; done|cbn; done].
    + by apply close_begin_inv.
Qed.

Lemma keys_snoc (cs : list lchunk) ch : lc_key <$> (cs ++ [ch]) = (lc_key <$> cs) ++ [lc_key ch].
Proof. by rewrite fmap_app. Qed.
Lemma nodup_snoc (l : list Z) x : NoDup (l ++ [x]) -> NoDup (x :: l).
Proof. rewrite NoDup_app. intros (H1 & H2 & _). constructor; [|done]. intros H. apply (H2 x H). set_solver. Qed.
Lemma nodup_snoc2 (l : list Z) x : NoDup (x :: l) -> NoDup (l ++ [x]).
Proof. rewrite NoDup_cons. intros [H1 H2]. apply NoDup_app. split; [done|]. split; [|constructor; [set_solver|constructor]]. intros y Hy Hx. apply elem_of_list_singleton in Hx. by subst. Qed.

(** Removing the chunk again. *)
Lemma writing_undo w c : writing w c -> match c with CCreate _ => True | _ => False end \/
  exists cs ch, l_chunks w = cs ++ [ch] /\ removelast (l_chunks w) = cs /\ NoDup (l_next w :: (lc_key <$> cs)) /\ keys_of w = (lc_key <$> cs) ++ [l_next w].
Proof.
  intros (H1 & H2 & H3). destruct c; try (by left); right; destruct H3 as (_ & (cs & ch & E1 & E2) & _); exists cs, ch; unfold keys_of in *;
    rewrite E1 in *; rewrite removelast_last, keys_snoc, E2 in *; (split; [done|]; split; [done|]; split; [by apply nodup_snoc|done]).
Qed.

Lemma write_failed_inv p w c st nk w' ret : (1 <= p_max p)%nat -> ginv p w -> l_closed w = false -> writing w c ->
  (l_stream w = true -> l_half w = true) -> st <> Ok -> write_end p w c st nk = LNext w' ret -> pinv p w'.
Proof.
  intros Hp G Hc Hwr Hh Hst. assert (HL : live w) by (intros H1 H2; exfalso; by rewrite (Hh H1) in H2).
  pose proof Hwr as (N1 & N2 & N3). unfold write_end. rewrite bool_decide_false by done. destruct c as [old|key| |retry].
  2: { apply call_failed_inv; try done. destruct N3 as (B1 & B2 & B3). split; [by constructor|]. 
       assert (removelast (l_pending w) = []) as -> by (destruct B3 as [->|(it & -> & _)]; done). split; [done|]. intros k Hx. by apply elem_of_nil in Hx. }
  all: destruct (writing_undo w _ Hwr) as [[]|(cs & ch & E1 & E2 & E3 & E4)]; apply call_failed_inv; [done| |done|intros H1 H2; exfalso; cbn in H1, H2; by rewrite (Hh H1) in H2|];
    [destruct G as [G1 G2 G3]; split; cbn; try done; intros k Hx; apply G1; unfold keys_of in *; cbn in Hx; rewrite E2 in Hx; rewrite E4; set_solver|];
    destruct N3 as (B1 & _ & B2); (split; [unfold keys_of; cbn; by rewrite E2|]); (split; [done|]);
    intros k Hx; apply N2 in Hx; unfold keys_of; cbn; rewrite E2; rewrite E4 in Hx; set_solver.
Qed.

Lemma trim_front_suffix n m cs : exists pre, cs = pre ++ trim_front n m cs /\ dropped cs (trim_front n m cs) = lc_key <$> pre.
Proof.
  assert (H : exists pre, cs = pre ++ trim_front n m cs).
  { induction cs as [|c cs IH]; [by exists []|]. cbn. case_decide; [|by exists []]. destruct IH as [pre IH]. exists (c :: pre). cbn. by rewrite <- IH. }
  destruct H as [pre H]. exists pre. split; [done|]. revert H. generalize (trim_front n m cs). intros t ->. unfold dropped. rewrite app_length, Nat.add_sub. by rewrite take_app.
Qed.
Lemma trim_front_nonempty n m cs : (1 <= m)%nat -> cs <> [] -> trim_front n m cs <> [].
Proof. intros Hm. induction cs as [|c cs IH]; [done|]. intros _. cbn. case_decide; [|done]. destruct cs; [cbn in *; lia|by apply IH]. Qed.

Lemma write_done_inv p w c nk w' ret : (1 <= p_max p)%nat -> ginv p w -> l_closed w = false -> writing w c -> live w -> l_pending w = [] -> nk ∉ l_keys w ->
  write_end p w c Ok nk = LNext w' ret -> pinv p w'.
Proof.
  intros Hp G Hc Hwr HL Hpe Hnk. pose proof Hwr as (N1 & N2 & N3). pose proof G as [G1 G2 G3]. unfold write_end. rewrite bool_decide_true by done.
  destruct (match c with CCreate _ => true | _ => false end) eqn:Ec.
  - destruct c as [|key| |]; try done. intros [= <- <-]. split; [by eapply ginv_same|done|]. cbn. intros _. destruct N3 as (B1 & B2 & _).
    split; [|done]. split; [by constructor|]. split; [done|]. intros k. cbn. rewrite Hpe. intros Hx. by apply elem_of_nil in Hx.
  - destruct (trim_front_suffix (p_len p) (p_max p) (l_chunks w)) as (pre & E1 & E2). rewrite E2. set (cs := trim_front (p_len p) (p_max p) (l_chunks w)) in *. clearbody cs.
    set (w1 := ls_advance w (l_index w + Z.of_nat (length (l_buffer w))) [] nk (l_streamed w ∖ list_to_set (lc_key <$> pre)) cs (nk :: l_keys w)).
    assert (EK : keys_of w = (lc_key <$> pre) ++ (lc_key <$> cs)) by (unfold keys_of; by rewrite E1, fmap_app).
    assert (K1 : keys_of w1 = lc_key <$> cs) by done.
    assert (GW : ginv p w1).
    { split; [|done|done]. intros k. rewrite K1. cbn. intros [->|Hx]; [left|right; apply G1; right; rewrite EK; apply elem_of_app; by right]. }
    assert (RW : at_rest w1).
    { split; [|split; [done|]].
      - rewrite K1. cbn. constructor; [|rewrite EK in N1; by apply NoDup_app in N1 as (_ & _ & ?)]. intros Hx. apply Hnk, G1. right. rewrite EK. apply elem_of_app. by right.
      - cbn. rewrite Hpe. intros k Hx. by apply elem_of_nil in Hx. }
    assert (LW : live w1).
    { intros Hs Hh. cbn in Hs, Hh. destruct (HL Hs Hh) as [L1 L2]. rewrite K1. cbn. split; [|set_solver].
      rewrite EK, list_to_set_app_L in L1. set_solver. }
    assert (CW : l_closed w1 = false) by done. clearbody w1.
        destruct c as [old| | |retry]; try done.
    + intros [= <- <-]. split; [by eapply ginv_same|done|]. cbn. done.
    + intros [= <- <-]. split; [by eapply ginv_same|done|]. cbn. done.
    + by apply close_begin_inv.
Qed.

Lemma finish_begin_inv p w c w' ret : (1 <= p_max p)%nat -> ginv p w -> l_closed w = false -> live w -> at_rest w -> l_buffer w <> [] ->
  match c with CCreate _ => False | CAppend _ => resting (l_next w) (keys_of w) (removelast (l_buffer w)) (l_pending w) | _ => True end ->
  finish_begin p w c = LNext w' ret -> pinv p w'.
Proof.
  intros Hp G Hc HL HR Hb Hcc. unfold finish_begin. destruct (build_chunk _ _) as [[d|]|]; [|apply call_failed_inv; try done; by destruct c|done].
  set (ch := mkLchunk _ _ _ _ _). set (w1 := ls_chunk w _ _). assert (K1 : keys_of w1 = keys_of w ++ [l_next w]) by (unfold keys_of; cbn; by rewrite fmap_app).
  destruct G as [G1 G2 G3]. destruct HR as (R1 & R2 & R3). intros H. eapply write_begin_inv in H as [H _]; [done| |done| |].
  - split; [|done|done]. intros k. rewrite K1, elem_of_app, elem_of_list_singleton. cbn. intros [Hx|[Hx|Hx]]; apply G1; auto.
  - split; [|split].
    + rewrite K1. by apply nodup_snoc2.
    + rewrite K1. intros k Hk. apply R3 in Hk. rewrite elem_of_app, elem_of_list_singleton. tauto.
    + destruct c as [old| | |]; [|done| |]; (split; [done|]; split; [by exists (l_chunks w), ch|]); try exact I. intros Hx. by apply Hcc.
  - intros Hs Hh. destruct (HL Hs Hh) as [L1 L2]. split; [|done]. rewrite K1, list_to_set_app_L. cbn. set_solver.
Qed.

Lemma held_snoc_chunks wire req : held (wire ++ [mkIreq req None]) = held wire ∪ list_to_set (kc_key <$> req).
Proof. rewrite held_snoc. done. Qed.

Lemma chunk_scan_inv p w c ch rest req keep big o w' ret : pinv p w -> l_pos w = LRun c (PScan (ch :: rest) req keep) ->
  chunk_scan w c ch rest req keep big o = LNext w' ret -> pinv p w'.
Proof.
  intros [G Hc HP] Hpos. rewrite Hpos in HP, Hc. destruct HP as (Hwr & HL & Hs & dn & E & S1 & S2 & S3 & S4).
  assert (Hcl : l_closed w = false) by (destruct (l_closed w); [by specialize (Hc eq_refl)|done]).
  assert (Hnd : NoDup (lc_key <$> (dn ++ ch :: rest))) by (rewrite <- E; apply Hwr). rewrite fmap_app, fmap_cons in Hnd. apply NoDup_app in Hnd as (D1 & D2 & D3).
  assert (Hnew : lc_key ch ∉ keep). { intros Hx. apply S2 in Hx as [Hx _]. apply (D2 _ Hx). apply elem_of_list_here. }
  assert (E' : l_chunks w = (dn ++ [ch]) ++ rest) by (by rewrite <- app_assoc).
  assert (KD : forall k, k ∈ lc_key <$> dn ++ [ch] <-> k ∈ lc_key <$> dn \/ k = lc_key ch) by (intros k; rewrite fmap_app, elem_of_app; cbn; by rewrite elem_of_list_singleton).
  unfold chunk_scan. change (item_keys w) with (pend_keys (l_pending w)).
  destruct (bool_decide_reflect (lc_key ch ∈ pend_keys (l_pending w))) as [Hi|Hi]; destruct (bool_decide_reflect (lc_key ch ∈ l_streamed w)) as [Hst|Hst]; cbn [andb negb].
  2: {
    assert (S' : scanned w (dn ++ [ch]) (req ++ [lc_wire ch]) (keep ++ [lc_key ch])).
    { split; [apply nodup_snoc2; by constructor|]. split; [|split].
      - intros k. rewrite elem_of_app, elem_of_list_singleton, KD, fmap_app, elem_of_app. cbn. rewrite elem_of_list_singleton. intros [Hx| ->]; [|by auto]. apply S2 in Hx. tauto.
      - intros k. rewrite KD, elem_of_app, elem_of_list_singleton. intros [Hx|Hx] Hy; [left; by apply S3|by right].
      - intros x. rewrite elem_of_app, elem_of_list_singleton. intros [Hx| ->].
        + apply S4 in Hx as [Hx Hy]. rewrite fmap_app. split; apply elem_of_app; by left.
        + rewrite fmap_app. split; apply elem_of_app; right; apply elem_of_list_here. }
    destruct big; [|intros [= <- <-]; split; [by eapply ginv_same|cbn; by rewrite Hcl|]; cbn; split; [done|]; split; [done|]; split; [done|]; by exists (dn ++ [ch])].
    destruct (l_half w) eqn:Hh; [done|]. destruct (HL Hs Hh) as [L1 L2]. set (req' := req ++ [lc_wire ch]) in *. set (keep' := keep ++ [lc_key ch]) in *.
    assert (WO : wire_ok ∅ (l_wire w ++ [mkIreq req' None])).
    { apply wire_ok_snoc. split; [apply G|]. split; [|done]. left. cbn. unfold req'. by destruct req. }
    assert (GW : forall o, ginv p (lsend w (mkIreq req' None) o)) by (intros o'; unfold lsend; destruct (delivered o'); [destruct G; by split|done]).
    destruct (write_ok o) eqn:Ho.
    - intros [= <- <-]. destruct o; try done. cbn [lsend delivered] in *. specialize (GW OutOk). unfold lsend in GW. cbn [delivered] in GW.
      destruct S' as (T1 & T2 & T3 & T4).
      assert (RK : forall k, k ∈ kc_key <$> req' -> k ∈ lc_key <$> dn ++ [ch]).
      { intros k Hk. apply elem_of_list_fmap in Hk as (x & -> & Hx). apply T4 in Hx as [_ Hx]. by apply T2 in Hx as [? _]. }
      assert (RC : forall k, k ∈ kc_key <$> req' -> k ∈ keys_of w) by (intros k Hk; apply RK in Hk; unfold keys_of; rewrite E', fmap_app; apply elem_of_app; by left).
      split; [by eapply ginv_same|cbn; by rewrite Hcl|]. cbn. split; [done|]. split.
      { intros _ _. cbn. rewrite held_snoc_chunks. split; [|by apply union_mono_r]. intros k. rewrite elem_of_union, !elem_of_list_to_set. intros [Hx|Hx]; [|by apply RC]. apply L1 in Hx. by apply elem_of_list_to_set in Hx. }
      split; [done|]. exists (dn ++ [ch]). split; [done|]. split; [done|]. cbn. split; [|split].
      + intros k Hk. apply T2 in Hk as [Hx Hy]. split; [done|]. left. rewrite elem_of_union, elem_of_list_to_set. done.
      + intros k Hk Hy. destruct Hy as [Hy|Hy]; [|by apply T3; auto]. apply elem_of_union in Hy as [Hy|Hy]; [by apply T3; auto|]. apply elem_of_list_to_set in Hy.
        apply elem_of_list_fmap in Hy as (x & -> & Hx). by apply T4 in Hx as [_ ?].
      + intros x Hx. by apply elem_of_nil in Hx.
    - intros [= <- <-]. specialize (GW o). split; [by eapply ginv_same|cbn; unfold lsend; destruct (delivered o); cbn; by rewrite Hcl|]. cbn.
      unfold lsend. destruct (delivered o); done. }
  all: assert (S' : forall keep', keep' = keep /\ lc_key ch ∉ l_streamed w /\ lc_key ch ∉ pend_keys (l_pending w) \/ keep' = keep ++ [lc_key ch] /\ lc_key ch ∈ l_streamed w -> scanned w (dn ++ [ch]) req keep').
  all: try (intros keep' [(-> & N1 & N2)|(-> & N1)];
    [split; [done|]; split; [intros k Hk; rewrite KD; apply S2 in Hk; tauto|]; split; [intros k; rewrite KD; intros [Hx| ->] Hy; [by apply S3|tauto]|];
     intros x Hx; apply S4 in Hx as [Hx Hy]; rewrite fmap_app; split; [apply elem_of_app; by left|done]
    |split; [apply nodup_snoc2; by constructor|]; split; [intros k; rewrite elem_of_app, elem_of_list_singleton, KD; intros [Hx| ->]; [apply S2 in Hx; tauto|by auto]|];
     split; [intros k; rewrite KD, elem_of_app, elem_of_list_singleton; intros [Hx| ->] Hy; [left; by apply S3|by right]|];
     intros x Hx; apply S4 in Hx as [Hx Hy]; rewrite fmap_app; split; apply elem_of_app; by left]).
  all: intros [= <- <-]; (split; [by eapply ginv_same|cbn; by rewrite Hcl|]; cbn; split; [done|]; split; [done|]; split; [done|]; exists (dn ++ [ch]); split; [done|]; apply S'); tauto.
Qed.

Lemma item_write_inv p w c req keep o w' ret : pinv p w -> l_pos w = LRun c (PWrite req keep) -> item_write p w c req keep o = LNext w' ret -> pinv p w'.
Proof.
  intros [G Hc HP] Hpos. rewrite Hpos in HP, Hc. destruct HP as (Hwr & HL & Hs & (S1 & S2 & S3 & S4) & Hpe).
  assert (Hcl : l_closed w = false) by (destruct (l_closed w); [by specialize (Hc eq_refl)|done]). fold (keys_of w) in S2, S3.
  unfold item_write. destruct (l_pending w) as [|it rest] eqn:Ep; [done|]. destruct (l_half w) eqn:Hh; [done|]. destruct (HL Hs Hh) as [L1 L2].
  set (m := litem_message p it req keep). pose proof Hwr as (N1 & N2 & N3).
  assert (KR : forall k, k ∈ keep -> k ∈ held (l_wire w) ∪ keys_in req).
  { intros k Hk. apply S2 in Hk as [_ [Hk|Hk]]; apply elem_of_union; [left; by apply L2|right]. by apply elem_of_list_to_set. }
  assert (MO : message_ok (held (l_wire w)) m).
  { split; [by right|]. intros ii [= <-]. cbn. split; [done|]. split; [done|]. intros k Hk.
    assert (Hk' : k ∈ pend_keys (it :: rest)) by (unfold pend_keys; cbn; apply elem_of_app; by left).
    apply KR, S3; [|by right]. apply N2. by rewrite Ep. }
  assert (GW : ginv p (lsend w m o)).
  { unfold lsend. destruct (delivered o); [|done]. destruct G as [G1 G2 G3]. split; [done| |done]. cbn. apply wire_ok_snoc. done. }
  destruct (write_ok o) eqn:Ho; intros [= <- <-].
  2: { split; [by eapply ginv_same|cbn; unfold lsend; destruct (delivered o); cbn; by rewrite Hcl|]. cbn. unfold lsend. destruct (delivered o); (split; [exact Hwr|exact Hs]). }
  assert (R1 : forall k, k ∈ kc_key <$> req -> k ∈ keep). { intros k Hk. apply elem_of_list_fmap in Hk as (x & -> & Hx). by apply S4 in Hx as [_ ?]. }
  destruct o; try done. cbn [lsend delivered] in *. unfold lsend in *. cbn [delivered] in *.
  assert (SK : forall k, k ∈ l_streamed w ∪ list_to_set (kc_key <$> req) -> k ∈ keep).
  { intros k Hk. apply elem_of_union in Hk as [Hk|Hk]; [|apply R1; by apply elem_of_list_to_set in Hk]. apply S3; [|by left]. apply L1 in Hk. by apply elem_of_list_to_set in Hk. }
  split; [by eapply ginv_same|cbn; by rewrite Hcl|]. cbn. split; [|split; [|split; [done|]]].
  - split; [done|]. split.
    + cbn. intros k Hk. apply N2. rewrite Ep. unfold pend_keys. cbn. apply elem_of_app. by right.
    + destruct c as [old|key| |r]; cbn.
      * destruct N3 as (B1 & B2 & B3). split; [done|]. split; [done|]. intros Hx. exfalso. specialize (B3 Hx). by rewrite Ep in B3.
      * destruct N3 as (B1 & B2 & B3). split; [done|]. split; [done|]. left. destruct B3 as [B3|(it' & B3 & _)]; rewrite Ep in B3; [done|]. by injection B3 as -> ->.
      * tauto.
      * tauto.
  - intros _ _. cbn. split.
    + intros k Hk. apply SK in Hk. apply S2 in Hk as [Hk _]. by apply elem_of_list_to_set.
    + intros k Hk. rewrite held_snoc. unfold held_after, m, litem_message. cbn. apply elem_of_intersection. apply SK in Hk. split; [by apply KR|by apply elem_of_list_to_set].
  - split; [done|]. cbn. split; [|split; [|done]].
    + intros k Hk. apply S2 in Hk as [H1 H2]. split; [done|]. destruct H2; [left; apply elem_of_union; by left|by right].
    + intros k Hk [Hx|Hx]; [by apply SK|]. apply S3; [done|]. right. unfold pend_keys. cbn. apply elem_of_app. by right.
Qed.

Lemma stop_worker_fields p w st w1 : stop_worker p w = (st, w1) -> exists b f, w1 = ls_stop w b f.
Proof. unfold stop_worker. destruct (p_flight p); [destruct (_ <? _)|]; intros [= <- <-]; eexists _, _; try reflexivity. instantiate (1 := l_flight w). instantiate (1 := l_running w). by destruct w. Qed.

Lemma call_step_inv p w c ph big o nk w' ret : (1 <= p_max p)%nat -> pinv p w -> l_pos w = LRun c ph -> nk ∉ l_keys w -> call_step p w c ph big o nk = LNext w' ret -> pinv p w'.
Proof.
  intros Hp I Hpos Hnk. pose proof I as [G Hc HP]. rewrite Hpos in HP, Hc.
  assert (Hcl : l_closed w = false) by (destruct (l_closed w); [by specialize (Hc eq_refl)|done]). destruct ph as [rest req keep|req keep|req keep| | | | | | |]; cbn [call_step].
  - destruct rest as [|ch rest]; [|by apply chunk_scan_inv]. intros [= <- <-]. split; [by eapply ginv_same|cbn; by rewrite Hcl|]. cbn.
    destruct HP as (H1 & H2 & H3 & dn & E & H4). rewrite app_nil_r in E. split; [done|]. split; [done|]. split; [done|]. by rewrite E.
  - destruct HP as (H1 & H2 & H3 & H4). destruct (l_pending w) as [|it rest] eqn:Ep; [by apply write_done_inv|].
    assert (PW : pinv p (ls_pos w (LRun c (PWrite req keep)))).
    { split; [by eapply ginv_same|cbn; by rewrite Hcl|]. cbn. split; [done|]. split; [done|]. split; [done|]. split; [done|]. by rewrite Ep. }
    assert (PD : pinv p (ls_pos w (LRun c PDone))) by (split; [by eapply ginv_same|cbn; by rewrite Hcl|by cbn]).
    destruct (p_flight p); [destruct (confirm_items w _) as [[]|]|]; intros [= <- <-]; done.
  - by apply item_write_inv.
  - destruct HP as [H1 H2]. destruct (l_half w); [done|]. intros [= <- <-]. split; [by eapply ginv_same|cbn; by rewrite Hcl|by cbn].
  - destruct HP as (H1 & H2 & H3). destruct (stop_worker p w) as [st w1] eqn:Es. apply stop_worker_fields in Es as (b & f & ->). case_bool_decide as Hst.
    + intros [= <- <-]. split; [by eapply ginv_same|cbn; by rewrite Hcl|by cbn].
    + apply write_failed_inv; try done. by eapply ginv_same.
  - done.
  - destruct HP as (-> & H1 & H2 & H3). destruct (confirm_items w 0); [|done]. intros [= <- <-]. split; [by eapply ginv_same|done|by cbn].
  - destruct HP as (H1 & H2). destruct (confirm_items w 0); [|done]. intros [= <- <-]. split; [by eapply ginv_same|cbn; by rewrite Hcl|by cbn].
  - destruct HP as (H1 & H2). destruct (stop_worker p w) as [st w1] eqn:Es. apply stop_worker_fields in Es as (b & f & ->).
    intros [= <- <-]. split; [by eapply ginv_same|cbn; by rewrite Hcl|by cbn].
  - done.
Qed.

Lemma stream_finish_inv p w st nk w' ret : (1 <= p_max p)%nat -> pinv p w -> nk ∉ l_keys w -> (forall c, l_pos w = LRun c PFinish -> st <> Ok) ->
  stream_finish p w st nk = LNext w' ret -> pinv p w'.
Proof.
  intros Hp I Hnk Hst. pose proof I as [G Hc HP]. unfold stream_finish. destruct (l_pos w) as [|c ph] eqn:Hpos; [done|].
  assert (Hcl : l_closed w = false) by (destruct (l_closed w); [by specialize (Hc eq_refl)|done]).
  assert (GS : ginv p (ls_shut w false false [] 0 0)) by (destruct G as [G1 G2 G3]; by split).
  destruct ph; try done.
  - destruct HP as (H1 & H2 & H3). destruct (_ && _).
    + intros H. eapply write_begin_inv in H as [H _]; done.
    + apply write_failed_inv; try done. by eapply Hst.
  - intros [= <- <-]. destruct GS as [G1 G2 G3]. split; [|done|done]. split; [|done|done]. cbn. intros k [->|Hx]; [apply G1; by left|by apply elem_of_nil in Hx].
Qed.

(** The slices that FlatTimestepTrajectory makes are of the chunks it is given. *)
Lemma timestep_column_keys idx cs : forall off rem col, timestep_column idx cs off rem = Some col -> forall s, s ∈ col -> sl_key s ∈ cs.*1.
Proof.
  induction cs as [|[k len] cs IH]; intros off rem col; cbn; [case_decide; [|done]; intros [= <-] s Hs; by apply elem_of_nil in Hs|]. case_decide; [|done].
  destruct (timestep_column idx cs _ _) as [r|] eqn:E; [|done]. cbn. intros [= <-] s. rewrite elem_of_cons. intros [->|Hs]; [left|]. right. eapply IH; [exact E|done].
Qed.
Lemma timestep_columns_keys n cs off len : forall first tr, timestep_columns n first cs off len = Some tr -> forall col, col ∈ tr -> forall s, s ∈ col -> sl_key s ∈ cs.*1.
Proof.
  induction n as [|n IH]; intros first tr; cbn; [intros [= <-] col Hs; by apply elem_of_nil in Hs|].
  destruct (timestep_column first cs off len) as [c|] eqn:Ec; [|done]. cbn. destruct (timestep_columns n _ _ _ _) as [r|] eqn:E; [|done]. cbn. intros [= <-] col. rewrite elem_of_cons.
  intros [->|Hs]; [by eapply timestep_column_keys|by eapply IH].
Qed.
Lemma flat_keys cs n off len tr k : flat_timestep_trajectory cs n off len = Some tr -> k ∈ get_chunk_keys tr -> k ∈ cs.*1.
Proof.
  intros H. unfold get_chunk_keys, traj_keys. rewrite chunk_keys_aux_elem. intros [Hk _]. apply elem_of_list_fmap in Hk as (s & -> & Hs).
  apply elem_of_list_In, in_concat in Hs as (col & H1 & H2). apply elem_of_list_In in H1, H2. eapply timestep_columns_keys; [exact H|exact H1|exact H2].
Qed.
Lemma gather_keys cs : forall r k, k ∈ (gather cs r).1.*1 -> k ∈ lc_key <$> cs.
Proof.
  induction cs as [|c cs IH]; intros r k; cbn; [done|]. destruct (0 <? r); [|intros H; by apply elem_of_nil in H].
  specialize (IH (r - (lc_end c - lc_start c + 1)) k). destruct (gather cs _) as [l x]. cbn in *. rewrite !elem_of_cons. tauto.
Qed.
Lemma item_chunks_keys w n k : k ∈ (item_chunks w n).1.*1 -> (l_buffer w <> [] /\ k = l_next w) \/ k ∈ keys_of w.
Proof.
  assert (R : forall r, k ∈ (gather (reverse (l_chunks w)) r).1.*1 -> k ∈ keys_of w).
  { intros r H. apply gather_keys in H. rewrite fmap_reverse, elem_of_reverse in H. done. }
  unfold item_chunks. destruct (l_buffer w) as [|s b].
  - specialize (R n). destruct (gather _ _) as [l x]. cbn in *. rewrite fmap_reverse, elem_of_reverse. tauto.
  - specialize (R (n - Z.of_nat (length (s :: b)))). destruct (gather _ _) as [l x]. cbn [fst] in *. rewrite fmap_reverse, elem_of_reverse, fmap_cons, elem_of_cons. cbn [fst]. intros [H|H]; [by left|right; tauto].
Qed.

Lemma lw_create_inv p w table n prio key w' ret : pinv p w -> l_pos w = LIdle -> lw_create p w table n prio key = LNext w' ret -> pinv p w'.
Proof.
  intros I Hpos. pose proof I as [G Hc HP]. rewrite Hpos in HP. unfold lw_create. destruct (l_closed w) eqn:Hcl; [by intros [= <- <-]|].
  destruct (_ || _); [by intros [= <- <-]|]. destruct (_ <? _); [by intros [= <- <-]|]. destruct (check_signature _ _ _ _) as [st|]; [|done].
  destruct (negb _); [by intros [= <- <-]|]. destruct (num_columns w) as [cols|]; [|done]. cbn [mbind option_bind].
  pose proof (item_chunks_keys w n) as IK. destruct (item_chunks w n) as [cs rm]. cbn [fst] in IK. destruct (flat_timestep_trajectory cs cols (- rm) n) as [tr|] eqn:Et; [|done].
  destruct (HP eq_refl) as [(R1 & R2 & R3) HL]. set (it := mkLitem key table prio tr). cbn zeta.
  assert (PK : forall k, k ∈ pend_keys (l_pending w ++ [it]) -> k ∈ pend_keys (l_pending w) \/ (l_buffer w <> [] /\ k = l_next w) \/ k ∈ keys_of w).
  { intros k. rewrite pend_keys_app, elem_of_app. intros [Hk|Hk]; [by left|right]. apply IK. eapply flat_keys; [exact Et|exact Hk]. }
  set (w1 := ls_create w _ _). assert (G1 : ginv p w1) by (by eapply ginv_same). assert (P1 : l_pending w1 = l_pending w ++ [it]) by done.
  assert (F1 : l_buffer w1 = l_buffer w) by done. assert (F2 : keys_of w1 = keys_of w) by done. assert (F3 : l_next w1 = l_next w) by done.
  assert (F4 : live w1) by done. assert (F5 : l_closed w1 = false) by done. assert (F6 : l_pos w1 = LIdle) by done. clearbody w1.
  destruct (l_buffer w1) as [|s b] eqn:Eb.
  - symmetry in F1. specialize (R2 F1). rewrite R2 in *. intros H. eapply write_begin_inv in H as [H _]; try done.
    apply NoDup_cons in R1 as [R1a R1b]. split; [by rewrite F2|]. rewrite F2, P1, F3. split.
    + intros k Hk. apply PK in Hk as [Hk|[[Hk _]|Hk]]; [by apply elem_of_nil in Hk|congruence|done].
    + split; [done|]. split; [done|]. right. by exists it.
  - intros [= <- <-]. split; [done|by rewrite F5|]. rewrite F6. intros _. split; [|done]. split; [by rewrite F2, F3|]. rewrite Eb. split; [done|]. rewrite P1, F2, F3.
    intros k Hk. apply PK in Hk as [Hk|[[_ Hk]|Hk]]; [by apply R3|by left|by right].
Qed.

Lemma append_inv p w data w' ret : conf_ok p -> pinv p w -> l_pos w = LIdle -> append p w data = LNext w' ret -> pinv p w'.
Proof.
  intros Hconf I Hpos. pose proof I as [G Hc HP]. rewrite Hpos in HP. unfold append. destruct (l_closed w) eqn:Hcl; [by intros [= <- <-]|].
  destruct (match l_buffer w with [] => _ | _ => _ end); [by intros [= <- <-]|]. destruct (l_ring w !! l_loc w) as [old|] eqn:Er; [|done].
  destruct (HP eq_refl) as [(R1 & R2 & R3) HL]. cbn zeta. set (w1 := ls_append w _ _ _ _).
  assert (Hp : (1 <= p_max p)%nat) by (destruct Hconf as (? & ? & _); lia).
  assert (G1 : ginv p w1). { destruct G as [G1 G2 [G3 G4]]. split; [done|done|]. cbn. rewrite insert_length. split; [done|]. apply Nat.mod_upper_bound. lia. }
  assert (F1 : l_buffer w1 = l_buffer w ++ [data]) by done. assert (F2 : keys_of w1 = keys_of w) by done. assert (F3 : l_next w1 = l_next w) by done.
  assert (F4 : live w1) by done. assert (F5 : l_closed w1 = false) by done. assert (F6 : l_pos w1 = LIdle) by done. assert (F7 : l_pending w1 = l_pending w) by done. clearbody w1.
  assert (NB : l_buffer w1 <> []) by (rewrite F1; by destruct (l_buffer w)).
  assert (AR : at_rest w1) by (split; [by rewrite F2, F3|]; split; [done|]; by rewrite F2, F3, F7).
  destruct (_ <? _)%nat.
  - intros [= <- <-]. split; [done|by rewrite F5|]. by rewrite F6.
  - apply finish_begin_inv; try done. rewrite F1, removelast_last, F2, F3, F7. split; [done|]. split; done.
Qed.

Lemma lw_flush_inv p w w' ret : (1 <= p_max p)%nat -> pinv p w -> l_pos w = LIdle -> lw_flush p w = LNext w' ret -> pinv p w'.
Proof.
  intros Hp I Hpos. pose proof I as [G Hc HP]. rewrite Hpos in HP. unfold lw_flush. destruct (l_closed w) eqn:Hcl; [by intros [= <- <-]|].
  destruct (HP eq_refl) as [HR HL]. destruct (l_pending w) eqn:Ep.
  - intros [= <- <-]. split; [by eapply ginv_same|cbn; by rewrite Hcl|]. by cbn.
  - apply finish_begin_inv; try done. intros Hb. destruct HR as (_ & R2 & _). specialize (R2 Hb). by rewrite Ep in R2.
Qed.
Lemma lw_close_inv p w r w' ret : (1 <= p_max p)%nat -> pinv p w -> l_pos w = LIdle -> lw_close p w r = LNext w' ret -> pinv p w'.
Proof.
  intros Hp I Hpos. pose proof I as [G Hc HP]. rewrite Hpos in HP. unfold lw_close. destruct (l_closed w) eqn:Hcl; [by intros [= <- <-]|].
  destruct (HP eq_refl) as [HR HL]. destruct (l_pending w) eqn:Ep.
  - by apply close_begin_inv.
  - apply finish_begin_inv; try done. intros Hb. destruct HR as (_ & R2 & _). specialize (R2 Hb). by rewrite Ep in R2.
Qed.

Lemma lw_step_inv p w e w' ret : conf_ok p -> pinv p w -> lw_enabled w e -> lw_step p w e = LNext w' ret -> pinv p w'.
Proof.
  intros Hconf I He. assert (Hp : (1 <= p_max p)%nat) by (destruct Hconf as (? & ? & _); lia). destruct e as [data|table n prio key| |r|big o nk|st nk|n|]; cbn [lw_step]; unfold idle.
  - destruct (l_pos w) eqn:E; [|done]. by apply append_inv.
  - destruct (l_pos w) eqn:E; [|done]. by apply lw_create_inv.
  - destruct (l_pos w) eqn:E; [|done]. by apply lw_flush_inv.
  - destruct (l_pos w) eqn:E; [|done]. by apply lw_close_inv.
  - destruct (l_pos w) eqn:E; [done|]. by apply call_step_inv.
  - destruct He. by apply stream_finish_inv.
  - destruct (_ && _); [|done]. intros [= <- <-]. destruct I as [G Hc HP]. split; [by eapply ginv_same|done|]. cbn. destruct (l_pos w) as [|c []]; exact HP.
  - destruct (_ && _); [|done]. intros [= <- <-]. destruct I as [G Hc HP]. split; [by eapply ginv_same|done|]. cbn. destruct (l_pos w) as [|c []]; exact HP.
Qed.
Theorem lw_reach_inv p key w : conf_ok p -> lw_reach p (lw_new p key) w -> pinv p w.
Proof. intros Hc. induction 1; [by apply pinv_new|by eapply lw_step_inv]. Qed.
