(** The Writer: the ring buffer of signatures, and where the steps of the chunks and
    items are in the history. *)
From Verif Require Import Base Trajectory Tensor TrajUtil ChunkerOptions Sample Stream Reactor Chunker PropChunker PropDelta PropInsertStream PropTraj TrajWriter TrajWriterProofs Writer WriterProofs WriterData.
Local Open Scope Z_scope.

(** ** The ring buffer *)

Lemma ring_back_S p loc t : (loc < p_max p)%nat -> ring_back p ((loc + 1) mod p_max p) (S t) = ring_back p loc t.
Proof.
  intros H. unfold ring_back. rewrite Nat2Z.inj_mod. replace (Z.of_nat (loc + 1) mod Z.of_nat (p_max p) - 1 - Z.of_nat (S t)) with (Z.of_nat (loc + 1) mod Z.of_nat (p_max p) - (2 + Z.of_nat t)) by lia.
  rewrite Zminus_mod_idemp_l. f_equal. f_equal. lia.
Qed.
Lemma ring_back_back p loc t : (1 <= p_max p)%nat -> ring_back p (ring_back p loc 0) t = ring_back p loc (S t).
Proof.
  intros H. unfold ring_back. rewrite Z2Nat.id by (apply Z.mod_pos_bound; lia).
  replace ((Z.of_nat loc - 1 - Z.of_nat 0) mod Z.of_nat (p_max p) - 1 - Z.of_nat t) with ((Z.of_nat loc - 1 - Z.of_nat 0) mod Z.of_nat (p_max p) - (1 + Z.of_nat t)) by lia.
  rewrite Zminus_mod_idemp_l. f_equal. f_equal. lia.
Qed.
Lemma ring_back_ne p loc t : (loc < p_max p)%nat -> (S t < p_max p)%nat -> ring_back p loc t <> loc.
Proof.
  intros H1 H2 E. unfold ring_back in E. assert (E' : (Z.of_nat loc - 1 - Z.of_nat t) mod Z.of_nat (p_max p) = Z.of_nat loc) by (rewrite <- E at 2; rewrite Z2Nat.id; [done|apply Z.mod_pos_bound; lia]).
  destruct (decide (Z.of_nat loc - 1 - Z.of_nat t < 0)).
  - rewrite <- (Z.mod_unique _ _ (-1) (Z.of_nat loc - 1 - Z.of_nat t + Z.of_nat (p_max p))) in E'; lia.
  - rewrite Z.mod_small in E'; lia.
Qed.
Lemma ring_back_all p loc : (loc < p_max p)%nat -> ring_back p loc (p_max p - 1) = loc.
Proof.
  intros H. unfold ring_back. replace (Z.of_nat loc - 1 - Z.of_nat (p_max p - 1)) with (Z.of_nat loc + (-1) * Z.of_nat (p_max p)) by lia.
  rewrite Z.mod_add by lia. rewrite Z.mod_small by lia. lia.
Qed.

(** The steps that are there to stay. *)
Definition stable (w : lw) : list step := match cb (l_pos w) with Some (CAppend _) => removelast (l_hist w) | _ => l_hist w end.
Definition ring_ok (p : lconf) (ring : list (option (list (dty * list nat)))) (loc : nat) (hist : list step) : Prop :=
  length ring = p_max p /\ (loc < p_max p)%nat /\ forall t, (t < p_max p)%nat -> ring !! ring_back p loc t = Some (step_sig <$> reverse hist !! t).
Record rinv (p : lconf) (w : lw) : Prop := {
  r_ring : ring_ok p (l_ring w) (l_loc w) (l_hist w);
  r_old : forall old, cb (l_pos w) = Some (CAppend old) -> l_hist w <> [] /\ old = step_sig <$> reverse (l_hist w) !! p_max p;
  r_made : forall m, m ∈ l_made w -> lm_hist m `prefix_of` stable w }.

Lemma ring_append p ring loc hist data : ring_ok p ring loc hist -> ring_ok p (<[loc := Some (step_sig data)]> ring) ((loc + 1) mod p_max p) (hist ++ [data]).
Proof.
  intros (H1 & H2 & H3). split; [by rewrite insert_length|]. split; [apply Nat.mod_upper_bound; lia|]. intros [|t] Ht.
  - rewrite ring_back_next by done. rewrite reverse_app. cbn. by rewrite list_lookup_insert by lia.
  - rewrite ring_back_S by done. rewrite reverse_app. cbn. rewrite list_lookup_insert_ne; [apply H3; lia|]. intros E. by apply (ring_back_ne p loc t).
Qed.
Lemma ring_undo p ring loc hist data : ring_ok p ring loc (hist ++ [data]) ->
  ring_ok p (<[ring_back p loc 0 := step_sig <$> reverse (hist ++ [data]) !! p_max p]> ring) (ring_back p loc 0) hist.
Proof.
  intros (H1 & H2 & H3). assert (Hb : (ring_back p loc 0 < p_max p)%nat) by (apply ring_back_lt; lia). split; [by rewrite insert_length|]. split; [done|]. intros t Ht.
  destruct (decide (t = p_max p - 1)%nat) as [->|Hne].
  - rewrite ring_back_all by done. rewrite list_lookup_insert by lia. rewrite reverse_app. destruct (p_max p) as [|k]; [lia|]. cbn. do 2 f_equal. f_equal. lia.
  - rewrite list_lookup_insert_ne by (intros E; apply (ring_back_ne p (ring_back p loc 0) t); [done|lia|done]). rewrite ring_back_back by lia. rewrite H3 by lia. by rewrite reverse_app.
Qed.

Lemma lw_new_ring p key : conf_ok p -> rinv p (lw_new p key).
Proof.
  intros (H1 & H2 & _). split; [|done|intros m Hm; by apply elem_of_nil in Hm]. split; [cbn; by rewrite replicate_length|]. split; [cbn; lia|]. intros t Ht. cbn.
  rewrite lookup_replicate_2 by (apply ring_back_lt; lia). done.
Qed.
Lemma deff_ring p w w' : rinv p w -> deff p w w' -> rinv p w'.
Proof.
  intros [R1 R2 R3] D. destruct D as [new pre C1 _ _ _ _ C2 C3 C4 _ C5 _ _ _ _|data _ C1 C2 _ _ _ C3 C4 C5 _ C6 _ _ _|data old d _ C1 C2 _ _ _ _ C3 Co C4 C5 _ C6 _ _ _|c d C1 C2 Cn _ _ _ _ C3 C4 C5 _ C6 _ _ _|nk pre c C1 C2 _ _ _ _ C3 C4 C5 _ C6 _ _ _|c C1 C2 _ C3 C4|table n prio key cols tr C1 C2 _ _ _ C3 C4 C5 _ C6 _ _ _ _ _ _ _ _].
  - split; unfold stable in *; by rewrite ?C1, ?C2, ?C3, ?C4, ?C5.
  - split; unfold stable in *; rewrite ?C2, ?C3, ?C4, ?C5, ?C6, ?C1 in *; [by apply ring_append|done|]. intros m Hm. by apply prefix_app_r, R3.
  - split; unfold stable in *; rewrite ?C2, ?C3, ?C4, ?C5, ?C6, ?C1 in *; [by apply ring_append| |].
    + intros old' [= <-]. split; [by destruct (l_hist w)|]. rewrite reverse_app. destruct R1 as (A1 & A2 & A3). specialize (A3 (p_max p - 1)%nat ltac:(lia)). rewrite ring_back_all in A3 by done.
      rewrite Co in A3. injection A3 as ->. destruct (p_max p) as [|k]; [lia|]. cbn. f_equal. f_equal. lia.
    + intros m Hm. rewrite removelast_last. by apply R3.
  - split; unfold stable in *; rewrite ?C2, ?C3, ?C4, ?C5, ?C6, ?C1 in *; [done| |].
    + intros old [= ->]. by specialize (Cn old).
    + intros m Hm. destruct c as [old| | |]; [by specialize (Cn old)|by apply R3..].
  - split; unfold stable in *; rewrite ?C2, ?C3, ?C4, ?C5, ?C6, ?C1 in *; [done|done|]. intros m Hm. destruct c as [old| | |]; [|by apply R3..].
    etrans; [by apply R3|]. destruct (R2 old) as [Hne _]; [done|]. destruct (l_hist w) as [|s h _] using rev_ind; [done|]. rewrite removelast_last. by apply prefix_app_r.
  - rewrite C1 in R2. destruct c as [old|key| |r].
    + destruct C4 as (D1 & D2 & D3). destruct (R2 old eq_refl) as [Hne Hold]. unfold stable in *. rewrite C1 in R3. split; unfold stable; rewrite ?C2, ?C3; [|done|].
      * rewrite D1, D3, D2, Hold. clear -R1 Hne. destruct (l_hist w) as [|s h _] using rev_ind; [done|]. rewrite removelast_last. by apply ring_undo.
      * by rewrite D1.
    + destruct C4 as (D1 & D2 & D3). unfold stable in *. rewrite C1 in R3. split; unfold stable; rewrite ?C2, ?C3, ?D1, ?D2, ?D3; done.
    + destruct C4 as (D1 & D2 & D3). unfold stable in *. rewrite C1 in R3. split; unfold stable; rewrite ?C2, ?C3, ?D1, ?D2, ?D3; done.
    + destruct C4 as (D1 & D2 & D3). unfold stable in *. rewrite C1 in R3. split; unfold stable; rewrite ?C2, ?C3, ?D1, ?D2, ?D3; done.
  - split; unfold stable in *; rewrite ?C2, ?C3, ?C4, ?C5, ?C6, ?C1 in *; [done|done|]. intros m. rewrite elem_of_app, elem_of_list_singleton. intros [Hm| ->]; [by apply R3|done].
Qed.
Theorem lw_reach_ring p key w : conf_ok p -> lw_reach p (lw_new p key) w -> rinv p w.
Proof.
  intros Hcf. induction 1 as [|w e w' ret H IH He E]; [by apply lw_new_ring|]. eapply deff_ring; [exact IH|]. eapply lw_step_data; [done|by eapply lw_reach_inv|done|done].
Qed.

(** ** Where the steps are *)

(** The chunk [key] begins with step number [start] and has [bound] steps so far. *)
Definition starts (w : lw) (key : Z) (start bound : nat) : Prop :=
  l_place w !! key = Some (start, bound) \/
  (l_place w !! key = None /\ key = l_next w /\ (start + length (l_buffer w) = length (l_hist w))%nat /\ bound = length (l_buffer w)).
(** Slices that cover the steps from number [from] to number [upto]; [P key start
    bound] says where the chunk [key] begins and that it has [bound] steps. *)
Fixpoint pieces (P : Z -> nat -> nat -> Prop) (idx : Z) (col : list slice) (from upto : nat) : Prop :=
  match col with
  | [] => from = upto
  | s :: col => exists start bound o l, P (sl_key s) start bound /\ sl_idx s = idx /\ sl_off s = Z.of_nat o /\ sl_len s = Z.of_nat l /\
      (0 < l)%nat /\ (o + l <= bound)%nat /\ (start + o = from)%nat /\ pieces P idx col (from + l) upto
  end.
(** Consecutive chunks, from step number [m]. *)
Fixpoint placed (place : gmap Z (nat * nat)) (m : nat) (cs : list lchunk) : Prop :=
  match cs with [] => True | c :: cs => place !! lc_key c = Some (m, length (lc_rows c)) /\ placed place (m + length (lc_rows c)) cs end.
(** An item that does not ask for more steps than there are. *)
Definition item_placed (w : lw) (m : lmade) : Prop :=
  1 <= lm_n m <= Z.of_nat (lm_held m) ->
  (Z.to_nat (lm_n m) <= length (lm_hist m))%nat /\
  (exists s, s ∈ lm_hist m /\ length (li_traj (lm_item m)) = length s) /\
  forall c col, li_traj (lm_item m) !! c = Some col -> col <> [] /\ pieces (starts w) (Z.of_nat c) col (length (lm_hist m) - Z.to_nat (lm_n m)) (length (lm_hist m)).
Record kinv (p : lconf) (w : lw) : Prop := {
  k_rows : exists older, l_hist w = older ++ concat (lc_rows <$> l_chunks w) ++ (if cb (l_pos w) then [] else l_buffer w) /\ placed (l_place w) (length older) (l_chunks w);
  k_new : cb (l_pos w) = None -> l_place w !! l_next w = None;
  k_cur : cb (l_pos w) <> None -> (length (l_buffer w) <= length (l_hist w))%nat /\ l_place w !! l_next w = Some (length (l_hist w) - length (l_buffer w), length (l_buffer w))%nat;
  k_dom : forall k v, l_place w !! k = Some v -> k ∈ l_keys w;
  k_sent : forall kc, kc ∈ l_sent w -> exists start len, l_place w !! kc_key kc = Some (start, len) /\ (start + len <= length (l_hist w))%nat /\
             rows_ok (segment (l_hist w) start len) /\ build_chunk (p_delta p) (segment (l_hist w) start len) = Some (Some (kc_data kc));
  k_made : forall m, m ∈ l_made w -> item_placed w m }.

(** Chunks only grow at the end. *)
Definition grows (w w' : lw) : Prop := forall key start bound, starts w key start bound -> exists bound', (bound <= bound')%nat /\ starts w' key start bound'.
Lemma pieces_grows w w' idx col : grows w w' -> forall from upto, pieces (starts w) idx col from upto -> pieces (starts w') idx col from upto.
Proof.
  intros G. induction col as [|s col IH]; intros from upto; [done|]. cbn. intros (start & bound & o & l & H1 & H2 & H3 & H4 & H5 & H6 & H7 & H8).
  destruct (G _ _ _ H1) as (bound' & B1 & B2). exists start, bound', o, l. split; [done|]. do 4 (split; [done|]). split; [lia|]. split; [done|]. by apply IH.
Qed.
Lemma item_grows w w' m : grows w w' -> item_placed w m -> item_placed w' m.
Proof. intros G H Hn. destruct (H Hn) as (H1 & H2 & H3). split; [done|]. split; [done|]. intros c col Hc. destruct (H3 c col Hc) as [H4 H5]. split; [done|]. by eapply pieces_grows. Qed.
Lemma placed_app place a b : forall m, placed place m (a ++ b) <-> placed place m a /\ placed place (m + length (concat (lc_rows <$> a))) b.
Proof.
  induction a as [|c a IH]; intros m; cbn; [rewrite Nat.add_0_r; tauto|]. rewrite IH, app_length. rewrite <- Nat.add_assoc. tauto.
Qed.
Lemma placed_insert place k v : forall cs m, k ∉ lc_key <$> cs -> placed place m cs -> placed (<[k := v]> place) m cs.
Proof.
  induction cs as [|c cs IH]; intros m; cbn; [done|]. rewrite not_elem_of_cons. intros [H1 H2] [H3 H4]. split; [by rewrite lookup_insert_ne|by apply IH].
Qed.

Lemma segment_prefix {A} (l l' : list A) a n : (a + n <= length l)%nat -> l `prefix_of` l' -> segment l' a n = segment l a n.
Proof. intros H [k ->]. unfold segment. rewrite drop_app_le by lia. rewrite take_app_le; [done|]. rewrite drop_length. lia. Qed.

(** A chunk of the writer is a segment of the history. *)
Lemma placed_segment place cs : forall older rest c, placed place (length older) cs -> c ∈ cs ->
  exists start, place !! lc_key c = Some (start, length (lc_rows c)) /\ (start + length (lc_rows c) <= length (older ++ concat (lc_rows <$> cs) ++ rest))%nat /\
    segment (older ++ concat (lc_rows <$> cs) ++ rest) start (length (lc_rows c)) = lc_rows c.
Proof.
  induction cs as [|c0 cs IH]; intros older rest c Hp Hc; [by apply elem_of_nil in Hc|]. cbn in *. destruct Hp as [H1 H2]. apply elem_of_cons in Hc as [->|Hc].
  - exists (length older). split; [done|]. rewrite !app_length. split; [lia|]. unfold segment. rewrite drop_app. rewrite <- app_assoc. by rewrite take_app.
  - specialize (IH (older ++ lc_rows c0) rest c). rewrite app_length in IH. destruct (IH H2 Hc) as (start & A1 & A2 & A3). exists start.
    replace (older ++ (lc_rows c0 ++ concat (lc_rows <$> cs)) ++ rest) with ((older ++ lc_rows c0) ++ concat (lc_rows <$> cs) ++ rest) by (by rewrite <- !app_assoc). done.
Qed.

(** The chunks of an item, in the order of the code, from step [m] to step [m']. *)
Fixpoint chain (P : Z -> nat -> nat -> Prop) (cs : list (Z * Z)) (m m' : nat) : Prop :=
  match cs with
  | [] => m = m'
  | (k, len) :: cs => exists b, P k m b /\ len = Z.of_nat b /\ (0 < b)%nat /\ chain P cs (m + b) m'
  end.
Lemma chain_sum P cs : forall m m', chain P cs m m' -> (m <= m')%nat /\ foldr Z.add 0 cs.*2 = Z.of_nat m' - Z.of_nat m.
Proof.
  induction cs as [|[k len] cs IH]; intros m m'; cbn; [intros ->; split; lia|]. intros (b & _ & -> & _ & H). destruct (IH _ _ H). lia.
Qed.
Lemma chain_column P idx cs : forall m m' off rem, chain P cs m m' -> match cs with [] => rem = 0 | (_, len) :: _ => off < len /\ off + rem = Z.of_nat m' - Z.of_nat m end ->
  exists col, timestep_column idx cs off rem = Some col /\ (cs <> [] -> col <> []) /\ (0 <= off -> pieces P idx col (m + (if cs then 0 else Z.to_nat off)) m').
Proof.
  induction cs as [|[k len] cs IH]; intros m m' off rem Hc; cbn in *.
  - intros ->. exists []. split; [done|]. split; [done|]. intros _. cbn. lia.
  - destruct Hc as (b & S1 & -> & Hb & Hc). intros [Ho Hr]. pose proof (chain_sum _ _ _ _ Hc) as [L _]. rewrite decide_True by lia. rewrite Z.min_l by lia.
    destruct (IH (m + b)%nat m' 0 (rem - (Z.of_nat b - off)) Hc) as (col & E & Hne & HP).
    { destruct cs as [|[k' len'] cs']; cbn in Hc; [lia|]. destruct Hc as (b' & _ & -> & Hb' & _). lia. }
    rewrite E. cbn. eexists. split; [done|]. split; [done|]. intros Hoff. exists m, b, (Z.to_nat off), (b - Z.to_nat off)%nat. cbn. split; [done|]. split; [done|]. split; [lia|]. split; [lia|]. split; [lia|]. split; [lia|]. split; [done|].
    replace (m + Z.to_nat off + (b - Z.to_nat off))%nat with (m + b)%nat by lia. specialize (HP ltac:(lia)). destruct cs; cbn in HP; by rewrite Nat.add_0_r in HP.
Qed.
Lemma chain_columns P cs cols off rem m m' : chain P cs m m' -> match cs with [] => rem = 0 | (_, len) :: _ => off < len /\ off + rem = Z.of_nat m' - Z.of_nat m end ->
  exists tr, flat_timestep_trajectory cs cols off rem = Some tr /\ length tr = cols /\
    forall c col, tr !! c = Some col -> (cs <> [] -> col <> []) /\ (0 <= off -> cs <> [] -> pieces P (Z.of_nat c) col (m + Z.to_nat off) m').
Proof.
  intros Hc Ho. destruct (columns_ok 0 cols cs off rem) as (tr & E & L & HC).
  { intros idx. destruct (chain_column P idx cs m m' off rem Hc Ho) as (col & E & _). by eexists. }
  exists tr. split; [exact E|]. split; [done|]. intros c col Hcol. apply HC in Hcol. rewrite Z.add_0_l in Hcol.
  destruct (chain_column P (Z.of_nat c) cs m m' off rem Hc Ho) as (col' & E' & Hne & HP). rewrite Hcol in E'. injection E' as <-. split; [done|]. intros H1 H2. specialize (HP H1). by destruct cs.
Qed.

Lemma chain_app P a b : forall m m', chain P (a ++ b) m m' <-> exists x, chain P a m x /\ chain P b x m'.
Proof.
  induction a as [|[k len] a IH]; intros m m'; cbn; [split; [intros H; by exists m|intros (x & -> & H); done]|]. split.
  - intros (c & H1 & H2 & H3 & H4). apply IH in H4 as (x & H4 & H5). exists x. split; [|done]. by exists c.
  - intros (x & (c & H1 & H2 & H3 & H4) & H5). exists c. split; [done|]. split; [done|]. split; [done|]. apply IH. by exists x.
Qed.
Definition key_len (c : lchunk) : Z * Z := (lc_key c, lc_end c - lc_start c + 1).
Lemma gather_chain P rcs : forall m0 m' rem l r, chain P (key_len <$> reverse rcs) m0 m' -> gather rcs rem = (l, r) ->
  exists m, chain P (reverse l) m m' /\ (m0 <= m)%nat /\ r = rem - (Z.of_nat m' - Z.of_nat m) /\ (r <= 0 \/ m = m0) /\
    (forall k len cs, reverse l = (k, len) :: cs -> - r < len) /\ (0 < rem -> l = [] -> rcs = []).
Proof.
  induction rcs as [|c rcs IH]; intros m0 m' rem l r; cbn [gather].
  - cbn. intros -> [= <- <-]. exists m'. split; [done|]. split; [done|]. split; [lia|]. split; [by right|]. split; done.
  - rewrite reverse_cons, fmap_app, chain_app. intros (m1 & H1 & H2). cbn in H2. destruct H2 as (b & B1 & B2 & B3 & <-). destruct (Z.ltb_spec 0 rem).
    + rewrite B2. destruct (gather rcs (rem - Z.of_nat b)) as [l' r'] eqn:E. intros [= <- <-]. destruct (IH m0 m1 _ _ _ H1 E) as (m & C1 & C2 & C3 & C4 & C5 & C6). exists m.
      split; [rewrite reverse_cons; apply chain_app; exists m1; split; [done|]; cbn; by exists b|]. split; [done|]. split; [lia|]. split; [done|]. split; [|done].
      intros k len cs. rewrite reverse_cons. destruct (reverse l') as [|[k' len'] cs'] eqn:El; cbn.
      * intros [= <- <- _]. cbn in C1. subst m1. lia.
      * intros [= <- <- _]. by eapply C5.
    + intros [= <- <-]. exists (m1 + b)%nat. split; [done|]. pose proof (chain_sum _ _ _ _ H1) as [L _]. split; [lia|]. split; [lia|]. split; [left; lia|]. split; [done|]. lia.
Qed.
Lemma item_chunks_chain P w n cs r m0 m1 m' : 1 <= n -> chain P (key_len <$> l_chunks w) m0 m1 -> (m1 + length (l_buffer w) = m')%nat -> (l_buffer w <> [] -> P (l_next w) m1 (length (l_buffer w))) ->
  item_chunks w n = (cs, r) -> exists m, chain P cs m m' /\ (m0 <= m <= m')%nat /\ r = n - (Z.of_nat m' - Z.of_nat m) /\ (r <= 0 \/ m = m0) /\
    match cs with [] => l_chunks w = [] /\ l_buffer w = [] | (_, len) :: _ => - r < len end.
Proof.
  intros Hn Hc Hm Hb. unfold item_chunks. rewrite <- (reverse_involutive (l_chunks w)) in Hc. destruct (l_buffer w) as [|s buf] eqn:Eb.
  - cbn in Hm. rewrite Nat.add_0_r in Hm. subst m'. destruct (gather _ n) as [l r'] eqn:E. intros [= <- <-]. destruct (gather_chain P _ _ _ _ _ _ Hc E) as (m & C1 & C2 & C3 & C4 & C5 & C6). exists m.
    pose proof (chain_sum _ _ _ _ C1) as [L _]. split; [done|]. split; [lia|]. split; [done|]. split; [done|]. destruct (reverse l) as [|[k len] cs] eqn:El; [|by eapply C5].
    split; [|done]. assert (l = []) as -> by (by rewrite <- (reverse_involutive l), El). specialize (C6 ltac:(lia) eq_refl). by rewrite <- (reverse_involutive (l_chunks w)), C6.
  - destruct (gather _ _) as [l r'] eqn:E. intros [= <- <-]. destruct (gather_chain P _ _ _ _ _ _ Hc E) as (m & C1 & C2 & C3 & C4 & C5 & C6). exists m. rewrite reverse_cons.
    pose proof (chain_sum _ _ _ _ C1) as [L _]. split; [apply chain_app; exists m1; split; [done|]; cbn [chain]; exists (length (s :: buf)); split; [by apply Hb|]; split; [done|]; split; [cbn; lia|done]|].
    split; [lia|]. split; [lia|]. split; [done|]. destruct (reverse l) as [|[k len] cs] eqn:El; cbn [app]; [|by eapply C5]. cbn in C1. subst m1. cbn [length] in *. lia.
Qed.

Lemma placed_chain (P : Z -> nat -> nat -> Prop) place cs : (forall c m, c ∈ cs -> place !! lc_key c = Some (m, length (lc_rows c)) -> P (lc_key c) m (length (lc_rows c))) ->
  Forall (fun c => lc_rows c <> [] /\ lc_end c - lc_start c + 1 = Z.of_nat (length (lc_rows c))) cs ->
  forall m, placed place m cs -> chain P (key_len <$> cs) m (m + length (concat (lc_rows <$> cs))).
Proof.
  intros HP H. induction H as [|c cs [H1 H2] H IH]; intros m; cbn; [lia|]. intros [H3 H4]. exists (length (lc_rows c)). split; [apply HP; [left|done]|]. split; [done|].
  split; [destruct (lc_rows c); [done|cbn; lia]|]. rewrite app_length, Nat.add_assoc. apply IH; [|done]. intros c' m' Hc. apply HP. by right.
Qed.

(** ** The invariant *)

Lemma lw_new_place p key : kinv p (lw_new p key).
Proof.
  split; try done.
  - exists []. done.
  - intros kc Hk. by apply elem_of_nil in Hk.
  - intros m Hm. by apply elem_of_nil in Hm.
Qed.

Lemma placed_dom place cs : forall m k, placed place m cs -> k ∈ lc_key <$> cs -> is_Some (place !! k).
Proof.
  induction cs as [|c cs IH]; intros m k; cbn; [intros _ H; by apply elem_of_nil in H|]. intros [H1 H2]. rewrite elem_of_cons. intros [->|H]; [by rewrite H1|by eapply IH].
Qed.
(** Steps only get added, and known chunks stay where they are. *)
Lemma sent_grows p w w' : l_hist w `prefix_of` l_hist w' -> (forall k v, l_place w !! k = Some v -> l_place w' !! k = Some v) -> forall kc,
  (exists start len, l_place w !! kc_key kc = Some (start, len) /\ (start + len <= length (l_hist w))%nat /\
             rows_ok (segment (l_hist w) start len) /\ build_chunk (p_delta p) (segment (l_hist w) start len) = Some (Some (kc_data kc))) ->
  exists start len, l_place w' !! kc_key kc = Some (start, len) /\ (start + len <= length (l_hist w'))%nat /\
             rows_ok (segment (l_hist w') start len) /\ build_chunk (p_delta p) (segment (l_hist w') start len) = Some (Some (kc_data kc)).
Proof.
  intros H1 H2 kc (start & len & A1 & A2 & A3 & A4). exists start, len. rewrite (segment_prefix (l_hist w)) by done. split; [by apply H2|]. split; [|done]. apply prefix_length in H1. lia.
Qed.
Lemma made_grows w w' : grows w w' -> l_made w' = l_made w -> (forall m, m ∈ l_made w -> item_placed w m) -> forall m, m ∈ l_made w' -> item_placed w' m.
Proof. intros G -> H m Hm. by eapply item_grows, H. Qed.

(** The new item. *)
Lemma create_placed p w table n prio key cols tr : shape_inv p w -> kinv p w -> cb (l_pos w) = None -> num_columns w = Some cols ->
  flat_timestep_trajectory (item_chunks w n).1 cols (- (item_chunks w n).2) n = Some tr ->
  item_placed w (mkLmade (mkLitem key table prio tr) n (l_hist w) (steps_held w)).
Proof.
  intros [Hb Hs] [(older & K1 & K2) Kn _ _ _ _] Hcb Hnc Htr Hn. cbn [lm_n lm_held lm_hist lm_item li_traj] in *. rewrite Hcb in K1.
  assert (HL : length (l_hist w) = (length older + steps_held w)%nat) by (rewrite K1, !app_length; unfold steps_held; lia).
  assert (HC : chain (starts w) (key_len <$> l_chunks w) (length older) (length older + length (concat (lc_rows <$> l_chunks w)))).
  { eapply placed_chain; [|eapply Forall_impl; [exact Hs|]; intros c (A1 & _ & A2 & _); done|exact K2]. intros c m _ Hc. by left. }
  destruct (item_chunks w n) as [cs r] eqn:E. cbn [fst snd] in Htr.
  destruct (item_chunks_chain (starts w) w n cs r _ _ (length (l_hist w)) ltac:(lia) HC) as (m & C1 & C2 & C3 & C4 & C5); [unfold steps_held in HL; lia| |done|].
  { intros _. right. split; [by apply Kn|]. split; [done|]. split; [unfold steps_held in HL; lia|done]. }
  assert (Hr : r <= 0) by (destruct C4 as [|C4]; [done|lia]).
  assert (Hne : cs <> []) by (intros ->; cbn in C1; lia).
  destruct (chain_columns (starts w) cs cols (- r) n m (length (l_hist w)) C1) as (tr' & T1 & T2 & T3); [destruct cs as [|[k len] cs']; [done|lia]|].
  rewrite T1 in Htr. injection Htr as ->. split; [lia|]. split.
  - rewrite T2. unfold num_columns in Hnc. destruct (l_buffer w) as [|s buf] eqn:Eb.
    + destruct (l_chunks w) as [|c chs] eqn:Ec; [done|]. cbn in Hnc. injection Hnc as <-. apply Forall_cons in Hs as [(A1 & A2 & _ & A3) _]. destruct (lc_rows c) as [|s rows] eqn:Er; [done|].
      exists s. split; [rewrite K1; cbn; rewrite Er; set_solver|]. destruct (build_spec _ _ _ A2 A3) as (s' & [= <-] & -> & _). done.
    + injection Hnc as <-. exists s. split; [rewrite K1; set_solver|done].
  - intros c col Hc. destruct (T3 c col Hc) as [T4 T5]. split; [by apply T4|]. replace (length (l_hist w) - Z.to_nat n)%nat with (m + Z.to_nat (- r))%nat by lia. apply T5; [lia|done].
Qed.

Lemma deff_place p w w' : l_failed w' = false -> pinv p w -> shape_inv p w -> (l_failed w = false -> kinv p w) -> deff p w w' -> kinv p w'.
Proof.
  intros Hf Hp Hs K D. destruct D as [new pre C1 C2 C3 C4 C5 C6 _ _ C7 C8 C9 C10 C11 C12|data _ C0 C1 C2 C3 C4 C5 _ _ C6 C7 C8 C9 C10|data old d _ C0 C1 C2 C3 C4 C5 C6 _ _ _ C7 C8 C9 C10 C11|c d C0 C1 _ C2 C3 C4 C5 C6 _ _ C7 C8 C9 C10 C11|nk pre c C0 C1 C2 C3 C4 C5 C6 _ _ C7 C8 C9 C10 C11|c C1 C2 C3 C4 _|table n prio key cols tr C0 C1 C2 C3 C4 C5 _ _ C6 C7 C8 C9 C10 C11 C12 _ C13 C14].
  - rewrite C10 in Hf. destruct (K Hf) as [(older & K1 & K1') K2 K3 K4 K5 K6]. split.
    + exists (older ++ concat (lc_rows <$> pre)). rewrite C1, C4, C6, C7, K1, C2, fmap_app, concat_app, <- !app_assoc. split; [done|]. rewrite C2, placed_app in K1'. rewrite app_length. apply K1'.
    + by rewrite C1, C5, C7.
    + by rewrite C1, C4, C5, C6, C7.
    + by rewrite C7, C9.
    + rewrite C11, C7, C6. intros kc. rewrite elem_of_app. intros [Hk|Hk]; [by apply K5|]. apply C12, elem_of_list_fmap in Hk as (ch & -> & Hch). cbn.
      destruct (placed_segment _ _ older (if cb (l_pos w) then [] else l_buffer w) ch K1' Hch) as (start & A1 & A2 & A3). rewrite <- K1 in A2, A3. exists start, (length (lc_rows ch)). rewrite A3.
      destruct Hs as [_ Hs]. rewrite Forall_forall in Hs. destruct (Hs ch Hch) as (B1 & B2 & B3 & B4). done.
    + eapply made_grows; [|exact C8|exact K6]. intros k start bound Hst. exists bound. split; [done|]. unfold starts in *. by rewrite C4, C5, C6, C7.
  - rewrite C9 in Hf. destruct (K Hf) as [(older & K1 & K1') K2 K3 K4 K5 K6]. rewrite C0 in K1. split.
    + exists older. rewrite C1, C2, C3, C5, C6, K1, <- !app_assoc. done.
    + rewrite C4, C6. intros _. by apply K2.
    + by rewrite C1.
    + by rewrite C6, C8.
    + rewrite C10. intros kc Hk. apply (sent_grows p w); [rewrite C5; by apply prefix_app_r| |by apply K5]. intros k v. by rewrite C6.
    + eapply made_grows; [|exact C7|exact K6]. intros k start bound [Hst|(A1 & A2 & A3 & A4)]; [exists bound; split; [done|]; left; by rewrite C6|].
      exists (S bound). split; [lia|]. right. rewrite C3, C4, C5, C6, !app_length. cbn. split; [done|]. split; [done|]. lia.
  - rewrite C10 in Hf. destruct (K Hf) as [(older & K1 & K1') K2 K3 K4 K5 K6]. rewrite C0 in K1. specialize (K2 C0).
    assert (Hn : l_next w ∉ lc_key <$> l_chunks w) by (intros Hx; destruct (placed_dom _ _ _ _ K1' Hx) as [v Hv]; congruence).
    assert (HL : (length (l_hist w') - length (l_buffer w') = length older + length (concat (lc_rows <$> l_chunks w)))%nat) by (rewrite C6, C3, K1, !app_length; cbn; lia).
    split.
    + exists older. rewrite C1, C2, C6, K1, fmap_app, concat_app. cbn. rewrite !app_nil_r, <- !app_assoc. split; [done|]. rewrite C7. apply placed_app. split; [by apply placed_insert|]. cbn.
      rewrite lookup_insert, HL, C3. done.
    + by rewrite C1.
    + intros _. rewrite C5, C7, lookup_insert. split; [|done]. rewrite C6, C3, K1, !app_length. lia.
    + rewrite C7, C9. intros k v. destruct (decide (k = l_next w)) as [->|Hne]; [intros _; apply (a_keys p w); [apply Hp|by left]|]. rewrite lookup_insert_ne by done. apply K4.
    + rewrite C11. intros kc Hk. apply (sent_grows p w); [rewrite C6; by apply prefix_app_r| |by apply K5]. intros k v Hk'. rewrite C7, lookup_insert_ne; [done|]. intros <-. congruence.
    + eapply made_grows; [|exact C8|exact K6]. intros k start bound [Hst|(A1 & A2 & A3 & A4)].
      * exists bound; split; [done|]; left. rewrite C7, lookup_insert_ne; [done|]. intros <-. congruence.
      * exists (length (l_buffer w')). rewrite C3, app_length. cbn. split; [lia|]. left. rewrite C7, A2, lookup_insert, C3, C6, !app_length. cbn. do 2 f_equal. lia.
  - rewrite C10 in Hf. destruct (K Hf) as [(older & K1 & K1') K2 K3 K4 K5 K6]. rewrite C0 in K1. specialize (K2 C0).
    assert (Hn : l_next w ∉ lc_key <$> l_chunks w) by (intros Hx; destruct (placed_dom _ _ _ _ K1' Hx) as [v Hv]; congruence).
    assert (HL : (length (l_hist w') - length (l_buffer w') = length older + length (concat (lc_rows <$> l_chunks w)))%nat) by (rewrite C6, C3, K1, !app_length; cbn; lia).
    split.
    + exists older. rewrite C1, C2, C6, K1, fmap_app, concat_app. cbn. rewrite !app_nil_r. split; [done|]. rewrite C7. apply placed_app. split; [by apply placed_insert|]. cbn.
      rewrite lookup_insert, HL, C3. done.
    + by rewrite C1.
    + intros _. rewrite C5, C7, lookup_insert. split; [|done]. rewrite C6, C3, K1, !app_length. lia.
    + rewrite C7, C9. intros k v. destruct (decide (k = l_next w)) as [->|Hne]; [intros _; apply (a_keys p w); [apply Hp|by left]|]. rewrite lookup_insert_ne by done. apply K4.
    + rewrite C11. intros kc Hk. apply (sent_grows p w); [by rewrite C6| |by apply K5]. intros k v Hk'. rewrite C7, lookup_insert_ne; [done|]. intros <-. congruence.
    + eapply made_grows; [|exact C8|exact K6]. intros k start bound [Hst|(A1 & A2 & A3 & A4)].
      * exists bound; split; [done|]; left. rewrite C7, lookup_insert_ne; [done|]. intros <-. congruence.
      * exists bound. split; [done|]. left. rewrite C7, A2, lookup_insert, C3, C6, A4. do 2 f_equal. lia.
  - rewrite C10 in Hf. destruct (K Hf) as [(older & K1 & K1') K2 K3 K4 K5 K6]. rewrite C0 in K1. destruct (K3 ltac:(by rewrite C0)) as [K3a K3b]. split.
    + exists (older ++ concat (lc_rows <$> pre)). rewrite C1, C4, C6, C7, K1, C3, fmap_app, concat_app, <- !app_assoc. split; [done|]. rewrite C3, placed_app in K1'. rewrite app_length. apply K1'.
    + intros _. rewrite C5, C7. destruct (l_place w !! nk) as [v|] eqn:Ev; [|done]. by apply K4 in Ev.
    + by rewrite C1.
    + rewrite C7, C9. intros k v Hk. right. by eapply K4.
    + rewrite C11, C6, C7. apply K5.
    + eapply made_grows; [|exact C8|exact K6]. intros k start bound [Hst|(A1 & A2 & A3 & A4)]; [exists bound; split; [done|]; left; by rewrite C7|]. rewrite A2 in A1. congruence.
  - congruence.
  - rewrite C9 in Hf. destruct (K Hf) as [(older & K1 & K1') K2 K3 K4 K5 K6]. assert (G : grows w w') by (intros k start bound Hst; exists bound; split; [done|]; unfold starts in *; by rewrite C3, C4, C5, C6). split.
    + exists older. rewrite C1, C2, C3, C5, C6. by rewrite C0 in K1.
    + intros _. rewrite C4, C6. by apply K2.
    + by rewrite C1.
    + by rewrite C6, C8.
    + by rewrite C10, C5, C6.
    + rewrite C7. intros m. rewrite elem_of_app, elem_of_list_singleton. intros [Hm| ->]; [by eapply item_grows, K6|]. eapply item_grows; [exact G|]. eapply create_placed; [exact Hs|by apply K|done|exact C13|exact C14].
Qed.
Lemma deff_failed p w w' : deff p w w' -> l_failed w' = false -> l_failed w = false.
Proof. intros D Hf. destruct D; congruence. Qed.
Theorem lw_reach_place p key w : conf_ok p -> lw_reach p (lw_new p key) w -> l_failed w = false -> kinv p w.
Proof.
  intros Hcf. induction 1 as [|w e w' ret H IH He E]; intros Hf; [apply lw_new_place|]. eapply deff_place; [exact Hf|by eapply lw_reach_inv|by eapply lw_reach_shape|exact IH|].
  eapply lw_step_data; [done|by eapply lw_reach_inv|done|done].
Qed.
