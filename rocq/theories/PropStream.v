(** C42: streaming of samples. *)
From Verif Require Import Base Trajectory Tensor TrajUtil Sample Stream.
Local Open Scope Z_scope.

(** ** Specification *)

(** [g] is a list of entries that carries the sample [s]: the info is in the
    first entry, the chunks follow each other, and the last entry is the one
    marked as the end. *)
Definition carries (g : list entry) (s : sampled_item) : Prop :=
  exists front last, g = front ++ [last] /\ e_eos last = true /\ Forall (fun e : entry => e_eos e = false) front /\
    (match g with e :: _ => e_info e = Some (sp_info s) | [] => False end) /\
    concat (e_data <$> g) = sp_chunks s.

(** Samples as the table returns them: at least one chunk, chunk keys distinct,
    and every chunk of the trajectory is there (C50: what the table checks when
    the item is inserted). *)
Definition item_ok (s : sampled_item) : Prop :=
  kc_key <$> sp_chunks s = get_chunk_keys (si_traj (sp_info s)) /\ sp_chunks s <> [].

(** ** Splitting *)

Definition out_ok (info0 : option sinfo) (data : list kchunk) (out : list entry) : Prop :=
  exists front last, out = front ++ [last] /\ e_eos last = true /\ Forall (fun e : entry => e_eos e = false) front /\
    (match out with e :: _ => e_info e = info0 | [] => False end) /\ concat (e_data <$> out) = data.

Lemma out_ok_cons info0 e data out info1 : e_eos e = false -> e_info e = info0 -> out_ok info1 data out -> out_ok info0 (e_data e ++ data) (e :: out).
Proof.
  intros He Hi (front & last & -> & Hl & Hf & _ & Hd). exists (e :: front), last. split; [done|]. split; [done|].
  split; [by constructor|]. split; [done|]. rewrite fmap_cons. cbn [concat]. by rewrite Hd.
Qed.
Lemma out_ok_one info0 e : e_eos e = true -> e_info e = info0 -> out_ok info0 (e_data e) [e].
Proof. intros He Hi. exists [], e. split; [done|]. split; [done|]. split; [constructor|]. split; [done|]. cbn. by rewrite app_nil_r. Qed.

Lemma sync_loop_spec size limit info (first : bool) e cs : cs <> [] ->
  out_ok (if first then Some info else e_info e) (e_data e ++ cs) (concat (sync_loop size limit info first e cs)) /\
  Forall (fun r : response => r <> []) (sync_loop size limit info first e cs).
Proof.
  revert first e. induction cs as [|c cs IH]; intros first e Hn; [done|]. cbn [sync_loop].
  set (e' := mkEntry _ _ _). destruct cs as [|c2 cs].
  - cbn [negb andb]. split; [|by repeat constructor]. cbn [concat app sync_loop]. apply out_ok_one; done.
  - cbn [negb andb]. destruct (size e' <? limit).
    + destruct (IH false e' ltac:(done)) as [H1 H2]. split; [|done]. cbn [e' e_info e_data] in H1. by rewrite <- app_assoc in H1.
    + destruct (IH false no_entry ltac:(done)) as [H1 H2]. split; [|by constructor].
      replace (e_data e ++ c :: c2 :: cs) with (e_data e' ++ c2 :: cs) by (cbn; by rewrite <- app_assoc).
      change (concat ([e'] :: sync_loop size limit info false no_entry (c2 :: cs))) with (e' :: concat (sync_loop size limit info false no_entry (c2 :: cs))).
      by apply (out_ok_cons _ e' _ _ None).
Qed.

Lemma async_loop_spec csize limit info (first : bool) dn r e cur cs : cs <> [] ->
  exists out x y, let q := fst (async_loop csize limit info first dn r e cur cs) in
    concat q = concat dn ++ r ++ out /\ out_ok (if first then Some info else e_info e) (e_data e ++ cs) out /\
    q = dn ++ (r ++ x) :: y /\ Forall (fun r : response => r <> []) ((r ++ x) :: y).
Proof.
  revert first dn r e cur. induction cs as [|c cs IH]; intros first dn r e cur Hn; [done|]. cbn [async_loop].
  set (e' := mkEntry _ _ _). destruct cs as [|c2 cs].
  - cbn [negb andb async_loop fst]. exists [e'], [e'], []. split; [by rewrite concat_app; cbn; rewrite app_nil_r|].
    split; [by apply out_ok_one|]. split; [done|]. constructor; [by destruct r|constructor].
  - cbn [negb andb]. destruct (limit <? cur + csize c).
    + destruct (IH false (dn ++ [r ++ [e']]) [] no_entry 0 ltac:(done)) as (out & x & y & H1 & H2 & H3 & H4).
      exists (e' :: out), [e'], (x :: y). cbn zeta in *. rewrite H1. split; [|split; [|split]].
      * rewrite concat_app. cbn. rewrite app_nil_r. by rewrite <- !app_assoc.
      * replace (e_data e ++ c :: c2 :: cs) with (e_data e' ++ c2 :: cs) by (cbn; by rewrite <- app_assoc).
        by apply (out_ok_cons _ e' _ _ None).
      * rewrite H3. by rewrite <- app_assoc.
      * constructor; [by destruct r|]. done.
    + destruct (IH false dn r e' (cur + csize c) ltac:(done)) as (out & x & y & H1 & H2 & H3 & H4).
      exists out, x, y. cbn zeta in *. split; [done|]. split; [|done]. cbn [e' e_info e_data] in H2. by rewrite <- app_assoc in H2.
Qed.

Lemma process_sample_spec csize limit q cur wif s : sp_chunks s <> [] -> Forall (fun r : response => r <> []) q ->
  exists out, let q' := fst (process_sample csize limit q cur wif s) in
    concat q' = concat q ++ out /\ carries out s /\ q' <> [] /\ Forall (fun r : response => r <> []) q' /\
    (wif = true -> forall f, head q = Some f -> head q' = Some f).
Proof.
  intros Hc Hq. unfold process_sample. set (fresh := match q with [] => true | [_] => _ | _ => _ end).
  destruct fresh eqn:Ef.
  - destruct (async_loop_spec csize limit (sp_info s) true q [] no_entry 0 (sp_chunks s) Hc) as (out & x & y & H1 & H2 & H3 & H4).
    exists out. cbn zeta in *. split; [done|]. split; [done|]. rewrite H3. split; [by destruct q|]. split; [by apply Forall_app|].
    intros _ f Hf. destruct q as [|f' q]; [done|]. done.
  - assert (Hn : q <> []) by (by destruct q). assert (Eq := app_removelast_last (A := response) [] Hn).
    destruct (async_loop_spec csize limit (sp_info s) true (removelast q) (List.last q []) no_entry cur (sp_chunks s) Hc) as (out & x & y & H1 & H2 & H3 & H4).
    exists out. cbn zeta in *. split.
    { rewrite H1. rewrite Eq at 3. rewrite concat_app. cbn. by rewrite app_nil_r, <- app_assoc. }
    split; [done|]. rewrite H3. split; [by destruct (removelast q)|]. split.
    { apply Forall_app. split; [|done]. rewrite Eq in Hq. by apply Forall_app in Hq as [? _]. }
    intros -> f Hf. destruct q as [|f' [|f2 q]]; [done|done|]. injection Hf as ->. done.
Qed.

(** ** Reassembly *)

Lemma take_entries_app p a b :
  take_entries p (a ++ b) = ((take_entries p a).1 ++ (take_entries (take_entries p a).2 b).1, (take_entries (take_entries p a).2 b).2).
Proof.
  revert p. induction a as [|e a IH]; intros p; cbn [app take_entries fst snd].
  - by destruct (take_entries p b).
  - destruct (e_eos e); [|apply IH]. rewrite IH. by destruct (take_entries [] a) as [g1 p1].
Qed.
Lemma take_entries_front p front : Forall (fun e : entry => e_eos e = false) front -> take_entries p front = ([], p ++ front).
Proof.
  intros H. revert p. induction H as [|e f He H IH]; intros p; cbn [take_entries]; [by rewrite app_nil_r|]. rewrite He, IH.
  by rewrite <- app_assoc.
Qed.
Lemma take_entries_group g s : carries g s -> take_entries [] g = ([g], []).
Proof.
  intros (front & last & -> & Hl & Hf & _). rewrite take_entries_app, take_entries_front by done. cbn. by rewrite Hl.
Qed.
Lemma take_entries_groups gs ss : Forall2 carries gs ss -> take_entries [] (concat gs) = (gs, []).
Proof.
  induction 1 as [|g s gs ss H Hs IH]; [done|]. cbn [concat]. rewrite take_entries_app, (take_entries_group g s) by done. cbn. by rewrite IH.
Qed.
Lemma take_entries_none p es p' : take_entries p es = ([], p') -> p' = p ++ es.
Proof.
  revert p. induction es as [|e es IH]; intros p; cbn [take_entries]; [intros [= <-]; by rewrite app_nil_r|].
  destruct (e_eos e); [by destruct (take_entries [] es)|]. intros H. rewrite (IH _ H). by rewrite <- app_assoc.
Qed.

Lemma fetch_all n rs : Forall (fun r : response => r <> []) rs -> forall parts acc gs, take_entries parts (concat rs) = (gs, []) ->
  length (acc ++ (as_sample <$> gs)) = n -> fetch_request n parts acc rs = FDone (acc ++ (as_sample <$> gs)) [].
Proof.
  induction 1 as [|r rs Hr Hrs IH]; intros parts acc gs Ht Hn; cbn [fetch_request].
  - cbn in Ht. injection Ht as <- ->. rewrite app_nil_r in *. destruct (Nat.leb_spec n (length acc)); [done|lia].
  - cbn [concat] in Ht. rewrite app_length, fmap_length in Hn. destruct (Nat.leb_spec n (length acc)) as [Hle|Hlt].
    + assert (gs = []) as -> by (destruct gs; [done|cbn in Hn; lia]). apply take_entries_none in Ht.
      exfalso. destruct parts, r; done.
    + rewrite take_entries_app in Ht. destruct (take_entries parts r) as [g1 p1] eqn:E1. cbn [fst snd] in Ht.
      destruct (take_entries p1 (concat rs)) as [g2 p2] eqn:E2. cbn [fst snd] in Ht. injection Ht as <- ->.
      rewrite (IH p1 _ g2 E2).
      * by rewrite fmap_app, <- app_assoc.
      * rewrite app_length, app_length, fmap_length, fmap_length. rewrite app_length in Hn. lia.
Qed.

(** ** The chunks *)

Definition ins (m : gmap Z chunk_data) (c : kchunk) : gmap Z chunk_data := <[kc_key c := kc_data c]> m.
Lemma foldl_ins_lookup l m k d : NoDup (kc_key <$> l) ->
  foldl ins m l !! k = Some d <-> (exists c, c ∈ l /\ kc_key c = k /\ kc_data c = d) \/ (k ∉ kc_key <$> l /\ m !! k = Some d).
Proof.
  revert m. induction l as [|c l IH]; intros m Hn; cbn [foldl].
  - split; [intros H; right; split; [apply not_elem_of_nil|done]|]. intros [(c & Hc & _)|[_ ?]]; [by apply elem_of_nil in Hc|done].
  - rewrite fmap_cons in *. apply NoDup_cons in Hn as [Hc Hn]. rewrite IH by done. unfold ins at 1. split.
    + intros [(c' & H1 & H2)|[H1 H2]]; [left; exists c'; split; [by apply elem_of_list_further|done]|].
      destruct (decide (kc_key c = k)) as [E|E].
      * rewrite E, lookup_insert in H2. injection H2 as H2. left. exists c. split; [apply elem_of_list_here|done].
      * rewrite lookup_insert_ne in H2 by done. right. split; [|done]. apply not_elem_of_cons. done.
    + intros [(c' & H1 & H2 & H3)|[H1 H2]].
      * apply elem_of_cons in H1 as [->|H1]; [|left; by exists c']. right. subst k d. split; [done|]. by rewrite lookup_insert.
      * apply not_elem_of_cons in H1 as [Hk H1]. right. split; [done|]. by rewrite lookup_insert_ne.
Qed.
Lemma foldl_ins_perm l1 l2 : l1 ≡ₚ l2 -> NoDup (kc_key <$> l1) -> foldl ins ∅ l1 = foldl ins ∅ l2.
Proof.
  intros HP Hn. apply map_eq. intros k. apply option_eq. intros d.
  assert (Hn2 : NoDup (kc_key <$> l2)) by (by rewrite <- HP). rewrite !foldl_ins_lookup by done. by setoid_rewrite HP.
Qed.
Lemma collect_eq parts : collect_chunks parts = foldl ins ∅ (concat ((fun e => rev (e_data e)) <$> parts)).
Proof.
  unfold collect_chunks. generalize (∅ : gmap Z chunk_data). induction parts as [|e parts IH]; intros m; [done|].
  rewrite fmap_cons. cbn [foldl concat]. rewrite foldl_app. apply IH.
Qed.
Lemma collect_local parts : NoDup (kc_key <$> concat (e_data <$> parts)) ->
  collect_chunks parts = foldl ins ∅ (concat (e_data <$> parts)).
Proof.
  intros Hn. rewrite collect_eq. symmetry. apply foldl_ins_perm; [|done]. clear Hn.
  induction parts as [|e parts IH]; [done|]. rewrite !fmap_cons. cbn [concat]. rewrite IH. f_equiv. apply Permutation_rev.
Qed.

Definition cnt (k : Z) (l : list Z) : Z := Z.of_nat (length (filter (fun x => x = k) l)).
Lemma cnt_cons k x l : cnt k (x :: l) = (if decide (x = k) then 1 else 0) + cnt k l.
Proof. unfold cnt. rewrite filter_cons. repeat case_decide; try done; cbn [length]; lia. Qed.
Lemma cnt_zero k l : cnt k l = 0 <-> k ∉ l.
Proof.
  induction l as [|x l IH]; [split; [intros _; apply not_elem_of_nil|done]|]. rewrite cnt_cons, not_elem_of_cons.
  assert (0 <= cnt k l) by (unfold cnt; lia). destruct (decide (x = k)) as [->|Hx]; [split; [lia|by intros [? _]]|].
  rewrite Z.add_0_l, IH. split; [by split; [congruence|]|by intros [_ ?]].
Qed.
Lemma count_refs_spec tr k : default 0 (count_refs tr !! k) = cnt k (sl_key <$> concat tr).
Proof.
  unfold count_refs. assert (G : forall l m, default 0 (foldl (fun m s => <[sl_key s := default 0 (m !! sl_key s) + 1]> m) m l !! k) =
     default 0 ((m : gmap Z Z) !! k) + cnt k (sl_key <$> l)).
  { induction l as [|s l IH]; intros m; cbn [foldl]; [change (cnt k (sl_key <$> [])) with 0; lia|]. rewrite IH, fmap_cons, cnt_cons.
    destruct (decide (sl_key s = k)) as [->|Hk]; [rewrite lookup_insert; cbn [default from_option]; unfold id; lia|]. rewrite lookup_insert_ne by done. lia. }
  by rewrite G.
Qed.

Lemma slices_local full sl rest chunks refs :
  (forall k, k ∈ sl_key <$> (sl ++ rest) -> chunks !! k = full !! k /\ is_Some (full !! k)) ->
  (forall k, default 0 (refs !! k) = cnt k (sl_key <$> (sl ++ rest))) ->
  match local_slices sl full with
  | SlOk ts _ _ => exists chunks' refs', unpack_slices sl chunks refs = SlOk ts chunks' refs' /\
      (forall k, k ∈ sl_key <$> rest -> chunks' !! k = full !! k /\ is_Some (full !! k)) /\
      (forall k, default 0 (refs' !! k) = cnt k (sl_key <$> rest))
  | SlError => unpack_slices sl chunks refs = SlError
  | SlCrash => unpack_slices sl chunks refs = SlCrash
  end.
Proof.
  revert chunks refs. induction sl as [|s sl IH]; intros chunks refs Hc Hr; cbn [local_slices unpack_slices].
  - by exists chunks, refs.
  - destruct (Hc (sl_key s)) as [E [c Ec]]; [cbn [app]; rewrite fmap_cons; apply elem_of_list_here|]. rewrite E, Ec.
    destruct (unpack_chunk_column_and_slice c (sl_idx s) (sl_off s) (sl_len s)) as [t| |]; [|done|done].
    set (n := default 0 (refs !! sl_key s) - 1).
    specialize (IH (if decide (n = 0) then delete (sl_key s) chunks else chunks) (<[sl_key s := n]> refs)).
    assert (Hn : n = cnt (sl_key s) (sl_key <$> (sl ++ rest))).
    { unfold n. rewrite Hr. cbn [app]. rewrite fmap_cons, cnt_cons, decide_True by done. lia. }
    destruct (local_slices sl full) as [ts a b| |].
    + destruct IH as (chunks' & refs' & E1 & E2 & E3); [| |by exists chunks', refs'; rewrite E1].
      * intros k Hk. destruct (Hc k) as [E1 E2]; [cbn [app]; rewrite fmap_cons; by apply elem_of_list_further|]. split; [|done].
        destruct (decide (n = 0)) as [E0|]; [|done]. rewrite lookup_delete_ne; [done|]. intros E3. rewrite Hn in E0. apply cnt_zero in E0. by subst k.
      * intros k. destruct (decide (sl_key s = k)) as [E1|E1]; [by rewrite <- E1, lookup_insert|]. rewrite lookup_insert_ne by done. rewrite Hr.
        cbn [app]. rewrite fmap_cons, cnt_cons, decide_False by done. lia.
    + rewrite IH; [done| |].
      * intros k Hk. destruct (Hc k) as [E1 E2]; [cbn [app]; rewrite fmap_cons; by apply elem_of_list_further|]. split; [|done].
        destruct (decide (n = 0)) as [E0|]; [|done]. rewrite lookup_delete_ne; [done|]. intros E3. rewrite Hn in E0. apply cnt_zero in E0. by subst k.
      * intros k. destruct (decide (sl_key s = k)) as [E1|E1]; [by rewrite <- E1, lookup_insert|]. rewrite lookup_insert_ne by done. rewrite Hr.
        cbn [app]. rewrite fmap_cons, cnt_cons, decide_False by done. lia.
    + rewrite IH; [done| |].
      * intros k Hk. destruct (Hc k) as [E1 E2]; [cbn [app]; rewrite fmap_cons; by apply elem_of_list_further|]. split; [|done].
        destruct (decide (n = 0)) as [E0|]; [|done]. rewrite lookup_delete_ne; [done|]. intros E3. rewrite Hn in E0. apply cnt_zero in E0. by subst k.
      * intros k. destruct (decide (sl_key s = k)) as [E1|E1]; [by rewrite <- E1, lookup_insert|]. rewrite lookup_insert_ne by done. rewrite Hr.
        cbn [app]. rewrite fmap_cons, cnt_cons, decide_False by done. lia.
Qed.
Lemma traj_local full tr chunks refs :
  (forall k, k ∈ sl_key <$> concat tr -> chunks !! k = full !! k /\ is_Some (full !! k)) ->
  (forall k, default 0 (refs !! k) = cnt k (sl_key <$> concat tr)) ->
  unpack_traj tr chunks refs = local_traj tr full.
Proof.
  revert chunks refs. induction tr as [|sl tr IH]; intros chunks refs Hc Hr; cbn [unpack_traj local_traj]; [done|].
  assert (H := slices_local full sl (concat tr) chunks refs Hc Hr). destruct (local_slices sl full) as [ts a b| |].
  - destruct H as (chunks' & refs' & -> & H1 & H2). by rewrite (IH _ _ H1 H2).
  - by rewrite H.
  - by rewrite H.
Qed.

Lemma keys_aux_nodup seen l : NoDup (chunk_keys_aux seen l) /\ forall k, k ∈ chunk_keys_aux seen l <-> k ∈ l /\ k ∉ seen.
Proof.
  revert seen. induction l as [|x l IH]; intros seen; cbn [chunk_keys_aux]; [split; [constructor|set_solver]|].
  case_decide as Hx.
  - destruct (IH seen) as [H1 H2]. split; [done|]. intros k. rewrite H2, elem_of_cons. split; [tauto|]. intros [[->|?] ?]; [done|tauto].
  - destruct (IH (x :: seen)) as [H1 H2]. split.
    + constructor; [|done]. rewrite H2. set_solver.
    + intros k. rewrite !elem_of_cons, H2, not_elem_of_cons. destruct (decide (k = x)) as [->|]; [set_solver|]. set_solver.
Qed.

(** Reassembled from its parts, a sample is the one that a client in the same
    process as the server gets. *)
Lemma carries_local g s : item_ok s -> carries g s -> as_sample g = as_sample_local s.
Proof.
  intros [Hk Hn] (front & last & Eg & _ & _ & Hi & Hd). destruct g as [|e g]; [done|].
  unfold as_sample, as_sample_local. rewrite Hi. cbn [default from_option]. unfold id. f_equal.
  destruct (keys_aux_nodup [] (traj_keys (si_traj (sp_info s)))) as [HN HE]. fold (get_chunk_keys (si_traj (sp_info s))) in HN, HE.
  rewrite <- Hk in HN, HE.
  rewrite collect_local by (by rewrite Hd). rewrite Hd. apply traj_local; [|apply count_refs_spec].
  intros k Hin. split; [done|].
  assert (Hk2 : k ∈ kc_key <$> sp_chunks s) by (apply HE; split; [done|apply not_elem_of_nil]).
  apply elem_of_list_fmap in Hk2 as (c & -> & Hc). exists (kc_data c). apply (foldl_ins_lookup _ _ _ _ HN). left. by exists c.
Qed.

Lemma map_local gs ss : Forall item_ok ss -> Forall2 carries gs ss -> as_sample <$> gs = as_sample_local <$> ss.
Proof.
  intros Hok H. induction H as [|g s gs ss Hg H IH]; [done|]. apply Forall_cons in Hok as [Hs Hok]. rewrite !fmap_cons.
  by rewrite (carries_local g s), IH.
Qed.

(** Any sequence of non-empty messages whose entries carry the samples is taken
    apart by the client into exactly these samples. *)
Theorem C42_client ss gs rs : Forall item_ok ss -> Forall2 carries gs ss -> concat rs = concat gs -> Forall (fun r : response => r <> []) rs ->
  fetch_request (length ss) [] [] rs = FDone (as_sample_local <$> ss) [].
Proof.
  intros Hok Hc He Hr. rewrite (fetch_all (length ss) rs Hr [] [] gs).
  - cbn [app]. by rewrite (map_local gs ss).
  - rewrite He. by apply (take_entries_groups gs ss).
  - cbn. rewrite fmap_length. by apply Forall2_length in Hc.
Qed.

(** The synchronous service, whatever the size of the messages and the limit. *)
Theorem C42_sync size limit ss : Forall item_ok ss ->
  fetch_request (length ss) [] [] (concat (sync_split size limit <$> ss)) = FDone (as_sample_local <$> ss) [].
Proof.
  intros Hok. apply (C42_client ss ((fun s => concat (sync_split size limit s)) <$> ss)); [done| | |].
  - apply Forall2_fmap_l. induction Hok as [|s ss Hs Hok IH]; [constructor|]. constructor; [|done].
    destruct Hs as [_ Hn]. by destruct (sync_loop_spec size limit (sp_info s) true no_entry (sp_chunks s) Hn) as [H _].
  - clear Hok. induction ss as [|s ss IH]; [done|]. rewrite !fmap_cons. cbn [concat]. by rewrite concat_app, IH.
  - induction Hok as [|s ss [_ Hn] Hok IH]; [constructor|]. rewrite fmap_cons. cbn [concat]. apply Forall_app. split; [|done].
    by destruct (sync_loop_spec size limit (sp_info s) true no_entry (sp_chunks s) Hn) as [_ H].
Qed.
