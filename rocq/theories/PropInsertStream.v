(** C52, and C45 for the insert reactor. *)
From Verif Require Import Base Trajectory Tensor TrajUtil Sample Stream Reactor.
Local Open Scope Z_scope.

(** ** C52: which messages crash the server *)

(** The keys of the chunks held after the chunks of a message are stored. *)
Lemma keep_first_dom cs : forall (m : gmap Z chunk_data),
  dom (foldl (fun m c => match m !! kc_key c with Some _ => m | None => <[kc_key c := kc_data c]> m end) m cs) = dom m ∪ list_to_set (kc_key <$> cs) :> gset Z.
Proof.
  induction cs as [|c cs IH]; intros m; cbn [foldl]; [cbn; set_solver|]. rewrite IH, fmap_cons, list_to_set_cons.
  destruct (m !! kc_key c) eqn:E; [|rewrite dom_insert_L; set_solver]. assert (kc_key c ∈ dom m) by (by apply elem_of_dom). set_solver.
Qed.
Lemma overwrite_dom cs : forall (m : gmap Z chunk_data),
  dom (foldl (fun m c => <[kc_key c := kc_data c]> m) m cs) = dom m ∪ list_to_set (kc_key <$> cs) :> gset Z.
Proof.
  induction cs as [|c cs IH]; intros m; cbn [foldl]; [cbn; set_solver|]. rewrite IH, fmap_cons, list_to_set_cons, dom_insert_L. set_solver.
Qed.
Lemma keep_dom (m : gmap Z chunk_data) l : dom (keep_only m l) = dom m ∩ list_to_set l :> gset Z.
Proof.
  unfold keep_only. apply set_eq. intros k. rewrite elem_of_intersection, elem_of_list_to_set, !elem_of_dom. split.
  - intros [d H]. apply map_filter_lookup_Some in H as [H1 H2]. split; [by exists d|done].
  - intros [[d H] Hk]. exists d. by apply map_filter_lookup_Some.
Qed.
Lemma find_chunks_some (m : gmap Z chunk_data) keys : is_Some (find_chunks m keys) <-> forall k, k ∈ keys -> k ∈ dom m.
Proof.
  induction keys as [|k keys IH]; cbn [find_chunks].
  - split; [set_solver|]. intros _. by eexists.
  - destruct (m !! k) as [d|] eqn:E; cbn [mbind option_bind].
    + assert (k ∈ dom m) by (by apply elem_of_dom). destruct (find_chunks m keys) as [l|]; cbn [mbind option_bind].
      * split; [|by eexists]. intros _ k' Hk. apply elem_of_cons in Hk as [->|Hk]; [done|]. apply IH; [by eexists|done].
      * split; [by intros [? ?]|]. intros Hk. destruct (proj2 IH) as [? ?]; [|done]. intros k' Hk'. apply Hk. by apply elem_of_list_further.
    + split; [by intros [? ?]|]. intros Hk. exfalso. specialize (Hk k (elem_of_list_here _ _)). apply elem_of_dom in Hk as [? ?]. congruence.
Qed.
Lemma keep_size_set (m : gmap Z chunk_data) l : (size (keep_only m l) = size (list_to_set l : gset Z))%nat <-> forall k, k ∈ l -> k ∈ dom m.
Proof.
  rewrite <- (size_dom (D := gset Z)), keep_dom. split.
  - intros H k Hk. destruct (decide (k ∈ dom m)) as [|Hn]; [done|]. exfalso.
    assert (Hs : dom m ∩ list_to_set l ⊂ (list_to_set l : gset Z)).
    { split; [set_solver|]. intros Hs. apply Hn. specialize (Hs k). rewrite elem_of_list_to_set in Hs. specialize (Hs Hk). set_solver. }
    apply subset_size in Hs. lia.
  - intros H. f_equal. apply set_eq. intros k. rewrite elem_of_intersection, elem_of_list_to_set. split; [by intros [_ ?]|]. intros Hk. split; [by apply H|done].
Qed.
Lemma size_lts_le (l : list Z) : (size (list_to_set l : gset Z) <= length l)%nat.
Proof.
  induction l as [|x l IH]; [done|]. rewrite list_to_set_cons. destruct (decide (x ∈ (list_to_set l : gset Z))).
  - replace ({[x]} ∪ list_to_set l : gset Z) with (list_to_set l : gset Z) by set_solver. cbn. lia.
  - rewrite size_union by set_solver. rewrite size_singleton. cbn. lia.
Qed.
Lemma size_lts_nodup (l : list Z) : (size (list_to_set l : gset Z) = length l)%nat <-> NoDup l.
Proof.
  induction l as [|x l IH]; [split; [constructor|done]|]. rewrite list_to_set_cons, NoDup_cons. assert (H := size_lts_le l).
  destruct (decide (x ∈ (list_to_set l : gset Z))) as [Hx|Hx].
  - replace ({[x]} ∪ list_to_set l : gset Z) with (list_to_set l : gset Z) by set_solver. cbn [length]. apply elem_of_list_to_set in Hx.
    split; [lia|by intros [? _]].
  - rewrite size_union by set_solver. rewrite size_singleton. cbn [length]. rewrite elem_of_list_to_set in Hx. split.
    + intros H1. split; [done|]. apply IH. lia.
    + intros [_ H1]. apply IH in H1. lia.
Qed.
Lemma keep_size_len (m : gmap Z chunk_data) l : (size (keep_only m l) = length l)%nat <-> NoDup l /\ forall k, k ∈ l -> k ∈ dom m.
Proof.
  rewrite <- keep_size_set, <- size_lts_nodup. assert (H := size_lts_le l).
  assert (H2 : (size (keep_only m l) <= size (list_to_set l : gset Z))%nat).
  { rewrite <- (size_dom (D := gset Z)), keep_dom. apply subseteq_size. set_solver. }
  lia.
Qed.

(** The keys a stream holds after the messages [rs], starting with [held]: every
    message adds its chunks, an item keeps the chunks it lists. *)
Definition held_after (held : gset Z) (r : ireq) : gset Z :=
  let held := held ∪ list_to_set (kc_key <$> ir_chunks r) in
  match ir_item r with Some it => held ∩ list_to_set (ii_keep it) | None => held end.

(** A message is well formed if the chunks its item refers to, if they are all
    there, do not come with a request to keep a chunk that is not there. *)
Definition keep_ok (held : gset Z) (r : ireq) : Prop :=
  match ir_item r with
  | None => True
  | Some it => (forall k, k ∈ get_chunk_keys (ii_traj it) -> k ∈ held ∪ list_to_set (kc_key <$> ir_chunks r)) ->
               forall k, k ∈ ii_keep it -> k ∈ held ∪ list_to_set (kc_key <$> ir_chunks r)
  end.

(** Asynchronous service: a message crashes the server iff it is empty, or all
    chunks that its item refers to are there and keep_chunk_keys lists one that is
    not, or one twice. *)
Theorem C52_async_crash_iff tables (chunks : gmap Z chunk_data) r :
  async_insert_request tables chunks r = None <->
  (ir_chunks r = [] /\ ir_item r = None) \/
  (exists it, ir_item r = Some it /\
    (forall k, k ∈ get_chunk_keys (ii_traj it) -> k ∈ dom chunks ∪ list_to_set (kc_key <$> ir_chunks r)) /\
    ~ (NoDup (ii_keep it) /\ forall k, k ∈ ii_keep it -> k ∈ dom chunks ∪ list_to_set (kc_key <$> ir_chunks r))).
Proof.
  destruct r as [cs [it|]]; unfold async_insert_request; cbn [ir_chunks ir_item].
  - rewrite <- (keep_first_dom cs chunks).
    replace (match cs with [] | _ => match find_chunks _ _ with Some data => _ | None => _ end end) with
      (match find_chunks (foldl (fun m c => match m !! kc_key c with Some _ => m | None => <[kc_key c := kc_data c]> m end) chunks cs) (get_chunk_keys (ii_traj it)) with
       | None => Some IError
       | Some data => let kept := keep_only (foldl (fun m c => match m !! kc_key c with Some _ => m | None => <[kc_key c := kc_data c]> m end) chunks cs) (ii_keep it) in
         if (size kept =? length (ii_keep it))%nat then if tables (ii_table it) then Some (IInsert kept it data) else Some IError else None
       end) by (by destruct cs).
    set (m := foldl _ chunks cs). clearbody m.
    assert (HF := find_chunks_some m (get_chunk_keys (ii_traj it))). assert (HK := keep_size_len m (ii_keep it)).
    destruct (find_chunks m (get_chunk_keys (ii_traj it))) as [data|].
    + assert (Hall := proj1 HF ltac:(by eexists)). cbn zeta. destruct (Nat.eqb_spec (size (keep_only m (ii_keep it))) (length (ii_keep it))) as [E|E].
      * split; [by destruct (tables (ii_table it))|]. intros [[_ ?]|(it' & [= <-] & _ & Hn)]; [done|]. exfalso. apply Hn. by apply HK.
      * split; [|done]. intros _. right. exists it. split; [done|]. split; [done|]. rewrite <- HK. done.
    + split; [done|]. intros [[_ ?]|(it' & [= <-] & Ha & _)]; [done|]. destruct (proj2 HF Ha). done.
  - destruct cs; split; try done; [by left|]. by intros [[? ?]|(it & ? & _)].
Qed.

(** A sequence of messages that all are non-empty and only ask to keep chunks,
    once each, that are there crashes neither service. *)
Fixpoint messages_ok (async : bool) (held : gset Z) (rs : list ireq) : Prop :=
  match rs with
  | [] => True
  | r :: rs => (async = true -> (ir_chunks r <> [] \/ ir_item r <> None) /\ (forall it, ir_item r = Some it -> NoDup (ii_keep it))) /\
               keep_ok held r /\ messages_ok async (held_after held r) rs
  end.

(** The messages of a stream, one after the other; the table accepts every item
    (an error would end the stream). *)
Fixpoint async_run (tables : Z -> bool) (chunks : gmap Z chunk_data) (rs : list ireq) : option (gmap Z chunk_data) :=
  match rs with
  | [] => Some chunks
  | r :: rs =>
    match async_insert_request tables chunks r with
    | None => None
    | Some IError => Some chunks
    | Some (IContinue c) => async_run tables c rs
    | Some (IInsert c _ _) => async_run tables c rs
    end
  end.

Lemma async_held tables chunks r c : (exists it d, async_insert_request tables chunks r = Some (IInsert c it d)) \/ async_insert_request tables chunks r = Some (IContinue c) ->
  dom c = held_after (dom chunks) r.
Proof.
  unfold async_insert_request, held_after. destruct r as [cs [it|]]; cbn [ir_chunks ir_item].
  - rewrite <- (keep_first_dom cs chunks).
    intros H. assert (H1 : c = keep_only (foldl (fun m c => match m !! kc_key c with Some _ => m | None => <[kc_key c := kc_data c]> m end) chunks cs) (ii_keep it)).
    { destruct cs as [|c0 cs]; (destruct H as [(it' & d' & H)|H];
        (destruct (find_chunks _ _); [|done]; cbn zeta in H; destruct (_ =? _)%nat; [|done]; destruct (tables (ii_table it)); [|done]; first [discriminate H|by injection H as <-])). }
    rewrite H1, keep_dom. done.
  - intros [(it & d & H)|H]; (destruct cs as [|c0 cs]; [done|]); [done|]. injection H as <-. exact (keep_first_dom (c0 :: cs) chunks).
Qed.

Theorem C52_async_partial tables rs : forall chunks, messages_ok true (dom chunks) rs -> is_Some (async_run tables chunks rs).
Proof.
  induction rs as [|r rs IH]; intros chunks Hok; cbn [async_run]; [by eexists|]. destruct Hok as (H1 & H2 & H3).
  destruct (H1 eq_refl) as [Hne Hnd].
  destruct (async_insert_request tables chunks r) as [[c|c it d|]|] eqn:E.
  - apply IH. rewrite (async_held tables chunks r c); [done|by right].
  - apply IH. rewrite (async_held tables chunks r c); [done|left; by eexists _, _].
  - by eexists.
  - exfalso. apply C52_async_crash_iff in E as [[? ?]|(it & Hit & Ha & Hn)]; [by destruct Hne|]. apply Hn. split; [by apply Hnd|].
    unfold keep_ok in H2. rewrite Hit in H2. by apply H2.
Qed.

Theorem C52_sync_partial tables ins written rs : forall chunks, messages_ok false (dom chunks) rs -> is_Some (sync_insert tables ins written chunks rs).
Proof.
  induction rs as [|r rs IH]; intros chunks Hok; cbn [sync_insert]; [by eexists|]. destruct Hok as (_ & H2 & H3).
  unfold keep_ok, held_after in *. destruct r as [cs [it|]]; cbn [ir_chunks ir_item] in *.
  - rewrite <- (overwrite_dom cs chunks) in *. set (m := foldl _ chunks cs) in *. clearbody m.
    assert (HF := find_chunks_some m (get_chunk_keys (ii_traj it))).
    destruct (find_chunks m (get_chunk_keys (ii_traj it))) as [data|]; [|by eexists].
    destruct (negb (tables (ii_table it))); [by eexists|]. destruct (negb (ins it)); [by eexists|]. destruct (ii_confirm it && negb (written it)); [by eexists|].
    cbn zeta. assert (HK := proj2 (keep_size_set m (ii_keep it)) (H2 (proj1 HF ltac:(by eexists)))). apply Nat.eqb_eq in HK as ->.
    destruct (IH (keep_only m (ii_keep it))) as [[st l] ->]; [by rewrite keep_dom|]. by eexists.
  - apply IH. by rewrite overwrite_dom.
Qed.

(** The synchronous service crashes exactly when an item that gets inserted (and
    confirmed) asks to keep a chunk that is not there. *)
Theorem C52_sync_crash_iff tables ins written (chunks : gmap Z chunk_data) r rs :
  sync_insert tables ins written chunks (r :: rs) = None <->
  let held := dom chunks ∪ list_to_set (kc_key <$> ir_chunks r) in
  let now := foldl (fun m c => <[kc_key c := kc_data c]> m) chunks (ir_chunks r) in
  match ir_item r with
  | None => sync_insert tables ins written now rs = None
  | Some it => (forall k, k ∈ get_chunk_keys (ii_traj it) -> k ∈ held) /\ tables (ii_table it) = true /\ ins it = true /\
      (ii_confirm it = true -> written it = true) /\
      ((exists k, k ∈ ii_keep it /\ k ∉ held) \/
       (forall k, k ∈ ii_keep it -> k ∈ held) /\ sync_insert tables ins written (keep_only now (ii_keep it)) rs = None)
  end.
Proof.
  destruct r as [cs [it|]]; cbn [sync_insert ir_chunks ir_item]; [|done]. cbn zeta. rewrite <- (overwrite_dom cs chunks). set (m := foldl _ chunks cs). clearbody m.
  assert (HF := find_chunks_some m (get_chunk_keys (ii_traj it))). assert (HK := keep_size_set m (ii_keep it)).
  destruct (find_chunks m (get_chunk_keys (ii_traj it))) as [data|].
  - assert (Hall := proj1 HF ltac:(by eexists)). destruct (tables (ii_table it)); cbn [negb]; [|by split; [done|intros (_ & ? & _)]].
    destruct (ins it); cbn [negb]; [|by split; [done|intros (_ & _ & ? & _)]].
    destruct (ii_confirm it && negb (written it)) eqn:Ew.
    { split; [done|]. intros (_ & _ & _ & Hc & _). apply andb_true_iff in Ew as [E1 E2]. rewrite (Hc E1) in E2. done. }
    assert (Hc : ii_confirm it = true -> written it = true) by (intros E1; rewrite E1 in Ew; by destruct (written it)).
    destruct (Nat.eqb_spec (size (keep_only m (ii_keep it))) (size (list_to_set (ii_keep it) : gset Z))) as [E|E].
    + assert (Hk := proj1 HK E). destruct (sync_insert tables ins written (keep_only m (ii_keep it)) rs) as [[st l]|]; cbn [mbind option_bind].
      * split; [done|]. intros (_ & _ & _ & _ & [(k & H1 & H2)|[_ ?]]); [|done]. by apply Hk in H1.
      * split; [|done]. intros _. split_and!; try done. by right.
    + split; [|done]. intros _. split_and!; try done. left.
      destruct (decide (Forall (fun k => k ∈ dom m) (ii_keep it))) as [Hd|Hd].
      * exfalso. apply E, HK. by apply Forall_forall.
      * apply not_Forall_Exists in Hd; [|apply _]. apply Exists_exists in Hd as (k & H1 & H2). by exists k.
  - split; [done|]. intros (Ha & _). by destruct (proj2 HF Ha).
Qed.

(** ** C45 for the insert reactor *)

Definition i_enabled (s : irx) (e : ievent) : Prop :=
  match e with
  | IRead _ _ => g_read (i_base s) = true
  | IWrite _ => g_write (i_base s) <> None
  | IContinueCb _ => i_conts s <> 0%nat
  | ICancel => True
  end.

(** Runs in which no message crashes the server (see C52). *)
Inductive i_reach (tables : Z -> bool) : irx -> Prop :=
  | i_reach_init s : i_init = Some s -> i_reach tables s
  | i_reach_step s e s' : i_reach tables s -> i_enabled s e -> i_step tables s e = Some s' -> i_reach tables s'.

Record i_inv (s : irx) : Prop := {
  w_write : b_finished (i_base s) = false -> g_write (i_base s) = head (b_queue (i_base s));
  w_status : if b_finished (i_base s) then g_status (i_base s) <> None else g_status (i_base s) = None;
  w_content : if b_finished (i_base s) then exists rest, concat (g_sent (i_base s)) ++ rest = i_confirmed s
              else concat (g_sent (i_base s) ++ tail (b_queue (i_base s))) = i_confirmed s;
  w_len : (length (b_queue (i_base s)) <= 2)%nat;
  w_sent : Forall (fun l : list Z => l <> []) (g_sent (i_base s));
  w_queue : Forall (fun l : list Z => l <> []) (b_queue (i_base s));
  w_conts : (i_conts s <= 1)%nat;
  w_read : g_read (i_base s) = true -> i_conts s = 0%nat;
  w_live : b_finished (i_base s) = false -> b_cancelled (i_base s) = false -> b_still_reading (i_base s) = true ->
    g_read (i_base s) = true \/ i_conts s <> 0%nat;
  w_half : b_finished (i_base s) = false -> b_cancelled (i_base s) = false -> b_still_reading (i_base s) = false ->
    b_queue (i_base s) <> [];
  w_cancel : b_cancelled (i_base s) = true -> b_still_reading (i_base s) = false
}.

Lemma i_init_inv s : i_init = Some s -> i_inv s.
Proof. intros [= <-]. constructor; cbn; try done; try lia; try constructor. Qed.

(** A crash comes from the message only. *)
Definition i_bad (tables : Z -> bool) (s : irx) (e : ievent) : Prop :=
  exists r ins, e = IRead (Some r) ins /\ b_finished (i_base s) = false /\ async_insert_request tables (i_chunks s) r = None.

Lemma i_step_inv tables s e : i_inv s -> i_enabled s e ->
  (exists s', i_step tables s e = Some s' /\ i_inv s') \/ (i_bad tables s e /\ i_step tables s e = None).
Proof.
  intros Hi He. destruct s as [[q sr fin can rd wr sent st] ch cn ins cf].
  destruct Hi as [Iw Is Ic Il In Iq Icn Ir Ilv Ih Ica]. cbn in *.
  destruct e as [r res|ok|ok|].
  - cbn in He. subst rd. specialize (Ir eq_refl). subst cn. unfold i_step, on_read_done. cbn. destruct fin.
    + left. rewrite orb_true_r. unfold should_finish. cbn. rewrite andb_false_r. cbn. eexists; split; [reflexivity|]. constructor; cbn; done.
    + rewrite orb_false_r. destruct r as [r|]; cbn.
      * destruct (async_insert_request tables ch r) as [[c|c it d|]|] eqn:E; cbn.
        -- left. eexists; split; [reflexivity|]. constructor; cbn; try done; by left.
        -- destruct res as [can_insert|].
           ++ left. destruct (ii_confirm it).
              ** unfold add_confirmation. destruct q as [|m [|m2 [|m3 q]]]; [| | |cbn in Il; lia].
                 --- destruct can_insert; cbn; rewrite (Iw eq_refl); cbn; (eexists; split; [reflexivity|]; constructor; cbn; try done; try lia).
                     all: try (cbn in Ic; rewrite app_nil_r in Ic; by rewrite app_nil_r, concat_app, Ic).
                     all: try (apply Forall_app; split; [done|]; by repeat constructor).
                     all: try (by repeat constructor). all: intros; auto.
                 --- destruct can_insert; cbn; (eexists; split; [reflexivity|]; constructor; cbn; try done; try lia).
                     all: try (cbn in Ic; rewrite app_nil_r in Ic; by rewrite concat_app, Ic).
                     all: try (by constructor; [by apply Forall_cons in Iq as [? _]|repeat constructor]). all: intros; auto.
                 --- destruct can_insert; cbn; (eexists; split; [reflexivity|]; constructor; cbn; try done; try lia).
                     all: try (cbn in Ic; rewrite concat_app in *; cbn in *; rewrite app_nil_r in *; by rewrite <- Ic, app_assoc).
                     all: try (apply Forall_cons in Iq as [? _]; repeat constructor; [done|]; by destruct m2). all: intros; auto.
              ** destruct can_insert; cbn; (eexists; split; [reflexivity|]; constructor; cbn; try done; try lia; intros; auto).
           ++ left. rewrite andb_false_r. cbn. eexists; split; [reflexivity|]. constructor; cbn; try done; try lia; try constructor.
              exists (concat (tail q)). by rewrite <- concat_app.
        -- left. rewrite andb_false_r. cbn. eexists; split; [reflexivity|]. constructor; cbn; try done; try lia; try constructor.
           exists (concat (tail q)). by rewrite <- concat_app.
        -- right. split; [|done]. by exists r, res.
      * left. unfold should_finish. cbn. rewrite andb_true_r. destruct q as [|m q]; cbn.
        -- eexists; split; [reflexivity|]. constructor; cbn; try done. exists []. cbn in Ic. by rewrite app_nil_r in *.
        -- eexists; split; [reflexivity|]. constructor; cbn; done.
  - left. unfold i_step, on_write_done. cbn. destruct fin; cbn.
    + eexists; split; [reflexivity|]. constructor; cbn; done.
    + rewrite (Iw eq_refl) in He. destruct q as [|m q]; [done|]. cbn in *. apply Forall_cons in Iq as [Hm Iq]. destruct ok; cbn.
      * destruct (negb sr && match q with [] => true | _ => false end) eqn:Ef.
        -- apply andb_true_iff in Ef as [E1 E2]. destruct q; [|done]. destruct sr; [done|]. cbn.
           eexists; split; [reflexivity|]. constructor; cbn; try done; try lia. exists []. by rewrite app_nil_r in *.
        -- destruct q as [|m' q]; cbn.
           ++ eexists; split; [reflexivity|]. constructor; cbn; try done; try lia; by intros _ Hc ->.
           ++ eexists; split; [reflexivity|]. constructor; cbn; try done; cbn in *; try lia.
              ** by rewrite <- app_assoc.
              ** apply Forall_app. split; [done|]. apply Forall_cons in Iq as [? _]. by repeat constructor.
      * eexists; split; [reflexivity|]. constructor; cbn; try done; try lia; try constructor. exists (concat q). by rewrite <- concat_app.
  - left. cbn in He. assert (Hcn : cn = 1%nat) by lia. subst cn.
    assert (Hrd : rd = false) by (destruct rd; [specialize (Ir eq_refl); done|done]). subst rd.
    unfold i_step. cbn. destruct ok.
    + unfold maybe_start_read. cbn. destruct (sr && negb can && negb fin) eqn:Eg.
      * destruct sr; [|done]. destruct can; [done|]. destruct fin; [done|]. cbn. eexists; split; [reflexivity|].
        constructor; cbn; try done; try lia; by left.
      * cbn. eexists; split; [reflexivity|]. constructor; cbn; try done; try lia; by intros -> -> ->.
    + destruct fin; cbn.
      * eexists; split; [reflexivity|]. constructor; cbn; try done; lia.
      * rewrite andb_false_r. cbn. eexists; split; [reflexivity|]. constructor; cbn; try done; try lia; try constructor.
        exists (concat (tail q)). by rewrite <- concat_app.
  - left. unfold i_step. cbn. eexists; split; [reflexivity|]. constructor; cbn; done.
Qed.

Lemma i_reach_inv tables s : i_reach tables s -> i_inv s.
Proof.
  induction 1 as [s H|s e s' H IH He Hs]; [by apply i_init_inv|].
  destruct (i_step_inv tables s e IH He) as [(s2 & E & Hi)|[_ E]]; congruence.
Qed.

(** Apart from the messages of C52 nothing crashes the server: no REVERB_CHECK
    fails, at most one write and one read are outstanding, nothing is started after
    Finish, Finish is not called twice. *)
Theorem C45_insert_safe tables s e : i_reach tables s -> i_enabled s e ->
  i_step tables s e = None ->
  exists r ins, e = IRead (Some r) ins /\ b_finished (i_base s) = false /\ async_insert_request tables (i_chunks s) r = None.
Proof. intros Hr He Hs. destruct (i_step_inv tables s e (i_reach_inv _ _ Hr) He) as [(s' & E & _)|[? _]]; [congruence|done]. Qed.

(** The message being written is the front of the queue, unchanged, unless the
    reactor is finished. *)
Theorem C45_insert_in_flight_partial tables s : i_reach tables s -> b_finished (i_base s) = false ->
  head (b_queue (i_base s)) = g_write (i_base s).
Proof. intros Hr Hf. symmetry. by apply (w_write s (i_reach_inv _ _ Hr)). Qed.

(** Every confirmation requested is written once and in order: the keys in the
    messages written, followed by the ones still queued, are the keys of the items
    for which a confirmation was requested.  After Finish the rest is lost. *)
Theorem C45_insert_confirmations tables s : i_reach tables s ->
  if b_finished (i_base s) then exists rest, concat (g_sent (i_base s)) ++ rest = i_confirmed s
  else concat (g_sent (i_base s) ++ tail (b_queue (i_base s))) = i_confirmed s.
Proof. intros Hr. apply (w_content s (i_reach_inv _ _ Hr)). Qed.

Theorem C45_insert_once tables s e s' : i_step tables s e = Some s' -> b_finished (i_base s) = true ->
  b_finished (i_base s') = true /\ g_status (i_base s') = g_status (i_base s) /\ g_sent (i_base s') = g_sent (i_base s) /\
  i_inserted s' = i_inserted s.
Proof.
  intros Hs Hf. destruct s as [[q sr fin can rd wr sent st] ch cn ins cf]. cbn in Hf. subst fin. destruct e as [r res|ok|ok|]; cbn in Hs.
  - unfold on_read_done in Hs. cbn in Hs. rewrite orb_true_r in Hs. unfold should_finish in Hs. cbn in Hs. rewrite andb_false_r in Hs. cbn in Hs.
    by injection Hs as <-.
  - by injection Hs as <-.
  - unfold maybe_start_read in Hs. cbn in Hs. rewrite andb_false_r in Hs. destruct ok; by injection Hs as <-.
  - by injection Hs as <-.
Qed.

(** Finished with OK: all confirmations are written, and no write is
    outstanding. *)
Theorem C45_insert_status tables s e s' : i_reach tables s -> i_enabled s e -> i_step tables s e = Some s' ->
  b_finished (i_base s) = false -> g_status (i_base s') = Some true ->
  g_write (i_base s') = None /\ concat (g_sent (i_base s')) = i_confirmed s'.
Proof.
  intros Hr He Hs Hf Hst. assert (Hi := i_reach_inv _ _ Hr). assert (HQ := w_content s Hi). rewrite Hf in HQ. assert (HS := w_status s Hi). rewrite Hf in HS.
  assert (Hw := w_write s Hi Hf).
  destruct s as [[q sr fin can rd wr sent st] ch cn ins cf]. cbn in *. subst fin st. destruct e as [r res|ok|ok|]; cbn in Hs.
  - unfold on_read_done in Hs. cbn in Hs. rewrite orb_false_r in Hs. destruct r as [r|]; cbn in Hs.
    + exfalso. destruct (async_insert_request tables ch r) as [[c|c it d|]|]; cbn in Hs; [| | |done].
      * by injection Hs as <-.
      * destruct res as [[]|]; cbn in Hs.
        -- destruct (ii_confirm it); [|by injection Hs as <-]. destruct (_ =? 1)%nat; [|by injection Hs as <-].
           unfold maybe_send in Hs. cbn in Hs. destruct (add_key_back _ _); cbn in Hs; [by injection Hs as <-|].
           unfold start_write in Hs. cbn in Hs. destruct wr; [done|]. by injection Hs as <-.
        -- destruct (ii_confirm it); [|by injection Hs as <-]. destruct (_ =? 1)%nat; [|by injection Hs as <-].
           unfold maybe_send in Hs. cbn in Hs. destruct (add_key_back _ _); cbn in Hs; [by injection Hs as <-|].
           unfold start_write in Hs. cbn in Hs. destruct wr; [done|]. by injection Hs as <-.
        -- rewrite andb_false_r in Hs. cbn in Hs. by injection Hs as <-.
      * rewrite andb_false_r in Hs. cbn in Hs. by injection Hs as <-.
    + unfold should_finish in Hs. cbn in Hs. rewrite andb_true_r in Hs. destruct q; cbn in Hs; injection Hs as <-; [|done]. cbn in *.
      split; [done|]. by rewrite app_nil_r in HQ.
  - unfold on_write_done in Hs. cbn in Hs. destruct ok; cbn in Hs; [|rewrite andb_false_r in Hs; cbn in Hs; by injection Hs as <-].
    destruct (negb sr && _) eqn:Eg; cbn in Hs.
    + apply andb_true_iff in Eg as [_ Eg]. destruct q as [|m q]; [done|]. cbn in *. destruct q; [|done].
      injection Hs as <-. cbn in *. split; [done|]. by rewrite app_nil_r in HQ.
    + unfold maybe_send in Hs. cbn in Hs. destruct (tail q); cbn in Hs; injection Hs as <-; done.
  - destruct ok; cbn in Hs.
    + unfold maybe_start_read in Hs. cbn in Hs. destruct (_ && _ && _); cbn in Hs; [|by injection Hs as <-].
      unfold start_read in Hs. cbn in Hs. destruct (rd || false); cbn in Hs; [done|]. by injection Hs as <-.
    + rewrite andb_false_r in Hs. cbn in Hs. by injection Hs as <-.
  - by injection Hs as <-.
Qed.

(** A stream that is not cancelled and not finished waits for a read, a write or
    for the table. *)
Theorem C45_insert_progress tables s : i_reach tables s -> b_finished (i_base s) = false -> b_cancelled (i_base s) = false ->
  g_read (i_base s) = true \/ g_write (i_base s) <> None \/ i_conts s <> 0%nat.
Proof.
  intros Hr Hf Hc. assert (Hi := i_reach_inv _ _ Hr). destruct (b_still_reading (i_base s)) eqn:Es.
  - destruct (w_live s Hi Hf Hc Es) as [?|?]; [by left|by right; right].
  - right; left. rewrite (w_write s Hi Hf). assert (H := w_half s Hi Hf Hc Es). by destruct (b_queue (i_base s)).
Qed.

(** Cancelled while a write is outstanding, or a read that then fails: finished
    after the writes are done. *)
Theorem C45_insert_cancel_partial tables s e s' : i_reach tables s -> b_finished (i_base s) = false -> b_cancelled (i_base s) = true ->
  i_enabled s e -> i_step tables s e = Some s' ->
  (e = IRead None None -> b_finished (i_base s') = true \/ g_write (i_base s') <> None) /\
  (g_write (i_base s) <> None -> b_finished (i_base s') = true \/ g_write (i_base s') <> None) /\
  (e = IWrite false -> b_finished (i_base s') = true).
Proof.
  intros Hr Hf Hc He Hs. assert (Hi := i_reach_inv _ _ Hr).
  assert (Hi' : i_inv s') by (apply (i_reach_inv tables); by apply (i_reach_step _ s e)).
  assert (Hw := w_write s Hi Hf). assert (Hsr := w_cancel s Hi Hc).
  destruct s as [[q sr fin can rd wr sent st] ch cn ins cf]. cbn in Hf, Hc, Hw, Hsr |- *. subst fin can sr.
  split_and!.
  - intros ->. cbn in Hs. unfold should_finish in Hs. cbn in Hs. destruct q as [|m q]; cbn in Hs; injection Hs as <-; cbn; [by left|].
    right. by subst wr.
  - intros Hwr. destruct (b_finished (i_base s')) eqn:Ef; [by left|]. right. rewrite (w_write s' Hi' Ef). destruct q as [|m q]; [by subst wr|].
    destruct e as [r res|ok|ok|]; cbn in Hs.
    + unfold on_read_done in Hs. cbn in Hs. destruct r as [r|]; cbn in Hs; [|by injection Hs as <-].
      destruct (async_insert_request tables ch r) as [[c|c it d|]|]; cbn in Hs; [by injection Hs as <-| |by injection Hs as <-|done].
      cbn in Hw. subst wr. destruct res as [[]|]; cbn in Hs; [| |by injection Hs as <-];
      (destruct (ii_confirm it); [|by injection Hs as <-]); unfold add_confirmation in Hs; (destruct q as [|m2 q]; cbn in Hs; [by injection Hs as <-|];
      destruct q; cbn in Hs; by injection Hs as <-).
    + unfold on_write_done in Hs. cbn in Hs. destruct ok; cbn in Hs; [|by injection Hs as <-]. destruct q; cbn in Hs; by injection Hs as <-.
    + destruct ok; cbn in Hs; by injection Hs as <-.
    + by injection Hs as <-.
  - intros ->. cbn in Hs. unfold on_write_done in Hs. cbn in Hs. rewrite andb_false_r in Hs. by injection Hs as <-.
Qed.

(** ** Examples and refutations *)

Global Instance i_enabled_dec s e : Decision (i_enabled s e).
Proof. unfold i_enabled. destruct e; apply _. Defined.
Fixpoint i_run (tables : Z -> bool) (s : irx) (es : list ievent) : option irx :=
  match es with
  | [] => Some s
  | e :: es => if decide (i_enabled s e) then s ← i_step tables s e; i_run tables s es else None
  end.
Lemma i_run_reach tables s es s' : i_reach tables s -> i_run tables s es = Some s' -> i_reach tables s'.
Proof.
  revert s. induction es as [|e es IH]; intros s Hr; cbn [i_run]; [by intros [= <-]|]. case_decide as He; [|done].
  destruct (i_step tables s e) as [s2|] eqn:E; [|done]. cbn [mbind option_bind]. apply IH. by apply (i_reach_step _ s e).
Qed.
Definition i_start : irx := mkIrx (mkBase [] true false false true None [] None) ∅ 0 [] [].
Lemma i_start_reach tables : i_reach tables i_start.
Proof. by apply i_reach_init. Qed.

Definition ex_tables (t : Z) : bool := t =? 1.
Definition ex_data : chunk_data := mkChunkData [mkTensor (TInt 32 true) [3%nat] [5; 6; 7]] false.
Definition ex_req (key : Z) (chunks keep : list Z) (confirm : bool) : ireq :=
  mkIreq ((fun k => mkKchunk k ex_data) <$> chunks) (Some (mkIitem key 1 [[mkSlice 11 0 2 0; mkSlice 12 0 1 0]] keep confirm)).

(** Two items with chunks in common, the chunks uploaded by separate messages. *)
Definition ex_messages : list ireq :=
  [mkIreq [mkKchunk 11 ex_data] None; ex_req 1 [12] [11; 12] true; ex_req 2 [] [12; 11] true; ex_req 3 [13] [] false].
Example C52_partial_example : messages_ok true ∅ ex_messages /\ messages_ok false ∅ ex_messages.
Proof.
  split; cbn; split_and!; try done; try (intros; split_and!); try (by left); try (by right); try (intros ? [= <-]);
    try (by apply (bool_decide_unpack _); vm_compute); try set_solver.
Qed.
Example C52_partial_runs : is_Some (async_run ex_tables ∅ ex_messages) /\
  sync_insert ex_tables (fun _ => true) (fun _ => true) ∅ ex_messages = Some (true, [1; 2]).
Proof. split; [eexists|]; by vm_compute. Qed.

(** Messages that crash the server: an empty one (asynchronous service), one that
    asks to keep a chunk never sent (both), one that lists a chunk twice
    (asynchronous service). *)
Theorem C52_refuted :
  async_insert_request ex_tables ∅ (mkIreq [] None) = None /\
  async_insert_request ex_tables ∅ (ex_req 1 [11; 12] [99] false) = None /\
  async_insert_request ex_tables ∅ (ex_req 1 [11; 12] [11; 11] false) = None /\
  sync_insert ex_tables (fun _ => true) (fun _ => true) ∅ [ex_req 1 [11; 12] [99] false] = None /\
  i_step ex_tables i_start (IRead (Some (ex_req 1 [11; 12] [99] false)) (Some true)) = None /\
  i_enabled i_start (IRead (Some (ex_req 1 [11; 12] [99] false)) (Some true)).
Proof. split_and!; by vm_compute. Qed.

(** Three items whose confirmations go out in two messages; then the client closes
    its side. *)
Example C45_insert_example : exists s, i_run ex_tables i_start
    [IRead (Some (ex_req 1 [11; 12] [11; 12] true)) (Some true); IRead (Some (ex_req 2 [] [11; 12] true)) (Some false); IContinueCb true;
     IRead (Some (ex_req 3 [] [12] true)) (Some true); IWrite true; IRead None None; IWrite true] = Some s /\
  g_status (i_base s) = Some true /\ g_sent (i_base s) = [[1]; [2; 3]] /\ i_confirmed s = [1; 2; 3].
Proof. eexists. split; by vm_compute. Qed.

(** The message being written is freed when the next request fails: here an item
    for a table that does not exist. *)
Theorem C45_insert_in_flight_refuted : exists s m, i_reach ex_tables s /\ g_write (i_base s) = Some m /\ b_queue (i_base s) = [].
Proof.
  destruct (i_run ex_tables i_start [IRead (Some (ex_req 1 [11; 12] [11; 12] true)) (Some true);
    IRead (Some (mkIreq [] (Some (mkIitem 2 5 [[mkSlice 11 0 2 0]] [] true)))) None]) as [s|] eqn:E; [|by vm_compute in E].
  eexists s, _. split; [apply (i_run_reach _ _ _ _ (i_start_reach _) E)|]. vm_compute in E. injection E as <-. split; [done|]. done.
Qed.

(** A stream cancelled while the table holds it back is never finished: when the
    table calls continue_inserts_ no read is started, and nothing else is
    outstanding. *)
Theorem C45_insert_cancel_refuted : exists s, i_reach ex_tables s /\ b_cancelled (i_base s) = true /\ b_finished (i_base s) = false /\
  forall e s', i_enabled s e -> i_step ex_tables s e = Some s' -> s' = s.
Proof.
  destruct (i_run ex_tables i_start [IRead (Some (ex_req 1 [11; 12] [11; 12] true)) (Some false); IWrite true; ICancel; IContinueCb true]) as [s|] eqn:E; [|by vm_compute in E].
  exists s. split; [apply (i_run_reach _ _ _ _ (i_start_reach _) E)|]. vm_compute in E. injection E as <-. split; [done|]. split; [done|].
  intros e s' He Hs. destruct e as [r res|ok|ok|]; cbn in He; try done. by injection Hs as <-.
Qed.

Print Assumptions C52_async_crash_iff.
Print Assumptions C52_sync_crash_iff.
Print Assumptions C52_async_partial.
Print Assumptions C52_sync_partial.
Print Assumptions C52_refuted.
Print Assumptions C45_insert_safe.
Print Assumptions C45_insert_in_flight_partial.
Print Assumptions C45_insert_confirmations.
Print Assumptions C45_insert_once.
Print Assumptions C45_insert_status.
Print Assumptions C45_insert_progress.
Print Assumptions C45_insert_cancel_partial.
Print Assumptions C45_insert_in_flight_refuted.
Print Assumptions C45_insert_cancel_refuted.
