(** C47, C51: chunker options; C49: timeouts of the two services. *)
From Verif Require Import Base ChunkerOptions Timeouts.

(** ** C47 *)
Section C47.
Context `{FP}.

Lemma push_item_length items refs : (length items <= 10)%nat -> (length (push_item items refs) <= 10)%nat.
Proof.
  intros Hl. unfold push_item, k_items. destruct (sum_chunks refs [] 0 0) as [[b l] seen].
  destruct (Nat.ltb_spec 10 (length (items ++ [mkStat 0 (qdiv b (inject_Z (Z.of_nat (length refs)))) (qdiv l (inject_Z (Z.of_nat (length seen))))]))) as [E|E]; [|lia].
  rewrite app_length in E. cbn in E. destruct items as [|x items]; cbn in *; [lia|]. rewrite app_length. cbn. lia.
Qed.
Lemma push_chunks_length chunks refs : (length (push_chunks chunks refs) <= 5)%nat.
Proof. unfold push_chunks. rewrite drop_length. lia. Qed.

(** The buffers have at most the sizes the CHECKs ask for. *)
Definition auto_ok (a : auto) : Prop := 1 <= au_max a <= au_keep a /\ (length (au_items a) <= 10)%nat.

Lemma auto_step a refs : auto_ok a -> refs <> [] -> exists a', auto_finalized a refs = Some a' /\
  auto_ok a' /\ au_keep a' = au_keep a /\ au_delta a' = au_delta a /\
  (au_max a' = au_max a \/ au_max a' = Z.min (au_max a + 2) (au_keep a) \/ au_max a' = Z.max (au_max a - 1) 1).
Proof.
  intros [Hm Hi] Hr. unfold auto_finalized. destruct refs as [|r refs]; [done|]. clear Hr.
  pose proof (push_item_length (au_items a) (r :: refs) Hi) as Li. pose proof (push_chunks_length (au_chunks a) (r :: refs)) as Lc.
  generalize dependent (push_item (au_items a) (r :: refs)). intros items Li.
  generalize dependent (push_chunks (au_chunks a) (r :: refs)). intros chunks Lc.
  cbn [au_items au_chunks au_max au_keep au_prev au_weight au_delta]. unfold k_items, k_chunks, k_pos, k_neg.
  destruct (Nat.ltb_spec (length items) 10) as [E1|E1]; [eexists; split; [done|]; unfold auto_ok; cbn; auto 10|].
  destruct (Nat.ltb_spec (length chunks) 5) as [E2|E2]; [eexists; split; [done|]; unfold auto_ok; cbn; auto 10|]. cbn [orb].
  unfold reduce. cbn [au_items au_chunks au_weight]. unfold k_items, k_chunks.
  replace (length items) with 10%nat by lia. replace (length chunks) with 5%nat by lia. cbn [Nat.eqb andb mbind option_bind].
  match goal with |- context [mkScore ?x ?y] => set (sc := mkScore x y) end. clearbody sc.
  destruct (Qeq_bool (sc_len (au_prev a)) (-1)).
  { eexists. split; [done|]. unfold auto_ok. cbn. split; [lia|]. auto 10. }
  destruct (negb _).
  { eexists. split; [done|]. unfold auto_ok. cbn. split; [lia|]. auto 10. }
  destruct (Bool.eqb _ _).
  - destruct (Z.eqb_spec (Z.min (Z.max (au_max a + 2) 1) (au_keep a)) (au_max a)).
    + eexists. split; [done|]. unfold auto_ok. cbn. split; [lia|]. auto 10.
    + eexists. split; [done|]. unfold auto_ok. cbn. split; [lia|]. split; [done|]. split; [done|]. right. left. lia.
  - destruct (Z.eqb_spec (Z.min (Z.max (au_max a + -1) 1) (au_keep a)) (au_max a)).
    + eexists. split; [done|]. unfold auto_ok. cbn. split; [lia|]. auto 10.
    + eexists. split; [done|]. unfold auto_ok. cbn. split; [lia|]. split; [done|]. split; [done|]. right. right. lia.
Qed.

Lemma auto_run_from a items : auto_ok a -> Forall (fun refs => refs <> []) items ->
  exists a', opts_run (Auto a) items = Some (Auto a') /\ auto_ok a' /\ au_keep a' = au_keep a.
Proof.
  unfold opts_run. revert a. induction items as [|refs items IH]; intros a Ha Hn; cbn; [by exists a|].
  apply Forall_cons in Hn as [Hr Hn]. destruct (auto_step a refs Ha Hr) as (a1 & -> & O1 & K1 & _). cbn.
  destruct (IH a1 O1 Hn) as (a2 & E2 & O2 & K2). exists a2. rewrite E2. split; [done|]. split; [done|congruence].
Qed.

(** Whatever items are observed (each refers to at least one chunk): no CHECK
    fails and the chunk length is in its bounds. *)
Theorem C47_bounds keep weight delta items : 1 <= keep -> Forall (fun refs => refs <> []) items ->
  exists o, opts_run (Auto (auto_new keep weight delta)) items = Some o /\
    1 <= get_max o <= get_keep o /\ get_keep o = keep /\ validate_options o = Ok.
Proof.
  intros Hk Hn. destruct (auto_run_from (auto_new keep weight delta) items) as (a & E & [Hm Hi] & Ka); [|done|].
  { unfold auto_ok. cbn. lia. }
  exists (Auto a). split; [done|]. cbn in *. split; [lia|]. split; [done|]. unfold validate_options. cbn.
  destruct (Z.leb_spec (au_max a) 0); [lia|]. destruct (Z.leb_spec (au_keep a) 0); [lia|]. destruct (Z.ltb_spec (au_keep a) (au_max a)); [lia|]. done.
Qed.

(** One item changes the chunk length by two up, one down or not at all. *)
Theorem C47_small_steps keep weight delta items refs o o' : 1 <= keep -> Forall (fun refs => refs <> []) items ->
  opts_run (Auto (auto_new keep weight delta)) items = Some o ->
  opts_run (Auto (auto_new keep weight delta)) (items ++ [refs]) = Some o' ->
  get_max o - 1 <= get_max o' <= get_max o + 2 /\ get_keep o' = get_keep o.
Proof.
  intros Hk Hn E E'. destruct (auto_run_from (auto_new keep weight delta) items) as (a & Ea & Oa & Ka); [|done|].
  { unfold auto_ok. cbn. lia. }
  unfold opts_run in *. rewrite foldl_app in E'. rewrite E in E'. cbn in E'. rewrite E in Ea. injection Ea as ->.
  cbn in E'. destruct refs as [|r refs]; [done|].
  destruct (auto_step a (r :: refs) Oa ltac:(done)) as (a1 & E1 & [Hm1 _] & K1 & _ & Hc). rewrite E1 in E'. injection E' as <-. cbn.
  destruct Oa as [Hm _]. split; [|done]. lia.
Qed.

End C47.

(** ** C51 *)

(** Cloning keeps the keep-alive count and, for constant options, the length.
    Missing from the full statement: delta encoding, and the tuned length. *)
Theorem C51_clone_partial o :
  get_keep (clone o) = get_keep o /\
  (forall m k d, o = Constant m k d -> get_max (clone o) = get_max o) /\
  (get_delta o = false -> get_delta (clone o) = get_delta o).
Proof. destruct o as [m k d|a]; cbn; split; try done; by split. Qed.

(** The chunkers of a trajectory writer never delta encode, whatever options the
    user gives. *)
Theorem C51_delta_never_used w0 acts col o : wc_chunkers w0 = ∅ ->
  wc_chunkers (foldl wc_step w0 acts) !! col = Some o -> get_delta o = false.
Proof.
  intros H0. assert (I : forall w, (forall c o, wc_chunkers w !! c = Some o -> get_delta o = false) ->
    forall c o, wc_chunkers (foldl wc_step w acts) !! c = Some o -> get_delta o = false).
  { induction acts as [|a acts IH]; intros w Hw; cbn; [done|]. apply IH. clear IH. intros c o' Ho'.
    destruct a as [c' o1|c']; cbn in Ho'.
    - destruct (decide _); [|by apply (Hw c)]. destruct (wc_chunkers w !! c') eqn:E; cbn in Ho'; [|by apply (Hw c)].
      destruct (decide (c' = c)) as [->|Hn]; [rewrite lookup_insert in Ho'; injection Ho' as <-; by destruct o1|].
      rewrite lookup_insert_ne in Ho' by done. by apply (Hw c).
    - destruct (wc_chunkers w !! c') eqn:E; cbn in Ho'; [by apply (Hw c)|].
      destruct (decide (c' = c)) as [->|Hn]; [rewrite lookup_insert in Ho'; injection Ho' as <-; by destruct (default _ _)|].
      rewrite lookup_insert_ne in Ho' by done. by apply (Hw c). }
  apply (I w0). rewrite H0. intros c o'. by rewrite lookup_empty.
Qed.

(** Options with delta encoding that pass the validation lose it. *)
Theorem C51_clone_refuted :
  (exists o, validate_options o = Ok /\ get_delta o = true /\ get_delta (clone o) = false) /\
  (exists o, validate_options o = Ok /\ get_max (clone o) <> get_max o).
Proof.
  split; [by exists (Constant 4 10 true)|].
  exists (Auto (mkAuto 10 false 1 3 (mkScore 1 1) [] [])). by vm_compute.
Qed.

(** ** C49 *)

(** "A missing value or a value < 0 means never time out" (reverb_service.proto,
    schema.proto). *)
Definition wanted_timeout (t : option Z) (r : option Z) : Prop :=
  match t with Some ms => r = if decide (0 <= ms) then Some ms else None | None => r = None end.

Theorem C49_sync t : wanted_timeout t (sync_timeout t).
Proof. destruct t as [ms|]; cbn; [|done]. unfold sync_timeout. cbn. destruct (Z.ltb_spec ms 0); case_decide; lia || done. Qed.
(** The asynchronous service: all values but 0. *)
Theorem C49_async_partial t : t <> Some 0 -> wanted_timeout t (async_timeout t).
Proof.
  destruct t as [ms|]; cbn; [|done]. intros Hn. destruct (Z.ltb_spec 0 ms); case_decide; try done; try lia.
  destruct (decide (ms = 0)); [congruence|lia].
Qed.
(** Streams of requests: the services agree when the timeout is not 0 and the same
    for all requests. *)
Theorem C49_streams_partial t n : t <> Some 0 -> sync_stream (repeat t n) = async_stream (repeat t n).
Proof.
  intros Ht. assert (E : sync_timeout t = async_timeout t).
  { pose proof (C49_sync t) as H1. pose proof (C49_async_partial t Ht) as H2. destruct t as [ms|]; cbn in *; congruence. }
  unfold sync_stream, async_stream. destruct n as [|n]; [done|]. cbn. rewrite E. f_equal. apply list_fmap_ext.
  intros i x Hx. apply elem_of_list_lookup_2, elem_of_list_In, repeat_spec in Hx. by subst.
Qed.

(** "Do not wait" is understood as "wait for ever"; a second request on the stream
    with another timeout is understood differently. *)
Theorem C49_timeouts_refuted :
  (sync_stream [Some 0] = [Some 0] /\ async_stream [Some 0] = [None]) /\
  (sync_stream [None; Some 5] = [None; None] /\ async_stream [None; Some 5] = [None; Some 5]).
Proof. done. Qed.

(** ** Concrete cases *)

(** Ten items over five chunks of length one: the length goes from 1 to 3; ten
    items over chunks of length three with fewer bytes per step: to 5. *)
Definition ex_refs1 (i : nat) : list cref := [mkCref (Z.of_nat i) 100 1; mkCref (Z.of_nat i + 1) 100 1].
Definition ex_refs2 (i : nat) : list cref := repeat (mkCref (100 + Z.of_nat i) 150 3) 3 ++ repeat (mkCref (101 + Z.of_nat i) 150 3) 3.
Definition ex_items := (ex_refs1 <$> seq 0 10) ++ (ex_refs2 <$> seq 0 10).
Example C47_example : Forall (fun refs => refs <> []) ex_items /\
  get_max <$> @opts_run fp_exact (Auto (auto_new 7 1 false)) (ex_refs1 <$> seq 0 10) = Some 3 /\
  get_max <$> @opts_run fp_exact (Auto (auto_new 7 1 false)) ex_items = Some 5.
Proof. split; [by repeat constructor|]. by vm_compute. Qed.
Example C51_example : let w := mkWconf (Constant 2 4 true) ∅ ∅ in
  wc_chunkers (foldl wc_step w [WConfigure 1 (Constant 3 4 true); WFirstAppend 0; WFirstAppend 1]) !! 1 = Some (Constant 3 4 false).
Proof. by vm_compute. Qed.

Print Assumptions C47_bounds.
Print Assumptions C47_small_steps.
Print Assumptions C51_clone_partial.
Print Assumptions C51_delta_never_used.
Print Assumptions C51_clone_refuted.
Print Assumptions C49_sync.
Print Assumptions C49_async_partial.
Print Assumptions C49_streams_partial.
Print Assumptions C49_timeouts_refuted.
