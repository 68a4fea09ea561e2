(** C30 and C34: Table.queue is a bounded queue, Table.stack a bounded stack. *)
From Verif Require Import Base RateLimiter Selector SelList Trajectory Table EventLog TableProofs TableLog
  SelSpec PropSelectors TableSpec LogFacts PropTable PyConfig.

(** ** Specification: a bounded queue or stack

    The contents are a list, the next item to be handed out first. *)

Inductive box_out := BOk | BFail (st : status) | BBlocked | BItems (l : list item).

(** What is seen of a result: the items with the sample count 1. *)
Definition out (r : result) : box_out :=
  match r with
  | RStatus Ok => BOk
  | RStatus st => BFail st
  | RSamples Ok l => BItems (sm_item <$> l)
  | RSamples st _ => BFail st
  | RBlocked => BBlocked
  end.

Definition handed_out (it : item) : item := it_with_times it 1.
Definition put (lifo : bool) (q : list item) (it : item) : list item := if lifo then it :: q else q ++ [it].

(** Insert when there is room, wait when there is none; a key that is held must
    not be inserted again ([None]). *)
Definition box_insert (lifo : bool) (n : Z) (q : list item) (closed : bool) (it : item)
  : option (box_out * list item) :=
  if decide (it_key it ∈ it_key <$> q) then None
  else if closed then Some (BFail Cancelled, q)
  else if Z.of_nat (length q) <? n then Some (BOk, put lifo q it)
  else Some (BBlocked, q).
Definition box_take (q : list item) (b : Z) : box_out * list item :=
  (BItems (handed_out <$> take (Z.to_nat (Z.max 1 b)) q), drop (Z.to_nat (Z.max 1 b)) q).

(** One call.  [None]: a call the description of queues and stacks does not talk
    about (an existing key, MutateItems). *)
Definition box_step (lifo : bool) (n : Z) (q : list item) (closed : bool) (o : op)
  : option (box_out * list item * bool) :=
  match o with
  | OInsert now _ it =>
    if decide (check_item_validity it = Ok)
    then '(r, q) ← box_insert lifo n q closed (it_with_at it now); Some (r, q, closed)
    else Some (BFail (check_item_validity it), q, closed)
  | OInsertWake now _ it => '(r, q) ← box_insert lifo n q closed (it_with_at it now); Some (r, q, closed)
  | OSample b _ =>
    match q with
    | [] => Some (if closed then BFail Cancelled else BBlocked, q, closed)
    | _ => let '(r, q) := box_take q b in Some (r, q, closed)
    end
  | OSampleWake b _ =>
    if closed then Some (BFail Cancelled, q, closed)
    else match q with
         | [] => Some (BBlocked, q, closed)
         | _ => let '(r, q) := box_take q b in Some (r, q, closed)
         end
  | OMutate _ _ => None
  | OReset => Some (BOk, [], closed)
  | OClose => Some (BOk, q, true)
  end.

Fixpoint box_run (lifo : bool) (n : Z) (q : list item) (closed : bool) (os : list op)
  : option (list box_out * list item) :=
  match os with
  | [] => Some ([], q)
  | o :: os => '(r, q, closed) ← box_step lifo n q closed o;
               '(rs, q) ← box_run lifo n q closed os; Some (r :: rs, q)
  end.

(** ** Refinement *)

Section WithFP.
Context {fp : FP} {laws : FPLaws fp}.

Definition box_kind (lifo : bool) : sel_kind := if lifo then KLifo else KFifo.
Definition box_sel (lifo : bool) (l : list Z) : selector := if lifo then SLifo l else SFifo l.
Definition box_cfg (lifo : bool) (n : Z) : tcfg :=
  mkCfg n 1 (box_kind lifo) (box_kind lifo) 1 1 0 (inject_Z n).

Record box_inv (lifo : bool) (n : Z) (log : list event) (q : list item) : Prop := {
  bi_data : forall k it, replay log !! k = Some it <-> it ∈ q /\ it_key it = k;
  bi_sel : sel_replay (box_kind lifo) log = box_sel lifo (it_key <$> q);
  bi_nodup : NoDup (it_key <$> q);
  bi_cnt : n_ins log - n_samp log = Z.of_nat (length q);
  bi_size : size (replay log) = length q;
  bi_len : Z.of_nat (length q) <= n;
  bi_times : Forall (fun it => it_times it = 0) q }.

Lemma box_inv_new lifo n log : 1 <= n -> replay log = ∅ ->
  sel_replay (box_kind lifo) log = box_sel lifo [] -> n_ins log = 0 -> n_samp log = 0 ->
  box_inv lifo n log [].
Proof.
  intros Hn E1 E2 E3 E4. split; try done.
  - intros k it. rewrite E1, lookup_empty. split; [done|]. intros [H _]. by apply elem_of_nil in H.
  - constructor.
  - rewrite E3, E4. done.
  - by rewrite E1, map_size_empty.
  - cbn. lia.
Qed.

Lemma box_free lifo n log q k : box_inv lifo n log q -> k ∉ it_key <$> q -> replay log !! k = None.
Proof.
  intros I Hk. destruct (replay log !! k) as [it|] eqn:E; [|done]. exfalso. apply Hk.
  apply (bi_data _ _ _ _ I) in E as [E <-]. by apply elem_of_list_fmap_1.
Qed.
Lemma box_held lifo n log q k : box_inv lifo n log q -> k ∈ it_key <$> q -> is_Some (replay log !! k).
Proof.
  intros I Hk. apply elem_of_list_fmap in Hk as (it & -> & Hit). exists it. by apply (bi_data _ _ _ _ I).
Qed.

Lemma box_add lifo n log q it : box_inv lifo n log q -> it_key it ∉ it_key <$> q ->
  Z.of_nat (length q) < n -> it_times it = 0 -> box_inv lifo n (log ++ [EvInsert it]) (put lifo q it).
Proof.
  intros I Hk Hn Ht. pose proof (box_free _ _ _ _ _ I Hk) as Hfree. destruct I as [D S N C Z' L T].
  assert (Hlen : length (put lifo q it) = Datatypes.S (length q)).
  { unfold put. destruct lifo; [done|]. rewrite app_length. cbn. lia. }
  assert (Hin : forall x, x ∈ put lifo q it <-> x = it \/ x ∈ q).
  { intros x. unfold put. destruct lifo; [by rewrite elem_of_cons|]. rewrite elem_of_app, elem_of_list_singleton. tauto. }
  split.
  - intros k x. rewrite replay_snoc. cbn [replay_ev]. rewrite lookup_insert_Some, D, Hin. split.
    + intros [[<- <-]|[_ [? ?]]]; auto.
    + intros [[->|Hx] Hk']; [by left|right]. split; [|done]. intros <-. apply Hk. rewrite <- Hk'. by apply elem_of_list_fmap_1.
  - rewrite sel_replay_snoc, S. cbn [sel_ev]. unfold box_sel, put. destruct lifo; cbn [sel_insert];
      unfold lifo_insert, fifo_insert; rewrite decide_False by done; [done|]. by rewrite fmap_app.
  - unfold put. destruct lifo; [by constructor|]. rewrite fmap_app. apply NoDup_app. split; [done|].
    split; [|cbn; apply NoDup_singleton]. intros x Hx Hx'. apply elem_of_list_singleton in Hx' as ->. done.
  - rewrite n_ins_snoc, n_samp_snoc, Hlen. cbn [n_ins_ev n_samp_ev]. lia.
  - rewrite replay_snoc. cbn [replay_ev]. rewrite map_size_insert_None, Hlen by done. by rewrite Z'.
  - rewrite Hlen. lia.
  - unfold put. destruct lifo; [by constructor|]. apply Forall_app. split; [done|]. by repeat constructor.
Qed.

Lemma remove_key_absent k l : k ∉ l -> remove_key k l = l.
Proof.
  intros H. unfold remove_key. induction l as [|x l IH]; [done|]. rewrite filter_cons.
  apply not_elem_of_cons in H as [H1 H2]. rewrite decide_True by done. by rewrite IH.
Qed.

Lemma box_pop lifo n log q it : box_inv lifo n log (it :: q) ->
  box_inv lifo n (log ++ [EvSample (handed_out it); EvDelete (handed_out it)]) q.
Proof.
  intros [D S N C Z' L T]. cbn [fmap list_fmap] in N. apply NoDup_cons in N as [Hk N].
  change [EvSample (handed_out it); EvDelete (handed_out it)] with ([EvSample (handed_out it)] ++ [EvDelete (handed_out it)]).
  rewrite app_assoc. apply Forall_cons in T as [Ht T]. cbn [length] in *.
  assert (Hit : replay log !! it_key it = Some it) by (apply D; split; [left|done]).
  split; try done.
  - intros k x. rewrite !replay_snoc. cbn [replay_ev]. change (it_key (handed_out it)) with (it_key it).
    rewrite lookup_delete_Some. split.
    + intros [Hne Hx]. rewrite lookup_insert_ne in Hx by done. apply D in Hx as [Hx Hx']. split; [|done].
      apply elem_of_cons in Hx as [->|Hx]; done.
    + intros [Hx Hx']. split.
      * intros <-. apply Hk. rewrite <- Hx'. by apply elem_of_list_fmap_1.
      * rewrite lookup_insert_ne; [apply D; split; [by right|done]|]. intros <-. apply Hk. rewrite <- Hx'. by apply elem_of_list_fmap_1.
  - rewrite !sel_replay_snoc, S. cbn [sel_ev]. change (it_key (handed_out it)) with (it_key it).
    unfold box_sel. destruct lifo; cbn [sel_delete fmap list_fmap]; unfold ls_delete; rewrite decide_True by left;
      cbn [snd]; f_equal; unfold remove_key; rewrite filter_cons, decide_False by (by intros []); by apply remove_key_absent.
  - rewrite !n_ins_snoc, !n_samp_snoc. cbn [n_ins_ev n_samp_ev]. lia.
  - rewrite !replay_snoc. cbn [replay_ev]. change (it_key (handed_out it)) with (it_key it).
    rewrite delete_insert_delete, map_size_delete_Some by eauto. rewrite Z'. done.
  - lia.
Qed.

Lemma box_sample_allowed lifo n log q : box_inv lifo n log q ->
  sample_allowed (box_cfg lifo n) log <-> q <> [].
Proof.
  intros [D S N C Z' L T]. unfold sample_allowed. cbn [box_cfg c_min_size c_min_diff c_spi]. rewrite Z'. split.
  - intros [H _] ->. cbn in H. lia.
  - intros Hq. destruct q as [|it q]; [done|]. cbn [length] in *. split; [lia|].
    assert (H : (inject_Z 0 <= inject_Z (n_ins log + - (n_samp log + 1)))%Q) by (rewrite <- Zle_Qle; lia).
    rewrite (inject_Z_plus (n_ins log)), inject_Z_opp in H. change (inject_Z 0) with 0%Q in H. lra.
Qed.
Lemma box_insert_allowed lifo n log q : 1 <= n -> box_inv lifo n log q ->
  insert_allowed (box_cfg lifo n) log <-> Z.of_nat (length q) < n.
Proof.
  intros Hn [D S N C Z' L T]. unfold insert_allowed. cbn [box_cfg c_min_size c_max_diff c_spi]. rewrite Z'. split.
  - intros [H|H]; [lia|]. assert (H' : (inject_Z (n_ins log + 1 + - n_samp log) <= inject_Z n)%Q).
    { rewrite (inject_Z_plus (n_ins log + 1)), inject_Z_opp. lra. }
    rewrite <- Zle_Qle in H'. lia.
  - intros H. right. assert (H' : (inject_Z (n_ins log + 1 + - n_samp log) <= inject_Z n)%Q) by (rewrite <- Zle_Qle; lia).
    rewrite (inject_Z_plus (n_ins log + 1)), inject_Z_opp in H'. lra.
Qed.

Lemma box_one lifo n limited log q sm evs : box_inv lifo n log q -> one_sample (box_cfg lifo n) limited log sm evs ->
  exists it q', q = it :: q' /\ sm_item sm = handed_out it /\ evs = [EvSample (handed_out it); EvDelete (handed_out it)] /\
    box_inv lifo n (log ++ evs) q'.
Proof.
  intros I (_ & (old & d & _ & Hs & Ho & Es) & _ & _ & _ & _ & ->).
  change (c_sampler (box_cfg lifo n)) with (box_kind lifo) in Hs. rewrite (bi_sel _ _ _ _ I) in Hs.
  assert (Hs' : ls_sample (it_key <$> q) = Some (it_key old, sm_prob sm)) by (destruct lifo; exact Hs).
  destruct q as [|it q]; [done|]. cbn in Hs'. injection Hs' as Hk _.
  pose proof (proj2 (bi_data _ _ _ _ I (it_key it) it)) as Hit. rewrite Hk in Hit.
  rewrite Hit in Ho by (split; [left|done]). injection Ho as <-.
  pose proof (bi_times _ _ _ _ I) as T. apply Forall_cons in T as [Ht _].
  assert (Eh : sm_item sm = handed_out it) by (rewrite Es, Ht; done).
  exists it, q. split; [done|]. split; [done|]. rewrite Eh. cbn [handed_out it_with_times it_times box_cfg c_max_times].
  split; [done|]. by apply box_pop.
Qed.

Lemma box_batch lifo n limited log more sms evs : batch_spec (box_cfg lifo n) limited log more sms evs ->
  forall q, box_inv lifo n log q ->
  q <> [] /\ sm_item <$> sms = handed_out <$> take (S more) q /\ box_inv lifo n (log ++ evs) (drop (S more) q).
Proof.
  induction 1 as [log more sm evs H1 Hend|log more sm evs sms evs' H1 _ IH]; intros q I;
    destruct (box_one _ _ _ _ _ _ _ I H1) as (it & q' & -> & Es & Ev & I'); split; try done.
  - cbn [take drop fmap list_fmap]. rewrite Es.
    destruct Hend as [->|Hno]; [done|]. rewrite (box_sample_allowed _ _ _ _ I') in Hno.
    destruct q' as [|x q']; [|by destruct Hno]. rewrite take_nil, drop_nil. done.
  - destruct (IH _ I') as (_ & A & B). cbn [take drop fmap list_fmap]. rewrite Es, A, app_assoc. done.
Qed.

Lemma take_max b : Z.to_nat (Z.max 1 b) = S (Z.to_nat (b - 1)).
Proof. lia. Qed.

(** A step of the table is a step of the box. *)
Lemma box_refine lifo n t q o r q' closed' : 1 <= n -> linv (box_cfg lifo n) t -> box_inv lifo n (t_log t) q ->
  op_ok (box_cfg lifo n) o -> fresh_op o ->
  box_step lifo n q (l_cancelled (t_limiter t)) o = Some (r, q', closed') ->
  exists r0 t', step t o = Some (r0, t') /\ out r0 = r /\ linv (box_cfg lifo n) t' /\
    box_inv lifo n (t_log t') q' /\ l_cancelled (t_limiter t') = closed'.
Proof.
  intros Hn LI I Hok Hf E.
  assert (Hcfg : cfg_ok (box_cfg lifo n)). { split; [cbn; lia|]. split; [cbn; lia|]. by destruct lifo. }
  destruct (spec_step _ t o Hcfg LI Hok) as (r0 & t' & evs & Es & LI' & Lg & Hcall & Hcl).
  exists r0, t'. split; [done|].
  rewrite Lg. set (closed := l_cancelled (t_limiter t)) in *. set (log := t_log t) in *.
  assert (Hins : forall now d it, insert_wait_spec (box_cfg lifo n) log closed now d it r0 evs -> it_times it = 0 ->
    forall r1 q1, box_insert lifo n q closed (it_with_at it now) = Some (r1, q1) -> out r0 = r1 /\ box_inv lifo n (log ++ evs) q1).
  { intros now d it Hw Ht r1 q1 Hb. unfold box_insert in Hb. cbn [it_with_at it_key] in Hb.
    case_decide as Hkey; [done|]. pose proof (box_free _ _ _ _ _ I Hkey) as Hfree.
    destruct Hw as [(-> & -> & ->)|[(-> & Hno & -> & ->)|(-> & Ha & -> & Hd)]].
    - injection Hb as <- <-. by rewrite app_nil_r.
    - rewrite (box_insert_allowed _ _ _ _ Hn I) in Hno. rewrite (proj2 (Z.ltb_ge _ _)) in Hb by lia.
      injection Hb as <- <-. by rewrite app_nil_r.
    - rewrite (box_insert_allowed _ _ _ _ Hn I) in Ha. rewrite (proj2 (Z.ltb_lt _ _)) in Hb by lia.
      injection Hb as <- <-. split; [done|]. destruct Hd as [(old & Ho & _)|[_ Hnew]]; [congruence|].
      destruct Hnew as [[_ ->]|[Hsz _]].
      + by apply box_add.
      + rewrite (bi_size _ _ _ _ I) in Hsz. cbn in Hsz. lia. }
  assert (Hbatch : forall limited b sms, r0 = RSamples Ok sms -> batch_spec (box_cfg lifo n) limited log (Z.to_nat (b - 1)) sms evs ->
    q <> [] /\ out r0 = (box_take q b).1 /\ box_inv lifo n (log ++ evs) (box_take q b).2).
  { intros limited b sms -> Hb. destruct (box_batch _ _ _ _ _ _ _ Hb q I) as (A & B & C).
    unfold box_take. rewrite take_max. cbn [fst snd out]. rewrite B. done. }
  assert (Hwait : forall b, sample_wait_spec (box_cfg lifo n) log closed b r0 evs ->
    (closed = true /\ out r0 = BFail Cancelled /\ evs = []) \/
    (closed = false /\ q = [] /\ out r0 = BBlocked /\ evs = []) \/
    (closed = false /\ q <> [] /\ out r0 = (box_take q b).1 /\ box_inv lifo n (log ++ evs) (box_take q b).2)).
  { intros b [(-> & -> & ->)|[(-> & Hno & -> & ->)|(-> & sms & Er & Hb)]].
    - by left.
    - right; left. rewrite (box_sample_allowed _ _ _ _ I) in Hno. destruct q as [|x q]; [done|by destruct Hno].
    - right; right. destruct (Hbatch _ _ _ Er Hb) as (? & ? & ?). done. }
  destruct o as [now d it|now d it|b ds|b ds|us ks| |]; cbn [box_step] in E; cbn [call_spec] in Hcall.
  - destruct (decide (check_item_validity it = Ok)) as [Hv|Hv].
    + destruct (box_insert _ _ _ _ _) as [[r1 q1]|] eqn:Eb; [|done]. cbn in E. injection E as <- <- <-.
      destruct Hcall as [(? & _)|[(_ & (old & Ho & _) & _)|(_ & _ & Hw)]]; [done| |].
      { exfalso. unfold box_insert in Eb. case_decide as Hkey; [done|]. cbn [it_with_at it_key] in Hkey.
        rewrite (box_free _ _ _ _ _ I Hkey) in Ho. done. }
      destruct (Hins _ _ _ Hw Hf _ _ Eb) as [? ?]. rewrite Hcl, orb_false_r. done.
    + injection E as <- <- <-. destruct Hcall as [(_ & -> & ->)|[(? & _)|(? & _)]]; [|done|done].
      rewrite app_nil_r, Hcl, orb_false_r. split; [|done]. cbn. by destruct (check_item_validity it).
  - destruct (box_insert _ _ _ _ _) as [[r1 q1]|] eqn:Eb; [|done]. cbn in E. injection E as <- <- <-.
    destruct (Hins _ _ _ Hcall Hf _ _ Eb) as [? ?]. rewrite Hcl, orb_false_r. done.
  - destruct Hcall as [(sms & Er & Hb)|[Hno Hw]].
    + destruct (Hbatch _ _ _ Er Hb) as (Hq & Ho & I'). destruct q as [|x q]; [done|].
      injection E as <- <- <-. rewrite Hcl, orb_false_r. done.
    + rewrite (box_sample_allowed _ _ _ _ I) in Hno. destruct q as [|x q]; [|by destruct Hno].
      injection E as <- <- <-. destruct (Hwait _ Hw) as [(-> & -> & ->)|[(-> & _ & -> & ->)|(_ & ? & _)]]; [| |done];
        rewrite app_nil_r, Hcl, orb_false_r; done.
  - destruct (Hwait _ Hcall) as [(Ec & Er & Ev)|[(Ec & -> & Er & Ev)|(Ec & Hq & Er & I')]];
      rewrite Ec in *; rewrite Er, Hcl.
    + injection E as <- <- <-. subst evs. rewrite app_nil_r. done.
    + injection E as <- <- <-. subst evs. rewrite app_nil_r. done.
    + destruct q as [|x q]; [done|]. injection E as <- <- <-. done.
  - done.
  - destruct Hcall as [-> ->]. injection E as <- <- <-. split; [done|]. split; [done|].
    rewrite Hcl, orb_false_r. split; [|done]. apply box_inv_new; [done|by rewrite replay_snoc| |by rewrite n_ins_snoc|by rewrite n_samp_snoc].
    rewrite sel_replay_snoc, (bi_sel _ _ _ _ I). by destruct lifo.
  - destruct Hcall as [-> ->]. injection E as <- <- <-. split; [done|]. split; [done|].
    rewrite app_nil_r, Hcl, orb_true_r. done.
Qed.

Lemma box_run_refine lifo n os : forall t q outs q', 1 <= n -> linv (box_cfg lifo n) t -> box_inv lifo n (t_log t) q ->
  Forall (op_ok (box_cfg lifo n)) os -> Forall fresh_op os ->
  box_run lifo n q (l_cancelled (t_limiter t)) os = Some (outs, q') ->
  exists rs t', run t os = Some (rs, t') /\ out <$> rs = outs /\ linv (box_cfg lifo n) t' /\ box_inv lifo n (t_log t') q'.
Proof.
  induction os as [|o os IH]; intros t q outs q' Hn LI I Hok Hf E; cbn [box_run run] in *.
  { injection E as <- <-. by exists [], t. }
  apply Forall_cons in Hok as [Ho Hok]. apply Forall_cons in Hf as [Hfo Hf].
  destruct (box_step _ _ _ _ _) as [[[r q1] closed1]|] eqn:E1; [|done]. cbn [mbind option_bind] in E.
  destruct (box_refine _ _ _ _ _ _ _ _ Hn LI I Ho Hfo E1) as (r0 & t1 & -> & Er & LI1 & I1 & <-).
  destruct (box_run _ _ _ _ _) as [[outs1 q2]|] eqn:E2; [|done]. injection E as <- <-.
  destruct (IH t1 q1 outs1 q2 Hn LI1 I1 Hok Hf E2) as (rs & t2 & -> & Ers & LI2 & I2).
  exists (r0 :: rs), t2. split; [done|]. cbn [fmap list_fmap]. by rewrite Er, Ers.
Qed.

Lemma box_items lifo n log q : box_inv lifo n log q -> (map_to_list (replay log)).*2 ≡ₚ q.
Proof.
  intros I. apply NoDup_Permutation.
  - apply NoDup_fmap_2_strong; [|apply NoDup_map_to_list].
    intros [k1 x1] [k2 x2] H1 H2 E. apply elem_of_map_to_list in H1, H2. cbn in E. subst x2.
    apply (bi_data _ _ _ _ I) in H1 as [_ <-]. apply (bi_data _ _ _ _ I) in H2 as [_ <-]. done.
  - pose proof (bi_nodup _ _ _ _ I) as H. by apply NoDup_fmap_1 in H.
  - intros x. rewrite elem_of_list_fmap. split.
    + intros ([k y] & -> & H). apply elem_of_map_to_list in H. by apply (bi_data _ _ _ _ I) in H as [H _].
    + intros H. exists (it_key x, x). split; [done|]. apply elem_of_map_to_list. by apply (bi_data _ _ _ _ I).
Qed.

Lemma box_main lifo n os outs q : 1 <= n ->
  Forall (op_ok (box_cfg lifo n)) os -> Forall fresh_op os ->
  box_run lifo n [] false os = Some (outs, q) ->
  exists rs t, run (new_table (box_cfg lifo n)) os = Some (rs, t) /\ out <$> rs = outs /\
    (map_to_list (t_data t)).*2 ≡ₚ q /\ Z.of_nat (length q) <= n.
Proof.
  intros Hn Hok Hf E.
  assert (Hcfg : cfg_ok (box_cfg lifo n)). { split; [cbn; lia|]. split; [cbn; lia|]. by destruct lifo. }
  destruct (box_run_refine lifo n os (new_table (box_cfg lifo n)) [] outs q Hn) as (rs & t & Hr & Ho & LI & I); try done.
  { by apply new_table_linv. }
  { apply box_inv_new; try done. by destruct lifo. }
  exists rs, t. split; [done|]. split; [done|]. destruct LI as [_ L _]. rewrite <- (la_data _ _ _ _ L).
  split; [by eapply box_items|by eapply bi_len].
Qed.

(** ** C30, C34 *)

(** Whatever the calls, as long as they are insertions of keys not held, samples,
    resets and Close: the table answers like a bounded queue and holds exactly
    what the queue holds. *)
Theorem C30_queue n c os outs q : py_table_queue n = Some c ->
  Forall (op_ok c) os -> Forall fresh_op os -> box_run false n [] false os = Some (outs, q) ->
  exists rs t, run (new_table c) os = Some (rs, t) /\ out <$> rs = outs /\
    (map_to_list (t_data t)).*2 ≡ₚ q /\ Z.of_nat (length q) <= n.
Proof.
  intros Hc. unfold py_table_queue, py_table in Hc. destruct (Z.leb_spec n 0); [done|]. injection Hc as <-.
  apply (box_main false); lia.
Qed.

Theorem C34_stack n c os outs q : py_table_stack n = Some c ->
  Forall (op_ok c) os -> Forall fresh_op os -> box_run true n [] false os = Some (outs, q) ->
  exists rs t, run (new_table c) os = Some (rs, t) /\ out <$> rs = outs /\
    (map_to_list (t_data t)).*2 ≡ₚ q /\ Z.of_nat (length q) <= n.
Proof.
  intros Hc. unfold py_table_stack, py_table in Hc. destruct (Z.leb_spec n 0); [done|]. injection Hc as <-.
  apply (box_main true); lia.
Qed.

(** Exactly once: what was accepted, in order, is what was handed out followed by
    what is still there. *)
Fixpoint accepted (os : list op) (rs : list result) : list item :=
  match os, rs with
  | (OInsert now _ it | OInsertWake now _ it) :: os, RStatus Ok :: rs => it_with_at it now :: accepted os rs
  | _ :: os, _ :: rs => accepted os rs
  | _, _ => []
  end.
Definition no_reset (o : op) : Prop := match o with OReset => False | _ => True end.

Lemma accepted_cons o os r rs : accepted (o :: os) (r :: rs) =
  (match o, out r with OInsert now _ it, BOk | OInsertWake now _ it, BOk => [it_with_at it now] | _, _ => [] end) ++ accepted os rs.
Proof. destruct o, r as [[]|[]|]; done. Qed.

Lemma all_samples_cons r rs : all_samples (r :: rs) = result_samples r ++ all_samples rs.
Proof. done. Qed.

Definition out_items (b : box_out) : list item := match b with BItems l => l | _ => [] end.

Lemma box_account lifo n os : forall q closed outs q' rs,
  Forall no_reset os -> box_run lifo n q closed os = Some (outs, q') -> out <$> rs = outs ->
  Forall (fun r => forall st l, r = RSamples st l -> st <> Ok -> l = []) rs ->
  if lifo then handed_out <$> (q ++ accepted os rs) ≡ₚ (sm_item <$> all_samples rs) ++ (handed_out <$> q')
  else handed_out <$> (q ++ accepted os rs) = (sm_item <$> all_samples rs) ++ (handed_out <$> q').
Proof.
  induction os as [|o os IH]; intros q closed outs q' rs Hr E Eo Hfail.
  { cbn in E. injection E as <- <-. destruct rs; [|done]. cbn. rewrite app_nil_r. by destruct lifo. }
  apply Forall_cons in Hr as [Ho Hr]. cbn [box_run] in E.
  destruct (box_step _ _ _ _ _) as [[[b q1] closed1]|] eqn:E1; [|done]. cbn [mbind option_bind] in E.
  destruct (box_run _ _ q1 _ _) as [[outs1 q2]|] eqn:E2; [|done]. injection E as <- <-.
  destruct rs as [|r rs]; [done|]. cbn [fmap list_fmap] in Eo. injection Eo as Eb Eo.
  apply Forall_cons in Hfail as [Hfr Hfail].
  pose proof (IH _ _ _ _ rs Hr E2 Eo Hfail) as Hrest. clear IH E2.
  rewrite accepted_cons, all_samples_cons, Eb, fmap_app, (fmap_app sm_item), <- app_assoc.
  (* one step *)
  assert (Hstep : if lifo then handed_out <$> q ++ (match o, b with OInsert now _ it, BOk | OInsertWake now _ it, BOk => [it_with_at it now] | _, _ => [] end) ≡ₚ
      (sm_item <$> result_samples r) ++ (handed_out <$> q1)
    else handed_out <$> q ++ (match o, b with OInsert now _ it, BOk | OInsertWake now _ it, BOk => [it_with_at it now] | _, _ => [] end) =
      (sm_item <$> result_samples r) ++ (handed_out <$> q1)).
  { assert (Hs : sm_item <$> result_samples r = out_items b).
    { rewrite <- Eb. destruct r as [[]|st l|]; try done. destruct st; cbn; try done; rewrite (Hfr _ l eq_refl) by done; done. }
    rewrite Hs. clear Hs Hrest Eb Hfr.
    assert (Hbi : forall it r1, box_insert lifo n q closed it = Some (r1, q1) ->
      out_items r1 = [] /\ (r1 = BOk /\ q1 = put lifo q it \/ r1 <> BOk /\ q1 = q)).
    { intros it r1. unfold box_insert. case_decide; [done|]. destruct closed; [|destruct (_ <? _)];
        intros [= <- <-]; split; auto. }
    assert (Htake : forall b' q', (BItems (handed_out <$> take (Z.to_nat (Z.max 1 b')) q'), drop (Z.to_nat (Z.max 1 b')) q') = (b, q1) ->
      handed_out <$> q' ++ [] = out_items b ++ (handed_out <$> q1)).
    { intros b' q0 [= <- <-]. cbn [out_items]. by rewrite app_nil_r, <- fmap_app, take_drop. }
    assert (Hperm : forall l1 l2 : list item, l1 = l2 -> if lifo then l1 ≡ₚ l2 else l1 = l2) by (intros l1 l2 ->; by destruct lifo).
    destruct o as [now d it|now d it|b' ds|b' ds|us ks| |]; cbn [box_step] in E1; try done.
    - case_decide.
      + destruct (box_insert _ _ _ _ _) as [[r1 q1']|] eqn:Eb; [|done]. injection E1 as -> -> ->.
        destruct (Hbi _ _ Eb) as [-> [[-> ->]|[Hne ->]]].
        * unfold put. destruct lifo; [|done]. cbn. by rewrite Permutation_app_comm.
        * apply Hperm. destruct b; try done; by rewrite app_nil_r.
      + injection E1 as <- <- <-. apply Hperm. by rewrite app_nil_r.
    - destruct (box_insert _ _ _ _ _) as [[r1 q1']|] eqn:Eb; [|done]. injection E1 as -> -> ->.
        destruct (Hbi _ _ Eb) as [-> [[-> ->]|[Hne ->]]].
        * unfold put. destruct lifo; [|done]. cbn. by rewrite Permutation_app_comm.
        * apply Hperm. destruct b; try done; by rewrite app_nil_r.
    - apply Hperm. destruct q as [|x q]; [injection E1 as <- <- <-; by destruct closed|].
      unfold box_take in E1. cbn [mbind] in E1. injection E1 as <- <- <-. by apply (Htake b').
    - apply Hperm. destruct closed; [injection E1 as <- <- <-; by rewrite app_nil_r|].
      destruct q as [|x q]; [by injection E1 as <- <- <-|].
      unfold box_take in E1. injection E1 as <- <- <-. by apply (Htake b').
    - injection E1 as <- <- <-. apply Hperm. by rewrite app_nil_r. }
  rewrite fmap_app, app_assoc, <- fmap_app. rewrite fmap_app in Hrest.
  destruct lifo.
  - rewrite Hstep, <- app_assoc, Hrest. done.
  - rewrite Hstep, <- app_assoc, Hrest. done.
Qed.

Lemma failed_empty c os : forall t rs t', cfg_ok c -> linv c t -> Forall (op_ok c) os -> run t os = Some (rs, t') ->
  Forall (fun r => forall st l, r = RSamples st l -> st <> Ok -> l = []) rs.
Proof.
  induction os as [|o os IH]; intros t rs t' Hc LI Hok E; cbn [run] in E; [by injection E as <- <-|].
  apply Forall_cons in Hok as [Ho Hok].
  destruct (spec_step c t o Hc LI Ho) as (r & t1 & evs & Es & LI1 & _ & Hcall & _). rewrite Es in E.
  destruct (run t1 os) as [[rs1 t2]|] eqn:E2; [|done]. injection E as <- <-. constructor; [|by eapply IH].
  intros st l -> Hne. destruct o as [now d it|now d it|b ds|b ds|us ks| |]; cbn in Hcall; unfold insert_wait_spec, sample_wait_spec in Hcall; naive_solver.
Qed.

Theorem C30_exactly_once n c os outs q rs t : py_table_queue n = Some c ->
  Forall (op_ok c) os -> Forall fresh_op os -> Forall no_reset os ->
  box_run false n [] false os = Some (outs, q) -> run (new_table c) os = Some (rs, t) ->
  handed_out <$> accepted os rs = (sm_item <$> all_samples rs) ++ (handed_out <$> q) /\
  (map_to_list (t_data t)).*2 ≡ₚ q.
Proof.
  intros Hc Hok Hf Hr Hb E. destruct (C30_queue n c os outs q Hc Hok Hf Hb) as (rs' & t' & E' & Ho & Hq & _).
  rewrite E in E'. injection E' as <- <-. split; [|done].
  unfold py_table_queue, py_table in Hc. destruct (Z.leb_spec n 0); [done|]. injection Hc as <-.
  apply (box_account false n os [] false outs q rs Hr Hb Ho).
  eapply failed_empty; [| |exact Hok|exact E]; [|apply new_table_linv]; repeat split; cbn; lia.
Qed.

Theorem C34_exactly_once n c os outs q rs t : py_table_stack n = Some c ->
  Forall (op_ok c) os -> Forall fresh_op os -> Forall no_reset os ->
  box_run true n [] false os = Some (outs, q) -> run (new_table c) os = Some (rs, t) ->
  handed_out <$> accepted os rs ≡ₚ (sm_item <$> all_samples rs) ++ (handed_out <$> q) /\
  (map_to_list (t_data t)).*2 ≡ₚ q.
Proof.
  intros Hc Hok Hf Hr Hb E. destruct (C34_stack n c os outs q Hc Hok Hf Hb) as (rs' & t' & E' & Ho & Hq & _).
  rewrite E in E'. injection E' as <- <-. split; [|done].
  unfold py_table_stack, py_table in Hc. destruct (Z.leb_spec n 0); [done|]. injection Hc as <-.
  apply (box_account true n os [] false outs q rs Hr Hb Ho).
  eapply failed_empty; [| |exact Hok|exact E]; [|apply new_table_linv]; repeat split; cbn; lia.
Qed.

End WithFP.

(** ** Examples *)

Local Existing Instance fp_exact.
Local Existing Instance fp_exact_laws.
Local Existing Instance fp_exact_exact.

Definition ex_queue_hist : list op :=
  [OSample 1 ds0; OInsert (1, 0) d0 (mk_item 1 5 7 0); OInsert (2, 0) d0 (mk_item 2 5 7 0);
   OInsert (3, 0) d0 (mk_item 3 5 7 0);          (* blocked, 2 is the size *)
   OSample 1 ds0; OInsertWake (4, 0) d0 (mk_item 3 5 7 0); OSample 5 ds0; OInsert (5, 0) d0 (mk_item 1 5 7 0); OClose;
   OInsert (6, 0) d0 (mk_item 4 5 7 0); OSample 1 ds0].
Definition keys_out (b : box_out) : list Z := it_key <$> out_items b.

Example C30_example : exists c, py_table_queue 2 = Some c /\
  Forall (op_ok c) ex_queue_hist /\ Forall fresh_op ex_queue_hist /\ Forall no_reset ex_queue_hist /\
  exists outs q, box_run false 2 [] false ex_queue_hist = Some (outs, q) /\
    keys_out <$> outs = [[]; []; []; []; [1]; []; [2; 3]; []; []; []; [1]] /\
    outs !! 0%nat = Some BBlocked /\ outs !! 3%nat = Some BBlocked /\ outs !! 9%nat = Some (BFail Cancelled) /\ q = [].
Proof.
  eexists. split; [reflexivity|]. split; [ops_ok|]. split; [by repeat constructor|]. split; [by repeat constructor|].
  eexists _, _. split; [vm_compute; reflexivity|]. done.
Qed.
Example C34_example : exists c, py_table_stack 2 = Some c /\
  Forall (op_ok c) ex_queue_hist /\ Forall fresh_op ex_queue_hist /\ Forall no_reset ex_queue_hist /\
  exists outs q, box_run true 2 [] false ex_queue_hist = Some (outs, q) /\
    keys_out <$> outs = [[]; []; []; []; [2]; []; [3; 1]; []; []; []; [1]] /\ q = [].
Proof.
  eexists. split; [reflexivity|]. split; [ops_ok|]. split; [by repeat constructor|]. split; [by repeat constructor|].
  eexists _, _. split; [vm_compute; reflexivity|]. done.
Qed.

(** Deleting items by hand does not give room back: after two items were deleted
    the queue of size 2 is empty, lets one item in and then blocks. *)
Definition ex_queue_deleted : list op :=
  [OInsert (1, 0) d0 (mk_item 1 5 7 0); OInsert (2, 0) d0 (mk_item 2 5 7 0); OMutate [] [1; 2];
   OInsert (3, 0) d0 (mk_item 3 5 7 0); OInsert (4, 0) d0 (mk_item 4 5 7 0)].
Theorem C30_deletes_keep_room_refuted : exists c, py_table_queue 2 = Some c /\
  let r := final c ex_queue_deleted in
  reached c ex_queue_deleted r.1 r.2 /\ r.1 !! 3%nat = Some (RStatus Ok) /\ r.1 !! 4%nat = Some RBlocked /\
  i_size (info r.2) = 1.
Proof.
  eexists. split; [reflexivity|]. cbv zeta.
  split. { split; [by repeat constructor|ops_ok|by vm_compute]. }
  split; [by vm_compute|]. split; by vm_compute.
Qed.

Print Assumptions C30_queue.
Print Assumptions C30_exactly_once.
Print Assumptions C30_deletes_keep_room_refuted.
Print Assumptions C34_stack.
Print Assumptions C34_exactly_once.
