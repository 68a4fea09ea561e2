(** C74: the order in which the items of a TrajectoryWriter reach the server. *)
From Verif Require Import Base Trajectory Tensor TrajUtil ChunkerOptions Sample Stream Reactor PropTraj PropSample PropStream PropInsertStream
  Chunker PropChunker TrajWriter TrajWriterProofs PropTrajWriter.
Local Open Scope Z_scope.

(** ** Specification *)

(** The keys of the items that a list of messages carries. *)
Definition wire_keys (rs : list ireq) : list Z := omap (fun r => ii_key <$> ir_item r) rs.

(** A run of the writer with the keys of the items that reached the server, over all
    streams, in this order.  EStart begins a new stream. *)
Definition newly_sent (w : tw) (e : tev) (w' : tw) : list Z :=
  match e with EStart => [] | _ => wire_keys (drop (length (w_wire w)) (w_wire w')) end.
Inductive sends (w0 : tw) : list Z -> tw -> Prop :=
| se_nil : sends w0 [] w0
| se_snoc l w e w' ret : sends w0 l w -> tw_enabled w e -> tw_step w e = TNext w' ret -> sends w0 (l ++ newly_sent w e w') w'.

(** [l] is [ks] with every element repeated at least once. *)
Definition repeats (ks l : list Z) : Prop := exists ns, length ns = length ks /\ Forall (fun n => 1 <= n)%nat ns /\ l = concat (zip_with replicate ns ks).

(** ** Invariant *)

Definition active (p : wpos) : bool := match p with WTop _ _ | WChunks _ _ _ _ | WCheck _ _ _ | WWait _ _ _ _ | WSend _ _ _ => true | _ => false end.
Definition popping (p : wpos) : bool := match p with WPop _ _ => true | _ => false end.
Definition calm (p p' : wpos) : Prop := (active p' = true -> active p = true) /\ popping p' = popping p.

(** What a step does to the queue, the wire and the list of created items. *)
Inductive effect (e : tev) (w w' : tw) : Prop :=
| ef_same : w_queue w' = w_queue w -> w_created w' = w_created w -> wire_keys (drop (length (w_wire w)) (w_wire w')) = [] -> (exists l, w_wire w' = w_wire w ++ l) ->
    calm (w_pos w) (w_pos w') -> effect e w w'
| ef_send it s req o : e = ESend o -> w_queue w' = w_queue w -> w_created w' = w_created w -> w_pos w = WSend it s req ->
    w_wire w' = (if delivered o then w_wire w ++ [item_message it req s] else w_wire w) ->
    (if write_ok o then popping (w_pos w') = true else active (w_pos w') = false /\ popping (w_pos w') = false) -> active (w_pos w') = false -> effect e w w'
| ef_pop it s : w_pos w = WPop it s -> w_queue w' = tail (w_queue w) -> w_created w' = w_created w -> w_wire w' = w_wire w -> popping (w_pos w') = false -> effect e w w'
| ef_create it cols : w_queue w' = w_queue w ++ [it] -> w_created w' = w_created w ++ [(it, cols)] -> w_wire w' = w_wire w -> calm (w_pos w) (w_pos w') -> effect e w w'
| ef_start : w_queue w' = w_queue w -> w_created w' = w_created w -> w_wire w' = [] -> popping (w_pos w) = false -> popping (w_pos w') = false -> effect e w w'.

Lemma calm_refl p : calm p p.
Proof. done. Qed.
Lemma same_effect e w w' : w_queue w' = w_queue w -> w_created w' = w_created w -> w_wire w' = w_wire w -> calm (w_pos w) (w_pos w') -> effect e w w'.
Proof. intros H1 H2 H3 H4. apply ef_same; try done; rewrite H3; [by rewrite drop_all|exists []; by rewrite app_nil_r]. Qed.
Lemma signal_effect e w w0 : w_queue w0 = w_queue w -> w_created w0 = w_created w -> w_wire w0 = w_wire w -> w_pos w0 = w_pos w -> effect e w (signal w0).
Proof.
  intros H1 H2 H3 H4. unfold signal. destruct (w_pos w0) eqn:E; apply same_effect; try done; rewrite <- ?H4, ?E; cbn; try apply calm_refl. done.
Qed.
Lemma return_effect e w st : active (w_pos w) = false -> popping (w_pos w) = false -> effect e w (worker_return w st) /\ active (w_pos (worker_return w st)) = false /\ popping (w_pos (worker_return w st)) = false /\ w_wire (worker_return w st) = w_wire w.
Proof. intros Ha Hp. unfold worker_return. destruct (w_closed w); [|destruct (bool_decide _)]; (split; [apply same_effect; try done; by split; cbn|done]). Qed.

Lemma step_effect w e w' ret : tw_step w e = TNext w' ret -> effect e w w' /\ (e <> EStart -> exists l, w_wire w' = w_wire w ++ l) /\ (e = EStart -> w_wire w' = w_wire w \/ w_wire w' = []).
Proof.
  assert (X : forall w w', effect e w w' -> w_wire w' = w_wire w -> effect e w w' /\ (e <> EStart -> exists l, w_wire w' = w_wire w ++ l) /\ (e = EStart -> w_wire w' = w_wire w \/ w_wire w' = [])).
  { intros a b H E. split; [done|]. rewrite E. split; [exists []; by rewrite app_nil_r|by left]. }
  assert (G : forall w w', w_queue w' = w_queue w -> w_created w' = w_created w -> w_wire w' = w_wire w -> calm (w_pos w) (w_pos w') ->
    effect e w w' /\ (e <> EStart -> exists l, w_wire w' = w_wire w ++ l) /\ (e = EStart -> w_wire w' = w_wire w \/ w_wire w' = [])) by (intros; apply X; [by apply same_effect|done]).
  assert (SG : forall w w0, w_queue w0 = w_queue w -> w_created w0 = w_created w -> w_wire w0 = w_wire w -> w_pos w0 = w_pos w ->
    effect e w (signal w0) /\ (e <> EStart -> exists l, w_wire (signal w0) = w_wire w ++ l) /\ (e = EStart -> w_wire (signal w0) = w_wire w \/ w_wire (signal w0) = [])).
  { intros a b H1 H2 H3 H4. apply X; [by apply signal_effect|]. destruct (signal_frame b) as (p & ->). done. }
  destruct e as [| |big o'| | |o'| |st|keys|c a|data inc nk|nk|table prio cols key|n nk|clear nk|timeout nk newep|c o'|]; cbn [tw_step].
  - destruct (w_pos w) eqn:Hp; try done. destruct (negb _); [|destruct (w_closed w)]; intros [= <- <-].
    + destruct (return_effect EStart w (w_unrec w)) as (R1 & _ & _ & R2); [by rewrite Hp..|]. by apply X.
    + destruct (return_effect EStart w Cancelled) as (R1 & _ & _ & R2); [by rewrite Hp..|]. by apply X.
    + split; [apply ef_start; try done; by rewrite Hp|]. split; [done|]. by right.
  - destruct (w_pos w) eqn:Hp; try done. destruct (w_closed w); [|destruct (w_queue w) eqn:Hq; [done|]]; intros [= <- <-]; apply G; cbn; rewrite ?Hp; done.
  - destruct (w_pos w) as [| |it rest s req| | | | | |] eqn:Hp; try done. destruct rest as [|r rest]; [intros [= <- <-]; apply G; cbn; rewrite ?Hp; done|]. destruct (w_cell w r) as [c|]; [|done].
    destruct (ce_chunk c); [|intros [= <- <-]; apply G; cbn; rewrite ?Hp; done]. destruct (bool_decide _); [intros [= <- <-]; apply G; cbn; rewrite ?Hp; done|].
    destruct big; intros [= <- <-]; [|apply G; cbn; rewrite ?Hp; done].
    unfold send. destruct (delivered o'); [|apply G; cbn; rewrite ?Hp; try done; by destruct (write_ok o')].
    split; [|split; [intros _; by eexists|done]]. apply ef_same; [done|done| |by eexists|].
    + cbn. by rewrite drop_app.
    + cbn. rewrite Hp. by destruct (write_ok o').
  - destruct (w_pos w) as [| | |it s req| | | | |] eqn:Hp; try done. destruct (forallb _ _); [|destruct (forallb _ _)]; intros [= <- <-]; apply G; cbn; rewrite ?Hp; done.
  - destruct (w_pos w) eqn:Hp; try done. intros [= <- <-]. apply G; cbn; rewrite ?Hp; done.
  - destruct (w_pos w) as [| | | | |it s req| | |] eqn:Hp; try done. unfold send. destruct o'; cbn [write_ok delivered]; intros [= <- <-].
    + split; [by apply (ef_send _ _ _ it s req OutOk)|]. split; [intros _; by eexists|done].
    + split; [by apply (ef_send _ _ _ it s req OutLost)|]. split; [intros _; exists []; by rewrite app_nil_r|done].
    + split; [by apply (ef_send _ _ _ it s req OutSent)|]. split; [intros _; by eexists|done].
  - destruct (w_pos w) as [| | | | | |it s| |] eqn:Hp; try done. intros [= <- <-]. apply X; [|done]. by eapply ef_pop.
  - destruct (w_pos w) eqn:Hp; try done. intros [= <- <-]. destruct (return_effect (EFinish st) w st) as (R1 & _ & _ & R2); [by rewrite Hp..|]. by apply X.
  - destruct (w_pos w) eqn:Hp; try done; (destruct (forallb _ keys); [|done]; intros [= <- <-]; apply G; cbn; rewrite ?Hp; done).
  - destruct (w_pos w) eqn:Hp; try done. destruct (col_step w c (KTune a)) as [w1|] eqn:E; [|done]. apply col_step_frame in E as (m & ->). intros [= <- <-]. by apply G.
  - unfold append_begin. destruct (w_user w) eqn:Hu; try done. destruct (bool_decide _).
    + destruct (add_chunkers w 0 data nk) as [w1|] eqn:E; [|done]. apply add_chunkers_frame in E as (m & ->). intros [= <- <-]. by apply G.
    + intros [= <- <-]. by apply G.
  - unfold append_col. destruct (w_user w) as [|i rest inc ep' step|] eqn:Hu; try done. destruct rest as [|[t|] rest].
    + destruct (_ && _); [|done]. intros [= <- <-]. destruct (SG w (set_stp w (if inc then w_stp w + 1 else w_stp w))) as (S1 & S2 & S3); try done.
      split; [|done]. revert S1. generalize (signal (set_stp w (if inc then w_stp w + 1 else w_stp w))). intros w1 S1.
      destruct S1; [eapply ef_same|eapply ef_send|eapply ef_pop|eapply ef_create|eapply ef_start]; eauto.
    + destruct (mbind _ _) as [[st w1]|] eqn:E; [|done].
      assert (exists m, w1 = set_cols w m) as (m & ->).
      { destruct (w_cols w !! i) as [[k h]|]; [|done]. cbn [mbind option_bind] in E. destruct (k_append k t ep' step nk) as [[[st' x] k']|]; [|done]. cbn [mbind option_bind] in E.
        destruct (col_step w i (KAppend t ep' step nk)) as [w2|] eqn:E2; [|done]. cbn [mbind option_bind] in E. injection E as _ <-. by apply col_step_frame in E2. }
      destruct (bool_decide (st = Ok)) eqn:Hst; intros [= <- <-]; by apply G.
    + intros [= <- <-]. by apply G.
  - unfold create_item. destruct (w_user w) eqn:Hu; try done.
    destruct (forallb _ cols); [intros [= <- <-]; by apply G|].
    destruct (bool_decide_reflect (w_unrec w = Ok)); cbn [negb]; [|intros [= <- <-]; by apply G].
    destruct (columns_validate w cols) as [st|]; [|done]. destruct (bool_decide_reflect (st = Ok)) as [->|]; cbn [negb]; [|intros [= <- <-]; by apply G].
    cbn zeta. destruct (item_validate _ _) as [st|]; [|done]. destruct (bool_decide_reflect (st = Ok)) as [->|]; cbn [negb]; [|intros [= <- <-]; by apply G].
    intros [= <- <-]. apply X; [|done]. by eapply ef_create.
  - destruct (w_user w) eqn:Hu; try done. unfold flush_begin. destruct (force_flush _ _ _) as [[st w1]|] eqn:E; [|done]. apply force_flush_frame in E as (m & ->).
    destruct (bool_decide _); intros [= <- <-]; [|by apply G]. destruct (SG w (set_cols w m)) as (S1 & S2 & S3); try done.
    split; [|done]. revert S1. generalize (signal (set_cols w m)). intros w1 S1.
    destruct S1; [eapply ef_same|eapply ef_send|eapply ef_pop|eapply ef_create|eapply ef_start]; eauto.
  - destruct (w_user w) eqn:Hu; try done. destruct (bool_decide _); [|intros [= <- <-]; by apply G].
    unfold flush_begin. destruct (force_flush _ _ _) as [[st w1]|] eqn:E; [|done]. apply force_flush_frame in E as (m & ->).
    destruct (bool_decide _); intros [= <- <-]; [|by apply G]. destruct (SG w (set_cols w m)) as (S1 & S2 & S3); try done.
    split; [|done]. revert S1. generalize (signal (set_cols w m)). intros w1 S1.
    destruct S1; [eapply ef_same|eapply ef_send|eapply ef_pop|eapply ef_create|eapply ef_start]; eauto.
  - unfold flush_done. destruct (w_user w) as [| |n fin] eqn:Hu; try done.
    destruct (flush_cond w n); [|destruct timeout; [|done]; intros [= <- <-]; by apply G].
    cbn zeta. destruct (negb _); [intros [= <- <-]; by apply G|]. destruct fin as [|clear]; [intros [= <- <-]; by apply G|].
    destruct (end_chunkers _ _ _ _) as [[st w1]|] eqn:E; [|done]. apply end_chunkers_frame in E as (m & u & ->).
    destruct (bool_decide _); intros [= <- <-]; by apply G.
  - unfold configure. destruct (w_user w) eqn:Hu; try done. destruct (negb _); [intros [= <- <-]; by apply G|]. destruct (w_cols w !! c) as [[k h]|]; [|intros [= <- <-]; by apply G].
    destruct (col_step w c _) as [w1|] eqn:E; [|done]. apply col_step_frame in E as (m & ->). intros [= <- <-]. by apply G.
  - unfold close. intros [= <- <-]. destruct (w_closed w); [by apply G|]. by apply SG.
Qed.

Record order_inv (l : list Z) (w : tw) : Prop := {
  oi_ex : exists popped b m, created_keys (w_created w) = popped ++ (wi_key <$> w_queue w) /\
    (b = true -> w_queue w <> []) /\ repeats (popped ++ (if b : bool then take 1 (wi_key <$> w_queue w) else [])) l /\
    (popping (w_pos w) = true -> b = true) /\
    (m <= length (popped ++ (if b : bool then take 1 (wi_key <$> w_queue w) else [])))%nat /\
    wire_keys (w_wire w) = drop m (popped ++ (if b : bool then take 1 (wi_key <$> w_queue w) else [])) /\
    (active (w_pos w) = true -> b = true -> wire_keys (w_wire w) = []) }.

Lemma repeats_snoc ks l k : repeats ks l -> repeats (ks ++ [k]) (l ++ [k]).
Proof.
  intros (ns & H1 & H2 & ->). exists (ns ++ [1%nat]). rewrite !app_length, H1. split; [done|]. split; [apply Forall_app; split; [done|by repeat constructor]|].
  rewrite zip_with_app by done. by rewrite concat_app.
Qed.
Lemma repeats_again ks l k : repeats (ks ++ [k]) l -> repeats (ks ++ [k]) (l ++ [k]).
Proof.
  intros (ns & H1 & H2 & ->). destruct ns as [|n ns _] using rev_ind; [rewrite app_length in H1; cbn in H1; lia|]. rewrite !app_length in H1. cbn in H1.
  apply Forall_app in H2 as [H2 [H3 _]%Forall_cons]. exists (ns ++ [S n]). rewrite !app_length. split; [cbn; lia|]. split; [apply Forall_app; split; [done|constructor; [lia|constructor]]|].
  rewrite !zip_with_app by lia. rewrite !concat_app, <- app_assoc. f_equal. cbn [zip_with concat]. rewrite !app_nil_r. by rewrite <- replicate_S_end.
Qed.
Lemma wire_keys_app a b : wire_keys (a ++ b) = wire_keys a ++ wire_keys b.
Proof. apply omap_app. Qed.

Lemma order_step l w e w' ret : winv w -> order_inv l w -> tw_step w e = TNext w' ret -> order_inv (l ++ newly_sent w e w') w'.
Proof.
  intros I [(popped & b & m & H1 & H2 & H3 & H4 & H5 & H6 & H7)] E. destruct (step_effect w e w' ret E) as (F & N1 & N2).
  assert (NS : w_wire w' = w_wire w -> newly_sent w e w' = []).
  { intros Hw. unfold newly_sent. rewrite Hw, drop_all. by destruct e. }
  constructor. destruct F as [Q C W WL P|it s req o He Q C Hp W P A|it s Hp Q C W P|it cols Q C W P|Q C W P0 P].
  - assert (newly_sent w e w' = []) as -> by (unfold newly_sent; destruct e; done). rewrite app_nil_r.
    destruct WL as [lw Hlw]. assert (wire_keys (w_wire w') = wire_keys (w_wire w)) as Hwk.
    { rewrite Hlw in W |- *. rewrite drop_app in W. rewrite wire_keys_app, W. by rewrite app_nil_r. }
    exists popped, b, m. rewrite Q, C, Hwk. destruct P as [P1 P2]. rewrite <- P2 in H4. repeat (split; [by auto|]). auto.
  - pose proof (v_pos w I) as V. rewrite Hp in V, H4, H7. cbn [pos_inv active popping] in V, H4, H7. destruct V as (V & _).
    assert (newly_sent w e w' = if delivered o then [wi_key it] else []) as ->.
    { assert (newly_sent w e w' = wire_keys (drop (length (w_wire w)) (w_wire w'))) as -> by (by rewrite He).
      rewrite W. destruct (delivered o); [by rewrite drop_app|by rewrite drop_all]. }
    destruct (w_queue w) as [|it' q] eqn:Eq; [done|]. cbn [head] in V. injection V as ->.
    assert (Wk : wire_keys (w_wire w') = wire_keys (w_wire w) ++ (if delivered o then [wi_key it] else [])).
    { rewrite W. destruct (delivered o); [by rewrite wire_keys_app|by rewrite app_nil_r]. }
    assert (T1 : take 1 (wi_key <$> it :: q) = [wi_key it]) by done. rewrite T1 in H3, H5, H6.
    destruct (delivered o) eqn:Hd.
    + destruct b.
      * specialize (H7 eq_refl eq_refl). exists popped, true, (length popped). rewrite Q, C, Wk, T1. split; [done|]. split; [done|]. split; [by apply repeats_again|]. split; [done|].
        split; [rewrite app_length; lia|]. split; [rewrite H7, drop_app; done|]. by rewrite A.
      * rewrite app_nil_r in H3, H5, H6. exists popped, true, m. rewrite Q, C, Wk, T1. split; [done|]. split; [done|]. split; [by apply repeats_snoc|]. split; [done|].
        split; [rewrite app_length; lia|]. split; [rewrite H6, drop_app_le by lia; done|]. by rewrite A.
    + assert (popping (w_pos w') = false) as HP by (destruct o; [done|apply P|done]).
      exists popped, b, m. rewrite Q, C, Wk, T1, !app_nil_r. repeat (split; [by auto|]). split; [by rewrite HP|]. split; [done|]. split; [done|]. by rewrite A.
  - rewrite NS, app_nil_r by done. rewrite Hp in H4. specialize (H4 eq_refl). subst b. pose proof (v_pos w I) as V. rewrite Hp in V. cbn [pos_inv] in V. destruct V as (V & _).
    destruct (w_queue w) as [|it' q] eqn:Eq; [done|]. cbn [head tail] in *. injection V as ->.
    assert (T1 : take 1 (wi_key <$> it :: q) = [wi_key it]) by done. rewrite T1 in H3, H5, H6.
    exists (popped ++ [wi_key it]), false, m. rewrite Q, C, W, !app_nil_r. split; [rewrite H1, <- app_assoc; done|]. split; [done|]. split; [done|]. split; [by rewrite P|]. split; [done|]. by split.
  - rewrite NS, app_nil_r by done. destruct P as [P1 P2].
    assert (T : (if b : bool then take 1 (wi_key <$> w_queue w ++ [it]) else []) = (if b then take 1 (wi_key <$> w_queue w) else [])).
    { destruct b; [|done]. specialize (H2 eq_refl). by destruct (w_queue w). }
    exists popped, b, m. rewrite Q, C, W, T. split; [unfold created_keys in *; rewrite !fmap_app, H1, <- app_assoc; done|].
    split; [intros _; by destruct (w_queue w)|]. split; [done|]. split; [by rewrite P2|]. split; [done|]. split; [done|]. auto.
  - assert (newly_sent w e w' = []) as -> by (unfold newly_sent; rewrite W, drop_nil; by destruct e). rewrite app_nil_r.
    exists popped, b, (length (popped ++ (if b : bool then take 1 (wi_key <$> w_queue w) else []))). rewrite Q, C, W. split; [done|]. split; [done|]. split; [done|]. split; [by rewrite P|].
    split; [done|]. rewrite drop_all. done.
Qed.

Lemma sends_inv o sigs ep l w : validate_options o = Ok -> sends (tw_new o sigs ep) l w -> winv w /\ order_inv l w.
Proof.
  intros Ho. induction 1 as [|l w e w' ret H IH He E].
  - split; [apply (tw_reach_inv o sigs ep); [done|constructor]|]. constructor. exists [], false, 0%nat. split; [done|]. split; [done|]. split; [by exists []|]. split; [done|]. split; [lia|]. by split.
  - destruct IH as [I J]. split; [|by eapply order_step]. pose proof (tw_step_inv w e I He) as K. by rewrite E in K.
Qed.

(** ** C74 *)

(** The items reach the server in the order of their creation, none is left out: the
    ones not in the queue any more have all been sent, an item is sent again only
    right after it was sent, and over one stream no item is sent twice. *)
Theorem C74_order o sigs ep l w : validate_options o = Ok -> sends (tw_new o sigs ep) l w ->
  exists ks, repeats ks l /\ ks `prefix_of` created_keys (w_created w) /\
    (forall p, p ∈ w_created w -> p.1 ∉ w_queue w -> wi_key p.1 ∈ ks) /\
    (length ks + length (w_queue w) <= S (length (w_created w)))%nat /\
    wire_keys (w_wire w) `suffix_of` ks /\ NoDup (wire_keys (w_wire w)).
Proof.
  intros Ho H. destruct (sends_inv _ _ _ _ _ Ho H) as [I [(popped & b & m & H1 & H2 & H3 & H4 & H5 & H6 & H7)]].
  set (ks := popped ++ (if b : bool then take 1 (wi_key <$> w_queue w) else [])) in *.
  assert (HL : length (created_keys (w_created w)) = length (w_created w)) by apply fmap_length.
  assert (HP : ks `prefix_of` created_keys (w_created w)).
  { rewrite H1. unfold ks. destruct b; [|rewrite app_nil_r; by apply prefix_app_r]. apply prefix_app. exists (drop 1 (wi_key <$> w_queue w)). by rewrite take_drop. }
  exists ks. split; [done|]. split; [done|]. split.
  - intros p Hp Hq. pose proof (v_queue w I) as (pop & Q1 & Q2 & _). pose proof (v_keys w I) as N.
    assert (wi_key p.1 ∈ created_keys (w_created w)) as Hk by (unfold created_keys; apply elem_of_list_fmap; by exists p).
    rewrite H1 in Hk. apply elem_of_app in Hk as [Hk|Hk]; [unfold ks; apply elem_of_app; by left|]. exfalso. apply Hq.
    apply elem_of_list_fmap in Hk as (it & Hk & Hit). rewrite <- Q2 in Hit. apply elem_of_list_fmap in Hit as (p' & -> & Hp').
    assert (p' ∈ w_created w) as Hp2 by (rewrite Q1; apply elem_of_app; by right).
    assert (p = p') as ->; [|rewrite <- Q2; apply elem_of_list_fmap; by exists p'].
    apply elem_of_list_lookup in Hp as [i Hi]. apply elem_of_list_lookup in Hp2 as [j Hj].
    assert (i = j) as ->; [|congruence]. apply (NoDup_lookup _ i j (wi_key p.1) N); unfold created_keys; rewrite list_lookup_fmap; [by rewrite Hi|]. rewrite Hj. cbn. congruence.
  - split; [|split].
    + rewrite <- HL, H1. unfold ks. rewrite !app_length, fmap_length. destruct b; [rewrite take_length, fmap_length; lia|cbn; lia].
    + rewrite H6. exists (take m ks). by rewrite take_drop.
    + rewrite H6. pose proof (v_keys w I) as N. destruct HP as [x Hx]. rewrite Hx in N. apply NoDup_app in N as (N & _ & _). rewrite <- (take_drop m ks) in N. by apply NoDup_app in N as (_ & _ & N).
Qed.

(** If the server never gets a message whose Write failed, then every item is sent
    once. *)
Inductive clean_sends (w0 : tw) : list Z -> tw -> Prop :=
| cs_nil : clean_sends w0 [] w0
| cs_snoc l w e w' ret : clean_sends w0 l w -> tw_enabled w e -> e <> ESend OutSent -> tw_step w e = TNext w' ret -> clean_sends w0 (l ++ newly_sent w e w') w'.

Definition clean_inv (l : list Z) (w : tw) : Prop :=
  exists popped, created_keys (w_created w) = popped ++ (wi_key <$> w_queue w) /\
    l = popped ++ (if popping (w_pos w) then take 1 (wi_key <$> w_queue w) else []).

Lemma clean_step l w e w' ret : winv w -> clean_inv l w -> e <> ESend OutSent -> tw_step w e = TNext w' ret -> clean_inv (l ++ newly_sent w e w') w'.
Proof.
  intros I (popped & H1 & ->) Hn E. destruct (step_effect w e w' ret E) as (F & N1 & N2).
  assert (NS : w_wire w' = w_wire w -> newly_sent w e w' = []).
  { intros Hw. unfold newly_sent. rewrite Hw, drop_all. by destruct e. }
  destruct F as [Q C W WL P|it s req o He Q C Hp W P A|it s Hp Q C W P|it cols Q C W P|Q C W P0 P].
  - assert (newly_sent w e w' = []) as -> by (unfold newly_sent; destruct e; done). exists popped. destruct P as [_ P]. by rewrite Q, C, P, app_nil_r.
  - pose proof (v_pos w I) as V. rewrite Hp in V |- *. cbn [pos_inv popping] in V |- *. destruct V as (V & _). destruct (w_queue w) as [|it' q] eqn:Eq; [done|]. cbn [head] in V. injection V as ->.
    exists popped. rewrite Q, C. split; [done|]. rewrite app_nil_r, He. unfold newly_sent. rewrite W. subst e. destruct o; cbn [delivered write_ok] in *; [|..|done].
    + rewrite P. by rewrite drop_app.
    + destruct P as [_ P]. rewrite P. by rewrite drop_all.
  - rewrite NS, app_nil_r by done. pose proof (v_pos w I) as V. rewrite Hp in V |- *. cbn [pos_inv popping] in V |- *. destruct V as (V & _).
    destruct (w_queue w) as [|it' q] eqn:Eq; [done|]. cbn [head tail] in *. injection V as ->. exists (popped ++ [wi_key it]). rewrite Q, C, P, app_nil_r. split; [rewrite H1, <- app_assoc; done|done].
  - rewrite NS, app_nil_r by done. destruct P as [_ P]. exists popped. rewrite Q, C, P. split; [unfold created_keys in *; rewrite !fmap_app, H1, <- app_assoc; done|].
    destruct (popping (w_pos w)) eqn:HP; [|done]. pose proof (v_pos w I) as V. destruct (w_pos w); try done. cbn [pos_inv] in V. destruct V as [V _]. by destruct (w_queue w).
  - assert (newly_sent w e w' = []) as -> by (unfold newly_sent; rewrite W, drop_nil; by destruct e). exists popped. by rewrite Q, C, P, P0, app_nil_r.
Qed.

Theorem C74_exactly_once o sigs ep l w : validate_options o = Ok -> clean_sends (tw_new o sigs ep) l w ->
  l `prefix_of` created_keys (w_created w) /\ NoDup l /\ (length (w_created w) <= length l + length (w_queue w))%nat.
Proof.
  intros Ho H. assert (winv w /\ clean_inv l w) as [I (popped & H1 & ->)].
  { induction H as [|l w e w' ret H IH He Hn E].
    - split; [apply (tw_reach_inv o sigs ep); [done|constructor]|]. by exists [].
    - destruct IH as [I J]. split; [|by eapply clean_step]. pose proof (tw_step_inv w e I He) as K. by rewrite E in K. }
  assert (HP : popped ++ (if popping (w_pos w) then take 1 (wi_key <$> w_queue w) else []) `prefix_of` created_keys (w_created w)).
  { rewrite H1. apply prefix_app. destruct (popping _); [exists (drop 1 (wi_key <$> w_queue w)); by rewrite take_drop|apply prefix_nil]. }
  split; [done|]. split.
  - pose proof (v_keys w I) as N. destruct HP as [x Hx]. rewrite Hx in N. by apply NoDup_app in N as (N & _ & _).
  - assert (HL : length (created_keys (w_created w)) = length (w_created w)) by apply fmap_length. rewrite <- HL, H1, !app_length, fmap_length. lia.
Qed.

(** ** Runs *)

Fixpoint script_sent (w : tw) (es : list sev) : list Z :=
  match es with
  | [] => []
  | s :: es => match tw_step w (sev_event s) with TNext w' _ => newly_sent w (sev_event s) w' ++ script_sent w' es | _ => [] end
  end.
Lemma script_sends w0 l w es w' : sends w0 l w -> tw_script w es = Some w' -> sends w0 (l ++ script_sent w es) w'.
Proof.
  revert l w. induction es as [|s es IH]; intros l w H; cbn [tw_script script_sent]; [intros [= <-]; by rewrite app_nil_r|]. destruct (tw_enabled_b w s) eqn:Hb; [|done].
  destruct (tw_step w (sev_event s)) as [| |w1 ret] eqn:E; try done. intros H2. rewrite app_assoc. apply IH; [|done]. eapply se_snoc; [exact H|by apply tw_enabled_sound|exact E].
Qed.
Definition not_sent_b (s : sev) : bool := match s with SEv (ESend OutSent) => false | _ => true end.
Lemma script_clean w0 l w es w' : clean_sends w0 l w -> forallb not_sent_b es = true -> tw_script w es = Some w' -> clean_sends w0 (l ++ script_sent w es) w'.
Proof.
  revert l w. induction es as [|s es IH]; intros l w H; cbn [tw_script script_sent forallb]; [intros _ [= <-]; by rewrite app_nil_r|]. intros [Hs Hes]%andb_true_iff. destruct (tw_enabled_b w s) eqn:Hb; [|done].
  destruct (tw_step w (sev_event s)) as [| |w1 ret] eqn:E; try done. intros H2. rewrite app_assoc. apply IH; [|done|done]. eapply cs_snoc; [exact H|by apply tw_enabled_sound| |exact E].
  intros Hc. destruct s as [e| | | |]; cbn in Hc; try done. by subst e.
Qed.

(** Three items; the first Write of the second fails, with outcome [o], and so does
    the stream.  The third is created meanwhile. *)
Definition order_opts : copts := Constant 1 4 false.
Definition one_item (o : wout) : list sev := [SEv ENext; SEv (EChunk false OutOk); SEv (EChunk false OutOk); SEv ECheck; SEv (ESend o)].
Definition order_run (o : wout) : list sev :=
  append1 1 100 ++ append1 2 110 ++ append1 3 120 ++
  [SEv (ECreate 6 (Fin 1) [([(0, 0)]%nat, true)] 41); SEv (ECreate 6 (Fin 1) [([(0, 1)]%nat, true)] 42); SEv EStart] ++ one_item OutOk ++ [SEv EPop] ++ one_item o ++
  [SEv (EFinish Unavailable); SEv (ECreate 6 (Fin 1) [([(0, 2)]%nat, true)] 43); SEv EStart] ++ one_item OutOk ++ [SEv EPop] ++ one_item OutOk.

Example C74_example : exists l w, sends (tw_new order_opts ex_sigs 7) l w /\ l = [41; 42; 42; 43] /\ wire_keys (w_wire w) = [42; 43] /\ created_keys (w_created w) = [41; 42; 43].
Proof.
  destruct (tw_script (tw_new order_opts ex_sigs 7) (order_run OutSent)) as [w|] eqn:E; [|vm_compute in E; done].
  exists ([] ++ script_sent (tw_new order_opts ex_sigs 7) (order_run OutSent)), w. split; [eapply script_sends; [constructor|exact E]|]. split; [vm_compute; reflexivity|].
  vm_compute in E. injection E as <-. split; vm_compute; reflexivity.
Qed.
Example C74_exactly_once_example : exists l w, clean_sends (tw_new order_opts ex_sigs 7) l w /\ l = [41; 42; 43] /\ wire_keys (w_wire w) = [42; 43] /\ length (w_queue w) = 1%nat.
Proof.
  destruct (tw_script (tw_new order_opts ex_sigs 7) (order_run OutLost)) as [w|] eqn:E; [|vm_compute in E; done].
  exists ([] ++ script_sent (tw_new order_opts ex_sigs 7) (order_run OutLost)), w. split; [eapply script_clean; [constructor|vm_compute; reflexivity|exact E]|]. split; [vm_compute; reflexivity|].
  vm_compute in E. injection E as <-. split; vm_compute; reflexivity.
Qed.

Print Assumptions C74_order.
Print Assumptions C74_exactly_once.
