(** C73 for systems with both kinds of writers, several clients, and tables with a
    worker thread. *)
From Verif Require Import Base RateLimiter Selector Trajectory Table EventLog TableProofs TableLog SelSpec PropSelectors TableSpec LogFacts PropTable.
From Verif Require Import Tensor TrajUtil ChunkerOptions Sample Stream Reactor PropTraj PropSample PropStream PropInsertStream
  Chunker PropChunker TrajWriter TrajWriterProofs PropTrajWriter PropChunkKeys PropOrder PropSystem.
From Verif Require Import Writer WriterProofs WriterConf WriterData WriterPlace WriterOwn WriterTrace PropWriter.
From Verif Require Import TableWorker TableWorkerProofs TableWorkerSerial PropTableWorker.
Local Open Scope Z_scope.

(** ** Items of a Writer and the calls that created them *)

Lemma step_made p w e w' ret : pinv p w -> lw_enabled w e -> lw_step p w e = LNext w' ret ->
  l_made w' = l_made w \/
  exists t n pr key trj, e = LCreate t n pr key /\ (ret = None \/ ret = Some Ok) /\
    l_made w' = l_made w ++ [mkLmade (mkLitem key t pr trj) n (l_hist w) (steps_held w)].
Proof.
  intros I He E. pose proof (lw_step_eff p w e w' ret I He E) as S. destruct S as [Hc B|c ph Hc Hp C|Hc _ _ _ _ _ S5 _ _ _]; [|left; apply (f_made _ _ _ _ C)|by left].
  destruct e as [data|table m prio key| |r|big o nk|st nk|m|]; try done; cbn [lw_step] in E; unfold idle in E; rewrite (g_idle _ _ _ _ B) in E.
  - left. unfold append in E. destruct (l_closed w); [by injection E as <- <-|]. destruct (match l_buffer w with [] => _ | _ => _ end); [by injection E as <- <-|].
    destruct (l_ring w !! l_loc w) as [old|]; [|done]. cbn zeta in E. destruct (_ <? _)%nat; [by injection E as <- <-|]. by rewrite (f_made _ _ _ _ (finish_begin_eff _ _ _ _ _ E)).
  - pose proof (g_create _ _ _ _ B table m prio key eq_refl) as G. destruct ret as [st|].
    + destruct (decide (st = Ok)) as [->|Hst].
      * destruct (G eq_refl) as (_ & trj & Em). right. exists table, m, prio, key, trj. split; [done|]. split; [by right|done].
      * left. clear B G. unfold lw_create in E.
        destruct (l_closed w); [by injection E as <- <-|]. destruct (_ || _); [by injection E as <- <-|]. destruct (_ <? _); [by injection E as <- <-|].
        destruct (check_signature _ _ _ _) as [st'|]; [|done]. destruct (negb _); [by injection E as <- <-|].
        match type of E with context [match ?x with Some tr => _ | None => LCrash end] => destruct x as [tr|] end; [|done]. cbn zeta in E.
        destruct (l_buffer _); [by apply write_begin_eff in E as [_ ?]|]. injection E as _ <-. done.
    + destruct G as (_ & _ & trj & Em). right. exists table, m, prio, key, trj. split; [done|]. split; [by left|done].
  - left. unfold lw_flush in E. destruct (l_closed w); [by injection E as <- <-|]. destruct (l_pending w); [by injection E as <- <-|]. by rewrite (f_made _ _ _ _ (finish_begin_eff _ _ _ _ _ E)).
  - left. unfold lw_close in E. destruct (l_closed w); [by injection E as <- <-|]. destruct (l_pending w); [apply (f_made _ _ _ _ (close_begin_eff _ _ _ _ E))|apply (f_made _ _ _ _ (finish_begin_eff _ _ _ _ _ E))].
Qed.

(** A call of CreateItem that was not refused (it may still be running). *)
Definition creates (p : lconf) (key : Z) (tr : list (lev * option status)) (k : Z) (n : Z) (h : list step) (w1 : lw) : Prop :=
  exists tr1 t pr ret tr2, tr = tr1 ++ (LCreate t n pr k, ret) :: tr2 /\ (ret = None \/ ret = Some Ok) /\
    lw_trace p (lw_new p key) tr1 w1 /\ h = appended (returned tr1).

Lemma made_from p key tr w m : conf_ok p -> lw_trace p (lw_new p key) tr w -> m ∈ l_made w ->
  exists w1, creates p key tr (li_key (lm_item m)) (lm_n m) (lm_hist m) w1 /\ lm_held m = steps_held w1.
Proof.
  intros Hcf. remember (lw_new p key) as w0 eqn:E0. induction 1 as [|tr w e w' ret H IH He E]; intros Hm; [subst; by apply elem_of_nil in Hm|].
  assert (I : pinv p w) by (subst; eapply lw_reach_inv; [done|by eapply trace_reach]).
  assert (Old : m ∈ l_made w -> exists w1, creates p key (tr ++ [(e, ret)]) (li_key (lm_item m)) (lm_n m) (lm_hist m) w1 /\ lm_held m = steps_held w1).
  { intros Ho. destruct (IH Ho) as (w1 & (tr1 & t & pr & r & tr2 & -> & A & B & C) & D). exists w1. split; [|done].
    exists tr1, t, pr, r, (tr2 ++ [(e, ret)]). split; [by rewrite <- app_assoc|done]. }
  destruct (step_made p w e w' ret I He E) as [Em|(t & n & pr & k & trj & -> & Hr & Em)]; rewrite Em in Hm; [by apply Old|].
  apply elem_of_app in Hm as [Hm|Hm]; [by apply Old|]. apply elem_of_list_singleton in Hm as ->. cbn. subst w0.
  exists w. split; [|done]. exists tr, t, pr, ret, []. split; [done|]. split; [done|]. split; [done|].
  destruct (lw_trace_inv _ _ _ _ Hcf H) as [_ T2 _ _ _ _]. destruct (create_accepted _ _ _ _ _ _ _ _ E Hr) as (_ & _ & _ & Hidle). rewrite Hidle in T2. done.
Qed.

(** ** Specification *)

(** What fills a table: a state of a TrajectoryWriter, or the run [tr] of a Writer
    from its construction to the state [w]. *)
Inductive source :=
| STraj (w : tw)
| SOld (p : lconf) (key : Z) (tr : list (lev * option status)) (w : lw).

(** Every run of a TrajectoryWriter.  Of a Writer: runs without Close in which
    every Append and Flush succeeds, with steps of the same types and shapes, and
    items of steps that the writer still holds (as C37; those are all if Flush was not
    called before, see [C73_no_flush]). *)
Definition source_ok (s : source) : Prop :=
  match s with
  | STraj w => writer_state w
  | SOld p key tr w => conf_ok p /\ lw_trace p (lw_new p key) tr w /\ smooth tr /\
      (exists sg, sg <> [] /\ Forall (fun s => step_sig s = sg) (appended (returned tr))) /\
      forall k n h w1, creates p key tr k n h w1 -> 1 <= n <= Z.of_nat (steps_held w1)
  end.

Definition source_wire (s : source) : list ireq := match s with STraj w => w_wire w | SOld _ _ _ w => l_wire w end.
Definition source_chunks (s : source) : list kchunk := concat (ir_chunks <$> source_wire s).
Definition chunks_of (ss : list source) : list kchunk := concat (source_chunks <$> ss).
Definition source_created (s : source) : list (witem * list (list ref * bool)) := match s with STraj w => w_created w | SOld _ _ _ _ => [] end.
Definition created_of (ss : list source) : list (witem * list (list ref * bool)) := concat (source_created <$> ss).
Definition old_key (s : source) (k : Z) : Prop := match s with STraj _ => False | SOld p key tr _ => exists n h w1, creates p key tr k n h w1 end.

(** Random keys do not collide (for one writer this is proved: C73_one_writer,
    [C73_one_old_writer]). *)
Definition distinct_keys (ss : list source) : Prop :=
  (forall a b, a ∈ chunks_of ss -> b ∈ chunks_of ss -> kc_key a = kc_key b -> a = b) /\
  (forall p q, p ∈ created_of ss -> q ∈ created_of ss -> wi_key p.1 = wi_key q.1 -> wi_squeeze p.1 = wi_squeeze q.1) /\
  (forall s p, s ∈ ss -> p ∈ created_of ss -> ~ old_key s (wi_key p.1)).

(** The service hands the item of a message to the table, as in PropSystem.v. *)
Definition comes_from (ss : list source) (it : item) : Prop :=
  exists s pre r suf chunks c ii data, s ∈ ss /\ source_wire s = pre ++ r :: suf /\ async_run (fun _ => true) ∅ pre = Some chunks /\
    async_insert_request (fun _ => true) chunks r = Some (IInsert c ii data) /\
    it_key it = ii_key ii /\ it_traj it = ii_traj ii /\ Trajectory.ck_key <$> it_chunks it = kc_key <$> data.
Definition op_from (ss : list source) (o : op) : Prop :=
  match o with OInsert _ _ it | OInsertWake _ _ it => comes_from ss it | _ => True end.

(** The message for a sample.  The columns of a Writer's items are never squeezed. *)
Definition the_chunk (ss : list source) (key : Z) : kchunk :=
  match list_find (fun kc => kc_key kc = key) (chunks_of ss) with Some (_, kc) => kc | None => mkKchunk key no_chunk end.
Definition the_squeeze (ss : list source) (key : Z) (ncols : nat) : list bool :=
  match list_find (fun p => wi_key p.1 = key) (created_of ss) with Some (_, p) => wi_squeeze p.1 | None => replicate ncols false end.
Definition message_of (ss : list source) (sm : sampled) : sampled_item :=
  Stream.mkSampled (mkSinfo (sample_meta sm) (it_traj (sm_item sm)) (the_squeeze ss (it_key (sm_item sm)) (length (it_traj (sm_item sm)))))
    (the_chunk ss <$> (Trajectory.ck_key <$> it_chunks (sm_item sm))).

(** What the client gets is what some writer put in: the columns that the
    TrajectoryWriter created under this key, or the last [n] steps that had been
    appended to the Writer when CreateItem([n]) returned this key. *)
Definition written_by (s : source) (sm : sampled) (a : assembled) : Prop :=
  match s with
  | STraj w => exists it cols, (it, cols) ∈ w_created w /\ wi_key it = it_key (sm_item sm) /\
      (Forall (fun col => contiguous (w_cols w) col.1) cols ->
       exists x out, a = AOk x /\ as_trajectory x = SROk (sample_meta sm, out) /\ Forall2 (column_value (w_cols w)) cols out)
  | SOld p key tr w => exists n h w1, creates p key tr (it_key (sm_item sm)) n h w1 /\ (Z.to_nat n <= length h)%nat /\
      exists x out, a = AOk x /\ as_trajectory x = SROk (sample_meta sm, out) /\
        (forall row, row ∈ h -> length row = length out) /\
        forall c t, out !! c = Some t -> step_column c (last_steps (Z.to_nat n) h) t
  end.
Definition written (ss : list source) (sm : sampled) (a : assembled) : Prop := exists s, s ∈ ss /\ written_by s sm a.

(** ** Proof *)

Lemma chunk_sent ss s r kc : s ∈ ss -> r ∈ source_wire s -> kc ∈ ir_chunks r -> kc ∈ chunks_of ss.
Proof.
  intros Hs Hr Hk. unfold chunks_of. apply elem_concat. exists (source_chunks s). split; [apply elem_of_list_fmap; by exists s|].
  apply elem_concat. exists (ir_chunks r). split; [|done]. apply elem_of_list_fmap. by exists r.
Qed.
Lemma the_chunk_sent ss kc : distinct_keys ss -> kc ∈ chunks_of ss -> the_chunk ss (kc_key kc) = kc.
Proof.
  intros [U _] H. unfold the_chunk. destruct (list_find _ _) as [[i x]|] eqn:E.
  - apply list_find_Some in E as (E1 & E2 & _). apply U; [by eapply elem_of_list_lookup_2|done|done].
  - apply list_find_None in E. rewrite Forall_forall in E. by destruct (E _ H).
Qed.
Lemma the_squeeze_created ss p n : distinct_keys ss -> p ∈ created_of ss -> the_squeeze ss (wi_key p.1) n = wi_squeeze p.1.
Proof.
  intros (_ & U & _) H. unfold the_squeeze. destruct (list_find _ _) as [[i x]|] eqn:E.
  - apply list_find_Some in E as (E1 & E2 & _). apply U; [by eapply elem_of_list_lookup_2|done|done].
  - apply list_find_None in E. rewrite Forall_forall in E. by destruct (E _ H).
Qed.
Lemma the_squeeze_old ss s k n : distinct_keys ss -> s ∈ ss -> old_key s k -> the_squeeze ss k n = replicate n false.
Proof.
  intros (_ & _ & U) Hs Hk. unfold the_squeeze. destruct (list_find _ _) as [[i x]|] eqn:E; [|done].
  apply list_find_Some in E as (E1 & E2 & _). destruct (U s x Hs); [by eapply elem_of_list_lookup_2|by rewrite E2].
Qed.

(** What arrives with an item are chunks that were sent. *)
Lemma data_sent ss s pre r suf chunks c ii data : s ∈ ss -> source_wire s = pre ++ r :: suf ->
  async_run (fun _ => true) ∅ pre = Some chunks -> async_insert_request (fun _ => true) chunks r = Some (IInsert c ii data) ->
  ir_item r = Some ii /\ kc_key <$> data = get_chunk_keys (ii_traj ii) /\ Forall (fun kc => kc ∈ chunks_of ss) data.
Proof.
  intros Hs Hw Hrun Hreq.
  assert (S : forall x, x ∈ source_wire s -> Forall (fun kc => kc ∈ chunks_of ss) (ir_chunks x)).
  { intros x Hx. apply Forall_forall. intros kc Hk. by eapply chunk_sent. }
  assert (HC : forall key d, chunks !! key = Some d -> mkKchunk key d ∈ chunks_of ss).
  { eapply (async_from (fun kc => kc ∈ chunks_of ss) (fun _ => true) pre); [| |exact Hrun].
    - apply Forall_forall. intros x Hx. apply S. rewrite Hw. apply elem_of_app. by left.
    - intros key d. by rewrite lookup_empty. }
  eapply (insert_data (fun kc => kc ∈ chunks_of ss) (fun _ => true) chunks c ii data r); [|exact HC|exact Hreq].
  apply S. rewrite Hw. apply elem_of_app. right. apply elem_of_list_here.
Qed.

Lemma appended_prefix tr1 tr2 : appended (returned tr1) `prefix_of` appended (returned (tr1 ++ tr2)).
Proof.
  induction tr2 as [|x tr2 IH] using rev_ind; [by rewrite app_nil_r|]. etrans; [exact IH|]. rewrite app_assoc.
  destruct (returned_snoc (tr1 ++ tr2) x) as [l ->]. rewrite appended_app. by eexists.
Qed.

Definition came_from (ss : list source) (key : Z) (cs : list Trajectory.chunk) (traj : list (list slice)) : Prop :=
  exists s pre r suf chunks c ii data, s ∈ ss /\ source_wire s = pre ++ r :: suf /\ async_run (fun _ => true) ∅ pre = Some chunks /\
    async_insert_request (fun _ => true) chunks r = Some (IInsert c ii data) /\
    key = ii_key ii /\ traj = ii_traj ii /\ Trajectory.ck_key <$> cs = kc_key <$> data.

Lemma came_sample ss sm : Forall source_ok ss -> distinct_keys ss -> holds (came_from ss) (sm_item sm) ->
  item_ok (message_of ss sm) /\ written ss sm (as_sample_local (message_of ss sm)).
Proof.
  intros Hss U (s & pre & r & suf & chunks & c & ii & data & Hs & Ew & Hrun & Hreq & Hkey & Htr & Hck).
  pose proof (proj1 (Forall_forall _ _) Hss s Hs) as Hst.
  destruct (data_sent ss s pre r suf chunks c ii data Hs Ew Hrun Hreq) as (Hii & K3 & K5).
  assert (Hdata : the_chunk ss <$> (Trajectory.ck_key <$> it_chunks (sm_item sm)) = data).
  { rewrite Hck. clear - U K5. induction K5 as [|kc data H _ IH]; [done|]. rewrite !fmap_cons, IH. f_equal. by apply the_chunk_sent. }
  unfold message_of. rewrite Hdata, Htr.
  destruct s as [w|p key tr w]; cbn [source_ok source_wire] in *.
  - destruct (arrived_item [w] w pre r suf chunks c ii data Hst (elem_of_list_here _ _) Ew Hrun Hreq) as (it & cols & Hit & K1 & K2 & _ & K4 & _).
    assert (Hsq : the_squeeze ss (it_key (sm_item sm)) (length (ii_traj ii)) = snd <$> cols).
    { rewrite Hkey, K1, <- K2. apply (the_squeeze_created ss (it, cols) _ U). unfold created_of. apply elem_concat. exists (w_created w).
      split; [|done]. apply elem_of_list_fmap. by exists (STraj w). }
    rewrite Hsq. split; [by split|]. exists (STraj w). split; [done|]. exists it, cols. split; [done|]. split; [congruence|]. intros Hct.
    destruct Hst as (o & sigs & ep & Ho & Hr).
    destruct (C39_trajectory_partial o sigs ep Ho w pre r suf chunks c ii data it cols (sample_meta sm) Hr Ew Hrun Hreq Hit K1 Hct) as [_ H]. exact H.
  - destruct Hst as (Hcf & Ht & Hsm & (sg & Hsg & Hkind) & Hheld). pose proof (trace_reach _ _ _ _ Ht) as R. pose proof (lw_reach_own _ _ _ R) as O.
    destruct (o_wire w O r) as [_ OI]; [rewrite Ew; apply elem_of_app; right; apply elem_of_list_here|].
    destruct (OI ii Hii) as (m & M1 & M2 & M3 & M4). destruct (made_from p key tr w m Hcf Ht M1) as (w1 & Hcr & Hh).
    pose proof (Hheld _ _ _ _ Hcr) as Hn. rewrite <- Hh in Hn.
    assert (Hpre : lm_hist m `prefix_of` appended (returned tr)).
    { destruct Hcr as (tr1 & t & pr & ret & tr2 & -> & _ & _ & ->). apply appended_prefix. }
    assert (Hk1 : Forall (fun x => step_sig x = sg) (lm_hist m)) by (destruct Hpre as [l E]; rewrite E in Hkind; by apply Forall_app in Hkind as [? _]).
    destruct (item_sampled p key w pre r suf chunks c ii data m (sample_meta sm) sg Hcf R (smooth_ok _ _ _ _ Hcf Ht Hsm) Ew Hrun Hreq M1 M2 Hn Hk1 Hsg)
      as (R1 & R2 & x & out & E1 & E2 & E3 & E4).
    assert (Hold : old_key (SOld p key tr w) (it_key (sm_item sm))) by (exists (lm_n m), (lm_hist m), w1; by rewrite Hkey, M2).
    rewrite (the_squeeze_old ss _ _ _ U Hs Hold).
    assert (Hcols : length (ii_traj ii) = length sg).
    { pose proof (lw_reach_place _ _ _ Hcf R (smooth_ok _ _ _ _ Hcf Ht Hsm)) as K. destruct (k_made p w K m M1 Hn) as (_ & (s0 & P2 & P3) & _). rewrite M4, P3.
      rewrite Forall_forall in Hk1. rewrite <- (Hk1 s0 P2). unfold step_sig. by rewrite fmap_length. }
    rewrite Hcols. split; [exact R1|]. exists (SOld p key tr w). split; [done|]. exists (lm_n m), (lm_hist m), w1.
    split; [by rewrite Hkey, M2|]. split; [done|]. exists x, out. split; [exact E1|]. split; [done|]. split; [|done].
    intros row Hrow. rewrite Forall_forall in Hk1. specialize (Hk1 _ Hrow). rewrite E3, <- Hk1. unfold step_sig. by rewrite fmap_length.
Qed.

Lemma came_samples ss sms : Forall source_ok ss -> distinct_keys ss -> Forall (fun sm => holds (came_from ss) (sm_item sm)) sms ->
  Forall item_ok (message_of ss <$> sms) /\ Forall2 (written ss) sms (as_sample_local <$> (message_of ss <$> sms)).
Proof.
  intros Hss U H. split.
  - apply Forall_fmap. eapply Forall_impl; [exact H|]. intros sm Hsm. by apply came_sample.
  - rewrite <- list_fmap_compose. induction H as [|sm sms Hsm H IH]; [constructor|]. constructor; [by apply came_sample|done].
Qed.

(** ** C73 *)

Section WithFP.
Context {fp : FP} {laws : FPLaws fp}.

(** Any history of a table whose items come from writers of either kind; [sms] are
    samples that were taken from it, for example those of one of several clients.  In
    whatever way they are cut into messages, the client gets one sample for each, in
    this order, with the data that a writer put in under its key. *)
Theorem C73_all_partial ss c os rs t sms gs msgs : Forall source_ok ss -> distinct_keys ss -> reached c os rs t -> Forall (op_from ss) os ->
  Forall (fun sm => sm ∈ all_samples rs) sms ->
  Forall2 carries gs (message_of ss <$> sms) -> concat msgs = concat gs -> Forall (fun r : response => r <> []) msgs ->
  exists got, fetch_request (length sms) [] [] msgs = FDone got [] /\ Forall2 (written ss) sms got.
Proof.
  intros Hss U Hr Ho Hin Hc He Hm. pose proof (samples_hold (came_from ss) c os rs t Hr Ho) as H.
  assert (H' : Forall (fun sm => holds (came_from ss) (sm_item sm)) sms).
  { eapply Forall_impl; [exact Hin|]. intros sm Hsm. rewrite Forall_forall in H. by apply H. }
  destruct (came_samples ss sms Hss U H') as [H1 H2]. exists (as_sample_local <$> (message_of ss <$> sms)). split; [|done].
  rewrite <- (fmap_length (message_of ss) sms). by eapply C42_client.
Qed.

(** *** The table with its worker *)

Lemma all_samples_app a b : all_samples (a ++ b) = all_samples a ++ all_samples b.
Proof. unfold all_samples. by rewrite fmap_app, concat_app. Qed.
Lemma taken_effects A c w0 tr w : wk_trace A c w0 tr w -> forall i sm, sm ∈ taken_for i tr -> sm ∈ all_samples (snd <$> effects tr).
Proof.
  induction 1 as [|tr w e w' outs H IH Hcan HA E]; intros i sm Hsm; [by apply elem_of_nil in Hsm|]. rewrite taken_for_snoc in Hsm. rewrite effects_app, fmap_app, all_samples_app.
  apply elem_of_app. apply elem_of_app in Hsm as [Hsm|Hsm]; [left; by eapply IH|right].
  assert (G : forall l, sm ∈ omap (fun o => match o with OTaken j _ sm => if bool_decide (i = j) then Some sm else None | _ => None end) l ->
    sm ∈ all_samples (snd <$> omap (fun o => match o with OApplied _ it at_ d => Some (OInsert at_ d it, RStatus Ok) | OTaken _ d sm => Some (OSample 1 (fun _ => d), RSamples Ok [sm]) | _ => None end) l)).
  { induction l as [|o l IHl]; [by intros ?%elem_of_nil|]. intros (o' & Ho & Hs)%elem_of_list_omap.
    apply elem_of_cons in Ho as [->|Ho].
    - destruct o; try done. case_bool_decide; [|done]. injection Hs as ->. cbn [omap list_omap]. rewrite fmap_cons. unfold all_samples. cbn. left.
    - assert (Hl : sm ∈ omap (fun o => match o with OTaken j _ sm => if bool_decide (i = j) then Some sm else None | _ => None end) l) by (apply elem_of_list_omap; by exists o').
      specialize (IHl Hl). destruct o; cbn [omap list_omap]; try exact IHl; rewrite fmap_cons; unfold all_samples in *; cbn; first [exact IHl|right; exact IHl]. }
  unfold effects. cbn [mbind list_bind fst snd]. rewrite app_nil_r. destruct e; try (by apply G).
  - cbn [wk_step] in E. destruct (mutate_items _ _ _) as [[[st| |] t]|]; try done. injection E as <- <-. by apply elem_of_nil in Hsm.
  - cbn [wk_step] in E. injection E as <- <-. by apply elem_of_nil in Hsm.
Qed.

Lemma effects_from (P : item -> Prop) tr : (forall i it, (i, it) ∈ applied tr -> P it) ->
  Forall (fun o => match o with OInsert _ _ it | OInsertWake _ _ it => P it | _ => True end) (fst <$> effects tr).
Proof.
  induction tr as [|[e outs] tr IH] using rev_ind; intros H; [constructor|]. rewrite effects_app, fmap_app. apply Forall_app. split.
  { apply IH. intros i it Hi. apply (H i). rewrite applied_snoc. apply elem_of_app. by left. }
  assert (G : Forall (fun o => match o with OInsert _ _ it | OInsertWake _ _ it => P it | _ => True end)
    (fst <$> omap (fun o => match o with OApplied _ it at_ d => Some (OInsert at_ d it, RStatus Ok) | OTaken _ d sm => Some (OSample 1 (fun _ => d), RSamples Ok [sm]) | _ => None end) outs)).
  { apply Forall_fmap, Forall_forall. intros [o r] (x & Hx & E)%elem_of_list_omap. destruct x; try done; injection E as <- <-; [|done]. cbn.
    apply (H i). rewrite applied_snoc. apply elem_of_app. right. apply elem_of_list_omap. by exists (OApplied i it at_ d). }
  unfold effects. cbn [mbind list_bind fst snd]. rewrite app_nil_r. destruct e; try exact G; [|by repeat constructor].
  destruct outs as [|[] [|]]; try exact G. by repeat constructor.
Qed.

Lemma same_samples rs rs' : Forall2 same_result rs rs' -> Forall2 same_sample (all_samples rs) (all_samples rs').
Proof.
  induction 1 as [|a b rs rs' Hab _ IH]; [constructor|]. unfold all_samples in *. cbn [mbind list_bind concat fmap list_fmap]. 
  destruct a, b; try done; cbn in *. apply Forall2_app; [by destruct Hab|done].
Qed.

(** The service with the reactor: the table has a worker, the items are inserted and
    the samples are asked for asynchronously.  The client of request [i] gets the data
    that writers put in; how the request was answered is C28's. *)
Theorem C73_worker_partial ss c cf now0 tr w i st sms gs msgs : Forall source_ok ss -> distinct_keys ss ->
  cfg_ok cf -> wk_trace (accepted cf) c (wk_new (new_table cf) now0) tr w -> Forall (comes_from ss) (arrivals tr) ->
  (i, st, sms) ∈ answers tr ->
  Forall2 carries gs (message_of ss <$> sms) -> concat msgs = concat gs -> Forall (fun r : response => r <> []) msgs ->
  exists got, fetch_request (length sms) [] [] msgs = FDone got [] /\ Forall2 (written ss) sms got.
Proof.
  intros Hss U Hcf Htr Harr Hans Hc He Hm. destruct (C61_serial_partial c cf now0 tr w Hcf Htr) as (rs & Hr & Hsame).
  destruct (C28_answer _ _ _ _ _ _ _ _ _ Htr Hans) as (_ & _ & _ & Hl & _).
  assert (Ho : Forall (op_from ss) (fst <$> effects tr)).
  { apply (effects_from (comes_from ss)). intros j it Hj. rewrite Forall_forall in Harr. apply Harr.
    pose proof (C29_order _ _ _ _ _ _ Htr) as S. pose proof (elem_of_submseteq _ _ _ Hj (sublist_submseteq _ _ S)) as Hx.
    apply elem_of_lookup_imap in Hx as (k & y & [= -> ->] & Hy). by eapply elem_of_list_lookup_2. }
  pose proof (samples_hold (came_from ss) cf _ rs (wk_t w) Hr Ho) as H.
  assert (H' : Forall (fun sm => holds (came_from ss) (sm_item sm)) sms).
  { apply Forall_forall. intros sm Hsm. rewrite Hl in Hsm. apply (taken_effects _ _ _ _ _ Htr) in Hsm. apply same_samples in Hsame.
    apply elem_of_list_lookup in Hsm as [k Hk]. destruct (Forall2_lookup_l _ _ _ _ _ Hsame Hk) as (sm' & Hk' & E & _). rewrite E. rewrite Forall_forall in H. apply H. by eapply elem_of_list_lookup_2. }
  destruct (came_samples ss sms Hss U H') as [H1 H2]. exists (as_sample_local <$> (message_of ss <$> sms)). split; [|done].
  rewrite <- (fmap_length (message_of ss) sms). by eapply C42_client.
Qed.
End WithFP.

(** ** The assumptions for one Writer *)

Definition sent_grows (w w' : lw) : Prop := forall x, x ∈ l_sent w -> x ∈ l_sent w'.
Lemma sg_trans w w1 w2 : sent_grows w w1 -> sent_grows w1 w2 -> sent_grows w w2.
Proof. intros H1 H2 x Hx. by apply H2, H1. Qed.
Ltac same_sent := intros ? ?; assumption.
Lemma write_begin_sent p w c w' ret : write_begin p w c = LNext w' ret -> sent_grows w w'.
Proof. unfold write_begin. destruct (l_stream w); [intros [= <- <-]; same_sent|]. destruct (p_flight p); [destruct (_ || _); [done|]|]; intros [= <- <-]; same_sent. Qed.
Lemma close_begin_sent w r w' ret : close_begin w r = LNext w' ret -> sent_grows w w'.
Proof. unfold close_begin. destruct (l_stream w); [destruct (l_half w); [done|]|]; intros [= <- <-]; same_sent. Qed.
Lemma call_failed_sent p w c st w' ret : call_failed p w c st = LNext w' ret -> sent_grows w w'.
Proof.
  unfold call_failed. destruct c as [|key| |]; [intros [= <- <-]; same_sent..|]. destruct (_ || _); [intros [= <- <-]; same_sent|]. by apply close_begin_sent.
Qed.
Lemma write_end_sent p w c st nk w' ret : write_end p w c st nk = LNext w' ret -> sent_grows w w'.
Proof.
  unfold write_end. destruct c as [old|key| |r].
  2: { case_bool_decide; [intros [= <- <-]; same_sent|by apply call_failed_sent]. }
  all: case_bool_decide; [|intros G%call_failed_sent; intros x Hx; by apply G].
  1-2: intros [= <- <-]; same_sent. intros G%close_begin_sent. intros x Hx. by apply G.
Qed.
Lemma finish_begin_sent p w c w' ret : finish_begin p w c = LNext w' ret -> sent_grows w w'.
Proof.
  unfold finish_begin. destruct (build_chunk _ _) as [[d|]|]; [|by apply call_failed_sent|done]. intros H%write_begin_sent x Hx. by apply H.
Qed.
Lemma lsend_sent w m o : sent_grows w (lsend w m o).
Proof. unfold lsend. destruct (delivered o); [|same_sent]. intros x Hx. cbn. apply elem_of_app. by left. Qed.

Lemma lw_step_sent p w e w' ret : lw_step p w e = LNext w' ret -> sent_grows w w'.
Proof.
  destruct e as [data|table m prio key| |r|big o nk|st nk|m|]; cbn [lw_step]; unfold idle.
  - destruct (l_pos w) eqn:E; [|done]. unfold append. destruct (l_closed w) eqn:Hc; [intros [= <- <-]; same_sent|].
    destruct (match l_buffer w with [] => _ | _ => _ end); [intros [= <- <-]; same_sent|]. destruct (l_ring w !! l_loc w) as [old|]; [|done]. cbn zeta.
    destruct (_ <? _)%nat; [intros [= <- <-]; same_sent|]. intros H%finish_begin_sent x Hx. by apply H.
  - destruct (l_pos w) eqn:E; [|done]. unfold lw_create. destruct (l_closed w) eqn:Hc; [intros [= <- <-]; same_sent|]. destruct (_ || _); [intros [= <- <-]; same_sent|]. destruct (_ <? _); [intros [= <- <-]; same_sent|].
    destruct (check_signature _ _ _ _) as [st|]; [|done]. destruct (negb _); [intros [= <- <-]; same_sent|].
    match goal with |- context [match ?x with Some tr => _ | None => LCrash end] => destruct x as [tr|] end; [|done]. cbn zeta.
    set (w1 := ls_create w _ _). destruct (l_buffer w1); [|intros [= <- <-]; same_sent]. intros H%write_begin_sent x Hx. by apply H.
  - destruct (l_pos w) eqn:E; [|done]. unfold lw_flush. destruct (l_closed w) eqn:Hc; [intros [= <- <-]; same_sent|]. destruct (l_pending w) eqn:Ep; [intros [= <- <-]; same_sent|by apply finish_begin_sent].
  - destruct (l_pos w) eqn:E; [|done]. unfold lw_close. destruct (l_closed w) eqn:Hc; [intros [= <- <-]; same_sent|]. destruct (l_pending w) eqn:Ep; [by apply close_begin_sent|by apply finish_begin_sent].
  - destruct (l_pos w) as [|c ph] eqn:E; [done|].
    destruct ph as [rest req keep|req keep|req keep| | | | | | |]; cbn [call_step].
    + destruct rest as [|ch rest]; [intros [= <- <-]; same_sent|]. unfold chunk_scan. destruct (_ && _); [|intros [= <- <-]; same_sent].
      destruct big; [|intros [= <- <-]; same_sent]. destruct (l_half w); [done|]. set (m := mkIreq _ None).
      destruct (write_ok o); intros [= <- <-] x Hx; by apply (lsend_sent w m o).
    + destruct (l_pending w) as [|it rest] eqn:Ep; [by apply write_end_sent|].
      destruct (p_flight p); [destruct (confirm_items w _) as [[]|]|]; intros [= <- <-]; same_sent.
    + unfold item_write. destruct (l_pending w) as [|it rest] eqn:Ep; [done|]. destruct (l_half w) eqn:Hh; [done|]. set (m := litem_message p it req keep).
      destruct (write_ok o); intros [= <- <-] x Hx; by apply (lsend_sent w m o).
    + destruct (l_half w); [done|]. intros [= <- <-]. same_sent.
    + destruct (stop_worker p w) as [st w1] eqn:Es. apply stop_worker_fields in Es as (b & f & ->). case_bool_decide; [intros [= <- <-]; same_sent|].
      intros G%write_end_sent x Hx. by apply G.
    + done.
    + destruct (confirm_items w 0); [|done]. intros [= <- <-]; same_sent.
    + destruct (confirm_items w 0); [|done]. intros [= <- <-]; same_sent.
    + destruct (stop_worker p w) as [st w1] eqn:Es. apply stop_worker_fields in Es as (b & f & ->). intros [= <- <-]; same_sent.
    + done.
  - unfold stream_finish. destruct (l_pos w) as [|c ph] eqn:E; [done|]. destruct ph; try done; [|intros [= <- <-]; same_sent].
    destruct (_ && _); [intros H%write_begin_sent|intros H%write_end_sent]; intros x Hx; by apply H.
  - destruct (_ && _); [|done]. intros [= <- <-]; same_sent.
  - destruct (_ && _); [|done]. intros [= <- <-]; same_sent.
Qed.

Lemma trace_split p w0 tr2 : forall tr1 w, lw_trace p w0 (tr1 ++ tr2) w -> exists w1, lw_trace p w0 tr1 w1 /\ sent_grows w1 w.
Proof.
  induction tr2 as [|x tr2 IH] using rev_ind; intros tr1 w H; [rewrite app_nil_r in H; exists w; split; [done|same_sent]|].
  rewrite app_assoc in H. inversion H as [E|tr w1 e w' ret H1 He E X]; [by destruct (tr1 ++ tr2)|]. apply app_inj_tail in X as [-> <-].
  destruct (IH _ _ H1) as (w2 & G2 & G3). exists w2. split; [exact G2|]. eapply sg_trans; [exact G3|by eapply lw_step_sent].
Qed.

(** One Writer: what the server gets over its streams, at any points of its run. *)
Definition points_of (p : lconf) (key : Z) (tr : list (lev * option status)) (ss : list source) : Prop :=
  Forall (fun s => exists tr1 tr2 w1, s = SOld p key tr1 w1 /\ tr = tr1 ++ tr2 /\ lw_trace p (lw_new p key) tr1 w1) ss.

Theorem C73_one_old_writer p key tr w ss : source_ok (SOld p key tr w) -> points_of p key tr ss -> Forall source_ok ss /\ distinct_keys ss.
Proof.
  intros (Hcf & Ht & Hsm & (sg & Hsg & Hkind) & Hheld) Hp. unfold points_of in Hp. rewrite Forall_forall in Hp.
  assert (Hcr : forall p0, p0 ∉ created_of ss).
  { intros p0 (l & (s & -> & Hs)%elem_of_list_fmap & H)%elem_concat. destruct (Hp s Hs) as (tr1 & tr2 & w1 & -> & _). by apply elem_of_nil in H. }
  assert (HS : forall s x, s ∈ ss -> x ∈ source_chunks s -> x ∈ l_sent w).
  { intros s x Hs Hx. destruct (Hp s Hs) as (tr1 & tr2 & w1 & -> & -> & H1). apply elem_concat in Hx as (l & (r & -> & Hr)%elem_of_list_fmap & Hx).
    destruct (trace_split _ _ _ _ _ Ht) as (w1' & H1' & G). rewrite (trace_det _ _ _ _ H1' _ H1) in G. apply G.
    by apply (o_wire _ (lw_reach_own _ _ _ (trace_reach _ _ _ _ H1)) r Hr). }
  split.
  - apply Forall_forall. intros s Hs. destruct (Hp s Hs) as (tr1 & tr2 & w1 & -> & -> & H1). split; [done|]. split; [done|]. split; [by eapply smooth_app|]. split.
    + exists sg. split; [done|]. destruct (appended_prefix tr1 tr2) as [l E]. rewrite E in Hkind. by apply Forall_app in Hkind as [? _].
    + intros k n h w2 (tra & t & pr & ret & trb & -> & A & B & C). apply (Hheld k n h w2). exists tra, t, pr, ret, (trb ++ tr2). split; [by rewrite <- app_assoc|done].
  - split; [|split].
    + intros a b (l & (s & -> & Hs)%elem_of_list_fmap & Ha)%elem_concat (l' & (s' & -> & Hs')%elem_of_list_fmap & Hb)%elem_concat E.
      eapply (C60_writer_partial p key tr w a b Hcf Ht Hsm); [by apply (HS s)|by apply (HS s')|done].
    + intros a b Ha. by destruct (Hcr a).
    + intros s p0 Hs Hin. by destruct (Hcr p0).
Qed.

(** The condition on the number of steps, if Flush is not called before CreateItem. *)
Theorem C73_no_flush p key tr w : conf_ok p -> lw_trace p (lw_new p key) tr w -> smooth tr ->
  (exists sg, sg <> [] /\ Forall (fun s => step_sig s = sg) (appended (returned tr))) ->
  (forall tr1 t n pr k ret tr2, tr = tr1 ++ (LCreate t n pr k, ret) :: tr2 -> ret = None \/ ret = Some Ok -> 1 <= n /\ forall st, (LFlush, st) ∉ tr1) ->
  source_ok (SOld p key tr w).
Proof.
  intros Hcf Ht Hsm Hsg Hfl. split; [done|]. split; [done|]. split; [done|]. split; [done|].
  intros k n h w1 (tr1 & t & pr & ret & tr2 & E & Hret & H1 & _). destruct (Hfl _ _ _ _ _ _ _ E Hret) as [Hn Hno]. split; [done|].
  destruct (trace_prefix _ _ _ _ Ht _ _ _ _ E) as (w1' & w2 & A1 & A2 & A3 & _). rewrite (trace_det _ _ _ _ A1 _ H1) in A3.
  destruct (create_accepted _ _ _ _ _ _ _ _ A3 Hret) as (HN & _ & _ & Hidle).
  assert (Hs1 : smooth tr1) by (rewrite E in Hsm; by eapply smooth_app). pose proof (full_chunks _ _ _ _ Hcf H1 Hs1 Hno) as [F1 F2].
  etrans; [apply HN|]. apply Nat2Z.inj_le. unfold steps_held.
  enough (length (concat (lc_rows <$> l_chunks w1)) = length (l_chunks w1) * p_len p)%nat by lia. clear -F1. induction F1 as [|c cs H _ IH]; [done|]. rewrite fmap_cons. cbn [concat length]. rewrite app_length, H, IH. lia.
Qed.

(** ** Runs *)

Local Existing Instance fp_exact.
Local Existing Instance fp_exact_laws.
Local Existing Instance fp_exact_exact.

Definition arrival (s : source) (j : nat) : option item :=
  r ← source_wire s !! j; chunks ← async_run (fun _ => true) ∅ (take j (source_wire s));
  match async_insert_request (fun _ => true) chunks r with Some (IInsert _ ii data) => Some (PropSystem.item_of ii data) | _ => None end.
Lemma arrival_sound ss s j it : s ∈ ss -> arrival s j = Some it -> comes_from ss it.
Proof.
  intros Hs. unfold arrival. destruct (source_wire s !! j) as [r|] eqn:Er; [|done]. cbn [mbind option_bind]. destruct (async_run _ _ _) as [chunks|] eqn:Ec; [|done]. cbn [mbind option_bind].
  destruct (async_insert_request _ _ _) as [[|c ii data|]|] eqn:E; try done. intros [= <-]. exists s, (take j (source_wire s)), r, (drop (S j) (source_wire s)), chunks, c, ii, data.
  split; [done|]. split; [symmetry; by apply take_drop_middle|]. split; [done|]. split; [done|]. split; [done|]. split; [done|]. cbn [it_chunks PropSystem.item_of]. by rewrite <- list_fmap_compose.
Qed.
Definition the_item (s : source) (j : nat) : item := default (mkItem 0 (Fin 0) 0 (0, 0) [] []) (arrival s j).
Lemma the_item_from ss i s j : ss !! i = Some s -> (if arrival s j then true else false) = true -> comes_from ss (the_item s j).
Proof.
  intros Hi. unfold the_item. destruct (arrival s j) as [it|] eqn:E; [|discriminate 1]. intros _. eapply arrival_sound; [by eapply elem_of_list_lookup_2|exact E].
Qed.

(** A Writer that makes an item of three steps, and a TrajectoryWriter. *)
Definition old_run : lw * list (lev * option status) := lrun (lex_conf (Some 1)) (lex_first ++ [lex_create] ++ lex_rest).
Definition old_source : source := SOld (lex_conf (Some 1)) 100 old_run.2 old_run.1.
Definition all_ss : list source := [STraj sys_other; old_source].

Definition flush_last_b (tr : list (lev * option status)) : bool :=
  forallb (fun i => match tr !! i with
                    | Some (LCreate _ n _ _, _) => (1 <=? n) && forallb (fun x => match x.1 with LFlush => false | _ => true end) (take i tr)
                    | _ => true end) (seq 0 (length tr)).
Lemma flush_last_sound tr : flush_last_b tr = true ->
  forall tr1 t n pr k ret tr2, tr = tr1 ++ (LCreate t n pr k, ret) :: tr2 -> ret = None \/ ret = Some Ok -> 1 <= n /\ forall st, (LFlush, st) ∉ tr1.
Proof.
  intros H tr1 t n pr k ret tr2 E _. unfold flush_last_b in H. rewrite forallb_forall in H. specialize (H (length tr1)).
  assert (L : tr !! length tr1 = Some (LCreate t n pr k, ret)) by (rewrite E; by apply list_lookup_middle). rewrite L in H.
  assert (Hin : In (length tr1) (seq 0 (length tr))) by (apply in_seq; apply lookup_lt_Some in L; lia). apply H in Hin as [H1 H2]%andb_true_iff.
  split; [lia|]. intros st Hst. rewrite E, take_app in H2. rewrite forallb_forall in H2. by specialize (H2 _ (proj1 (elem_of_list_In _ _) Hst)).
Qed.
Lemma old_source_ok : source_ok old_source.
Proof.
  apply C73_no_flush; [by apply lex_conf_ok|apply lrun_trace|apply smooth_sound; vm_compute; reflexivity| |apply flush_last_sound; vm_compute; reflexivity].
  exists (step_sig (lstep 1)). split; [discriminate|].
  assert (appended (returned old_run.2) = [lstep 1; lstep 2; lstep 3]) as -> by (vm_compute; reflexivity). repeat constructor.
Qed.
Lemma all_ok : Forall source_ok all_ss.
Proof.
  apply Forall_cons; split; [|apply Forall_cons; split; [apply old_source_ok|apply Forall_nil_2]].
  exists order_opts, ex_sigs, 7. split; [done|apply after_reach].
Qed.

Definition keys_of (tr : list (lev * option status)) : list Z := omap (fun x => match x.1 with LCreate _ _ _ k => Some k | _ => None end) tr.
Lemma old_keys p key tr w k : old_key (SOld p key tr w) k -> k ∈ keys_of tr.
Proof.
  intros (n & h & w1 & tr1 & t & pr & ret & tr2 & -> & _). apply elem_of_list_omap. eexists. split; [apply elem_of_app; right; apply elem_of_list_here|done].
Qed.
Lemma all_distinct : distinct_keys all_ss.
Proof.
  split; [|split].
  - assert (N : NoDup (kc_key <$> chunks_of all_ss)) by (apply (bool_decide_unpack _); vm_compute; exact I). intros a b Ha Hb E. by eapply NoDup_fmap_eq.
  - assert (N : NoDup ((fun p => wi_key p.1) <$> created_of all_ss)) by (apply (bool_decide_unpack _); vm_compute; exact I).
    intros p q Hp Hq E. f_equal. f_equal. by eapply (NoDup_fmap_eq (fun p => wi_key p.1)).
  - assert (N : Forall (fun k => k ∉ keys_of old_run.2) ((fun p => wi_key p.1) <$> created_of all_ss)) by (apply (bool_decide_unpack _); vm_compute; exact I).
    intros s p Hs Hp Ho. rewrite Forall_forall in N. apply (N (wi_key p.1)); [apply elem_of_list_fmap; by exists p|].
    apply elem_of_cons in Hs as [-> |[-> |Hs]%elem_of_cons]; [done|by eapply old_keys|by apply elem_of_nil in Hs].
Qed.

(** What a client gets of the samples, in messages of one chunk each. *)
Definition client_reads (ss : list source) (sms : list sampled) : list (option (list tensor)) :=
  match fetch_request (length sms) [] [] (concat (sync_split (fun _ => 1) 0 <$> (message_of ss <$> sms))) with
  | FDone got _ => (fun a => match a with AOk s => match as_trajectory s with SROk (_, out) => Some out | _ => None end | _ => None end) <$> got
  | _ => []
  end.

(** A table with items of both.  The second item of the Writer has two columns and
    three steps in two chunks. *)
Definition all_ops : list op :=
  [OInsert (1, 0) d0 (the_item (STraj sys_other) 0); OInsert (2, 0) d0 (the_item old_source 1); OMutate [(51, Fin 5)] []; OSample 1 ds0; OSample 1 ds0; OSample 1 ds0].
Example C73_all_example : let r := final ex_cfg all_ops in
  Forall source_ok all_ss /\ distinct_keys all_ss /\ reached ex_cfg all_ops r.1 r.2 /\ Forall (op_from all_ss) all_ops /\
  it_key <$> (sm_item <$> all_samples r.1) = [51; 51; 42] /\
  client_reads all_ss (all_samples r.1) = [Some [vec [8; 9]]; Some [vec [8; 9]]; Some [vec [1; 2; 3]; mkTensor (TOther 1) [3; 2]%nat [1; 2; 2; 3; 3; 4]]].
Proof.
  cbv zeta. split; [apply all_ok|]. split; [apply all_distinct|].
  split. { split; [by repeat constructor|vm_compute; ops_ok|vm_compute; reflexivity]. }
  split. { unfold all_ops. apply Forall_cons; split; [apply (the_item_from all_ss 0 _ 0 eq_refl); vm_compute; reflexivity|]. apply Forall_cons; split; [apply (the_item_from all_ss 1 _ 1 eq_refl); vm_compute; reflexivity|].
    apply Forall_cons; split; [exact I|]. apply Forall_cons; split; [exact I|]. apply Forall_cons; split; [exact I|]. apply Forall_cons; split; [exact I|]. apply Forall_nil_2. }
  split; vm_compute; reflexivity.
Qed.

(** The same with a worker: two clients, one asks for one sample and one for two. *)
Definition all_evs : list wev :=
  works 3 ++ [ERequest 1 None] ++ works 9 ++ [EInsert (the_item (STraj sys_other) 0); EWake] ++ works 30 ++ [ERequest 2 None; EInsert (the_item old_source 0); EInsert (the_item old_source 1); EWake] ++ works 40.
Definition all_cfg : tcfg := mkCfg 10 1 KFifo KFifo 1 1 (-100) 100.
Definition all_run := script true false 100 all_cfg all_evs.
Definition answer_to (i : nat) (tr : list (wev * list wout)) : list sampled :=
  concat ((fun a => if bool_decide (a.1.1 = i) then a.2 else []) <$> answers tr).
Example C73_worker_example : exists st0 st1,
  Forall source_ok all_ss /\ distinct_keys all_ss /\ cfg_ok all_cfg /\ wk_trace (accepted all_cfg) 100 (wk_new (new_table all_cfg) 0) all_run.1 all_run.2 /\
  Forall (comes_from all_ss) (arrivals all_run.1) /\
  (0%nat, st0, answer_to 0 all_run.1) ∈ answers all_run.1 /\ (1%nat, st1, answer_to 1 all_run.1) ∈ answers all_run.1 /\
  client_reads all_ss (answer_to 0 all_run.1) = [Some [vec [8; 9]]] /\
  client_reads all_ss (answer_to 1 all_run.1) = [Some [vec [1]; mkTensor (TOther 1) [1; 2]%nat [1; 2]]; Some [vec [1; 2; 3]; mkTensor (TOther 1) [3; 2]%nat [1; 2; 2; 3; 3; 4]]].
Proof.
  exists Ok, Ok. split; [apply all_ok|]. split; [apply all_distinct|]. split; [by repeat constructor|].
  split. { apply (script_trace true false). vm_compute. by eexists. }
  split.
  { assert (arrivals all_run.1 = [the_item (STraj sys_other) 0; the_item old_source 0; the_item old_source 1]) as -> by (vm_compute; reflexivity).
    apply Forall_cons; split; [apply (the_item_from all_ss 0 _ 0 eq_refl); vm_compute; reflexivity|]. apply Forall_cons; split; [apply (the_item_from all_ss 1 _ 0 eq_refl); vm_compute; reflexivity|].
    apply Forall_cons; split; [apply (the_item_from all_ss 1 _ 1 eq_refl); vm_compute; reflexivity|]. apply Forall_nil_2. }
  assert (E : answers all_run.1 = [(0%nat, Ok, answer_to 0 all_run.1); (1%nat, Ok, answer_to 1 all_run.1)]) by (vm_compute; reflexivity). rewrite E at 1.
  split; [apply elem_of_list_here|]. rewrite E at 1. split; [apply elem_of_list_further, elem_of_list_here|]. split; vm_compute; reflexivity.
Qed.

Print Assumptions C73_all_partial.
Print Assumptions C73_worker_partial.
Print Assumptions C73_one_old_writer.
Print Assumptions C73_no_flush.
