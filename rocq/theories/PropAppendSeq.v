(** C94: AppendSequence appends the slices one by one. *)
From Verif Require Import Base Trajectory Tensor TrajUtil ChunkerOptions Sample Stream Reactor PropTraj PropSample PropStream PropInsertStream
  Chunker PropChunker PropDelta TrajWriter TrajWriterProofs PropTrajWriter Writer WriterProofs WriterConf WriterData WriterPlace WriterOwn WriterTrace PropWriter
  PropClose PyClient PropInsert PropSigCheck PropClientSample AppendSeq.
Local Open Scope Z_scope.

(** ** Specification *)

(** The steps [ds] are the slices of [sequence] along its first dimension. *)
Definition slices_of (sequence : list tensor) (ds : list step) : Prop :=
  rows_everywhere (length ds) sequence /\
  forall i d, ds !! i = Some d -> length d = length sequence /\ forall c t, sequence !! c = Some t -> exists r, d !! c = Some r /\ is_row t i r.
(** What cannot be split: nothing, scalars, tensors with different first dimensions. *)
Definition unsplittable (sequence : list tensor) : Prop :=
  sequence = [] \/ (exists t, t ∈ sequence /\ t_shape t = []) \/ (exists t u a b sa sb, t ∈ sequence /\ u ∈ sequence /\ t_shape t = a :: sa /\ t_shape u = b :: sb /\ a <> b).

(** The calls that have returned, with their status; the call that is running. *)
Definition is_qcall (e : qev) : bool := match e with QBase e => is_call e | QSeq _ => true | QNext => false end.
Definition qret_step (s : list (qev * status) * option qev) (x : qev * option status) : list (qev * status) * option qev :=
  let cur := if is_qcall x.1 then Some x.1 else s.2 in
  match x.2, cur with
  | Some st, Some e => (s.1 ++ [(e, st)], None)
  | _, _ => (s.1, cur)
  end.
Definition qcalls (tr : list (qev * option status)) : list (qev * status) * option qev := foldl qret_step ([], None) tr.
Definition q_returned tr := (qcalls tr).1.
Definition q_current tr := (qcalls tr).2.
(** What is not done by the user: the answers of the stream, the worker, new keys. *)
Definition environment (tr : list (lev * option status)) : list lev := filter (fun e => is_call e = false) tr.*1.
Definition q_environment (tr : list (qev * option status)) : list lev :=
  omap (fun x => match x.1 with QBase e => if is_call e then None else Some e | _ => None end) tr.

(** Calls of Append for all of these steps, all successful. *)
Definition appends (ds : list step) : list (lev * status) := (fun d => (LAppend d, Ok)) <$> ds.
(** Every AppendSequence on the left is replaced on the right by calls of Append: for
    all slices if it returned OK; up to and including the first that failed, with
    the same status, if it did not; none if the sequence cannot be split. *)
Inductive unrolled : list (qev * status) -> list (lev * status) -> Prop :=
| un_nil : unrolled [] []
| un_call a b e st : unrolled a b -> unrolled (a ++ [(QBase e, st)]) (b ++ [(e, st)])
| un_refused a b s : unrolled a b -> unsplittable s -> unrolled (a ++ [(QSeq s, InvalidArgument)]) b
| un_all a b s ds : unrolled a b -> ~ unsplittable s -> slices_of s ds -> unrolled (a ++ [(QSeq s, Ok)]) (b ++ appends ds)
| un_failed a b s ds i d st : unrolled a b -> ~ unsplittable s -> slices_of s ds -> ds !! i = Some d -> st <> Ok ->
    unrolled (a ++ [(QSeq s, st)]) (b ++ appends (take i ds) ++ [(LAppend d, st)]).

(** ** Slices *)

Lemma accepted_iff s : seq_accepted s = true <-> ~ unsplittable s.
Proof.
  unfold seq_accepted, unsplittable. destruct s as [|t0 s]; [split; [done|intros H; destruct H; by left]|]. set (l := t0 :: s).
  rewrite forallb_forall. split.
  - intros H [?|[(t & Ht & Hs)|(t & u & a & b & sa & sb & Ht & Hu & Ha & Hb & Hab)]]; [done| |].
    + apply elem_of_list_In in Ht. apply H in Ht. by rewrite Hs in Ht.
    + apply elem_of_list_In in Ht, Hu. apply H in Ht, Hu. unfold dim0 in *. rewrite Ha in Ht. rewrite Hb in Hu. apply andb_true_iff in Ht as [_ Ht%Nat.eqb_eq], Hu as [_ Hu%Nat.eqb_eq]. congruence.
  - intros H t Ht%elem_of_list_In. destruct (t_shape t) as [|a sa] eqn:Ea; [destruct H; right; left; by exists t|]. cbn. apply Nat.eqb_eq. unfold dim0. rewrite Ea.
    destruct (t_shape t0) as [|b sb] eqn:Eb; [destruct H; right; left; exists t0; split; [left|done]|]. destruct (decide (a = b)) as [|Hab]; [done|]. destruct H. right. right. exists t, t0, a, b, sa, sb.
    split; [done|]. split; [left|]. done.
Qed.
Lemma accepted_rows s : seq_accepted s = true -> exists t0 r, s = t0 :: r /\ rows_everywhere (dim0 t0) s.
Proof.
  unfold seq_accepted. destruct s as [|t0 s]; [done|]. intros H. exists t0, s. split; [done|]. rewrite forallb_forall in H. apply Forall_forall. intros t Ht%elem_of_list_In. apply H, andb_true_iff in Ht as [H1 H2%Nat.eqb_eq].
  unfold dim0 in H2 at 1. destruct (t_shape t) as [|a sa]; [done|]. exists sa. by rewrite <- H2.
Qed.
Lemma rows_accepted n s : s <> [] -> rows_everywhere n s -> seq_accepted s = true /\ match s with [] => 0%nat | t0 :: _ => dim0 t0 end = n.
Proof.
  destruct s as [|t0 s]; [done|]. intros _ H. unfold rows_everywhere in H. pose proof H as [[sh0 H0] _]%Forall_cons.
  assert (E : dim0 t0 = n) by (unfold dim0; by rewrite H0). split; [|done]. unfold seq_accepted. rewrite forallb_forall. intros t Ht%elem_of_list_In. rewrite Forall_forall in H. destruct (H t Ht) as [sh Hs].
  unfold dim0 at 1. by rewrite Hs, E, Nat.eqb_refl.
Qed.
Lemma row_ok t i r : tensor_ok t -> is_row t i r -> tensor_ok r.
Proof.
  intros [H1 H2] (d & sh & R1 & R2 & R3 & R4 & R5 & R6). split; [by rewrite R5, R4|]. rewrite R3. apply Forall_lookup. intros j x Hj. pose proof (lookup_lt_Some _ _ _ Hj) as Hl. rewrite R5 in Hl. rewrite R6 in Hj by done. by eapply Forall_lookup_1.
Qed.
Lemma slices_exist n s : rows_everywhere n s -> Forall tensor_ok s -> exists ds, length ds = n /\ slices_of s ds /\ forall i, (i < n)%nat -> mapM (fun t => Sample.sub_slice t i) s = ds !! i.
Proof.
  intros HR HO. destruct (mapM_seq (fun i => mapM (fun t => Sample.sub_slice t i) s) (fun i d => mapM (fun t => Sample.sub_slice t i) s = Some d /\ length d = length s /\ forall c t, s !! c = Some t -> exists r, d !! c = Some r /\ is_row t i r) n) as (ds & _ & L & Q).
  { intros i Hi. destruct (row_some i n s HR HO Hi) as (row & E & HL & R). by exists row. }
  exists ds. split; [done|]. split; [split; [by rewrite L|]; intros i d Hd; by apply Q|]. intros i Hi. destruct (ds !! i) as [d|] eqn:E; [by apply Q|]. apply lookup_ge_None in E. lia.
Qed.
Lemma slice_of s ds i d : slices_of s ds -> ds !! i = Some d -> mapM (fun t => Sample.sub_slice t i) s = Some d.
Proof.
  intros [_ H] Hd. destruct (H i d Hd) as [L R]. apply mapM_Some. apply Forall2_same_length_lookup_2; [by rewrite L|]. intros c t r Ht Hr. destruct (R c t Ht) as (r' & Hr' & HR). rewrite Hr in Hr'. injection Hr' as <-. by apply row_slice.
Qed.
Lemma slice_ok s ds d : Forall tensor_ok s -> slices_of s ds -> d ∈ ds -> Forall tensor_ok d.
Proof.
  intros HO [_ H] [i Hd]%elem_of_list_lookup. destruct (H i d Hd) as [L R]. apply Forall_lookup. intros c r Hr. destruct (lookup_lt_is_Some_2 s c) as [t Ht]; [apply lookup_lt_Some in Hr; lia|]. destruct (R c t Ht) as (r' & Hr' & HR). rewrite Hr in Hr'. injection Hr' as <-.
  eapply row_ok; [|exact HR]. by eapply Forall_lookup_1.
Qed.
(** There is one way to split. *)
Lemma slices_unique s ds ds' : s <> [] -> slices_of s ds -> slices_of s ds' -> ds = ds'.
Proof.
  intros Hne H H'. assert (L : length ds = length ds'). { destruct H as [H _], H' as [H' _]. destruct s as [|t s]; [done|]. apply Forall_cons in H as [[sh E] _], H' as [[sh' E'] _]. congruence. }
  apply list_eq. intros i. destruct (ds !! i) as [d|] eqn:E, (ds' !! i) as [d'|] eqn:E'; [|apply lookup_lt_Some in E; apply lookup_ge_None in E'; lia|apply lookup_lt_Some in E'; apply lookup_ge_None in E; lia|done].
  apply (slice_of s) in E, E'; [congruence|done..].
Qed.

(** ** From the user's calls to those of Append *)

Lemma qcalls_snoc tr x : qcalls (tr ++ [x]) = qret_step (qcalls tr) x.
Proof. unfold qcalls. by rewrite foldl_app. Qed.
Lemma appends_snoc ds i d : ds !! i = Some d -> appends (take (S i) ds) = appends (take i ds) ++ [(LAppend d, Ok)].
Proof. intros H. unfold appends. rewrite (take_S_r _ _ _ H), fmap_app. done. Qed.
Lemma env_snoc tr e ret : environment (tr ++ [(e, ret)]) = environment tr ++ if is_call e then [] else [e].
Proof. unfold environment. rewrite fmap_app, filter_app. cbn. destruct (is_call e); done. Qed.
Lemma qenv_snoc tr e ret : q_environment (tr ++ [(e, ret)]) = q_environment tr ++ match e with QBase e => if is_call e then [] else [e] | _ => [] end.
Proof. unfold q_environment. rewrite omap_app. cbn. destruct e as [e| |]; try done. by destruct (is_call e). Qed.

Definition running (tr : list (qev * option status)) (tr' : list (lev * option status)) (q : qs) : Prop :=
  match q_seq q with
  | None => unrolled (q_returned tr) (returned tr') /\ q_current tr = QBase <$> current tr'
  | Some (s, i) => q_current tr = Some (QSeq s) /\ ~ unsplittable s /\ Forall tensor_ok s /\ exists b ds, slices_of s ds /\ (i <= length ds)%nat /\ unrolled (q_returned tr) b /\
      ((current tr' = None /\ returned tr' = b ++ appends (take i ds)) \/
       exists j d, i = S j /\ ds !! j = Some d /\ current tr' = Some (LAppend d) /\ returned tr' = b ++ appends (take j ds))
  end.

Lemma user_is_call e : user_call e = is_call e.
Proof. by destruct e. Qed.
Lemma seq_after_inv w s i ret q' r : seq_after w s i ret = QRes q' r ->
  (ret = None \/ ret = Some Ok) /\ q' = mkQs w (Some (s, i)) /\ r = None \/ exists st, ret = Some st /\ st <> Ok /\ q' = mkQs w None /\ r = Some st.
Proof. unfold seq_after. destruct ret as [[]|]; intros [= <- <-]; first [left; split; [first [by left|by right]|done]|right; eexists; split; [reflexivity|done]]. Qed.

Section unroll.
Context (p : lconf) (key : Z) (Hcf : conf_ok p).

Lemma idle_returns tr w e w' ret : lw_trace p (lw_new p key) tr w -> lw_enabled w e -> is_call e = false -> lw_step p w e = LNext w' ret -> current tr = None -> ret = None.
Proof.
  intros H He Hc E HN. pose proof (lw_trace_inv _ _ _ _ Hcf H) as T. assert (I : pinv p w) by (eapply lw_reach_inv; [done|by eapply trace_reach]).
  destruct (lw_step_eff p w e w' ret I He E) as [Hc' _|c ph _ Hp _|]; [congruence| |done]. pose proof (t_cur _ _ T) as TC. rewrite Hp in TC. destruct TC as (? & TC & _). congruence.
Qed.
Lemma idle_current tr w : lw_trace p (lw_new p key) tr w -> l_pos w = LIdle -> current tr = None.
Proof. intros H Hi. pose proof (t_cur _ _ (lw_trace_inv _ _ _ _ Hcf H)) as TC. by rewrite Hi in TC. Qed.

Lemma unroll_step tr tr' q e q' ret : lw_trace p (lw_new p key) tr' (q_w q) -> environment tr' = q_environment tr -> running tr tr' q -> q_enabled q e -> q_step p q e = QRes q' ret ->
  exists l, lw_trace p (lw_new p key) (tr' ++ l) (q_w q') /\ environment (tr' ++ l) = q_environment (tr ++ [(e, ret)]) /\ running (tr ++ [(e, ret)]) (tr' ++ l) q' /\
    (forall c r, (c, r) ∈ l -> is_call c = true -> (exists d, c = LAppend d) \/ e = QBase c) /\ (forall c, e = QBase c -> is_call c = true -> l = [(c, ret)] /\ q_seq q = None).
Proof.
  intros T EN R He E.
  destruct e as [e|s|].
  - (* an action of Writer.v *)
    cbn [q_step q_enabled] in *. destruct q as [w [[s i]|]]; cbn [q_w q_seq] in *.
    + rewrite user_is_call in E. destruct (is_call e) eqn:Hc; [done|]. destruct (lw_step p w e) as [| |w' r] eqn:Ew; try done. destruct R as (R1 & R2 & RO & b & ds & R3 & R4 & R5 & R6). cbn [q_seq] in *.
      exists [(e, r)]. assert (T' : lw_trace p (lw_new p key) (tr' ++ [(e, r)]) w') by (econstructor; [exact T|exact He|exact Ew]).
      apply seq_after_inv in E as [(Hr & -> & ->)|(st & -> & Hst & -> & ->)]; (split; [exact T'|]); (split; [by rewrite env_snoc, qenv_snoc, EN, Hc|]); (split; [|split; [intros c0 r0 [= -> ->]%elem_of_list_singleton; congruence|intros c0 [= <-]; congruence]]); unfold running; cbn [q_seq].
      * unfold q_current, q_returned. rewrite qcalls_snoc. unfold qret_step. cbn [fst snd is_qcall]. rewrite Hc. fold (q_current tr) (q_returned tr). split; [done|]. split; [done|]. split; [done|]. exists b, ds. split; [done|]. split; [done|]. split; [done|].
        destruct R6 as [[C1 C2]|(j & d & -> & C2 & C3 & C4)].
        { rewrite (idle_returns tr' w e w' r T He Hc Ew C1) in *. left. unfold current, returned. rewrite calls_snoc. unfold ret_step. cbn [fst snd]. rewrite Hc. done. }
        destruct Hr as [-> | ->]; unfold current, returned; rewrite calls_snoc; unfold ret_step; cbn [fst snd]; rewrite Hc; fold (current tr') (returned tr'); rewrite C3; cbn [fst snd].
        { right. by exists j, d. }
        left. split; [done|]. by rewrite C4, <- app_assoc, <- appends_snoc.
      * unfold q_current, q_returned. rewrite qcalls_snoc. unfold qret_step. cbn [fst snd is_qcall]. rewrite Hc. fold (q_current tr) (q_returned tr). rewrite R1. cbn [fst snd].
        destruct R6 as [[C1 C2]|(j & d & -> & C2 & C3 & C4)]; [pose proof (idle_returns tr' w e w' _ T He Hc Ew C1); done|].
        unfold current, returned. rewrite calls_snoc. unfold ret_step. cbn [fst snd]. rewrite Hc. fold (current tr') (returned tr'). rewrite C3. cbn [fst snd]. split; [|done]. rewrite C4, <- app_assoc. by econstructor.
    + destruct (lw_step p w e) as [| |w' r] eqn:Ew; try done. injection E as <- <-. destruct R as [R1 R2]. cbn [q_seq] in *. exists [(e, r)]. split; [econstructor; [exact T|exact He|exact Ew]|]. split; [by rewrite env_snoc, qenv_snoc, EN|]. split; [|split; [intros c0 r0 [= -> ->]%elem_of_list_singleton _; by right|by intros c0 [= <-] _]].
      unfold running. cbn [q_seq]. unfold q_current, q_returned, current, returned. rewrite qcalls_snoc, calls_snoc. unfold qret_step, ret_step. cbn [fst snd is_qcall]. fold (q_current tr) (q_returned tr) (current tr') (returned tr').
      destruct (is_call e); [|rewrite R2; destruct (current tr') as [e0|]; cbn [fmap option_fmap option_map]]; destruct r; cbn [fst snd]; (split; [first [done|by constructor]|done]).
  - (* AppendSequence *)
    cbn [q_step q_enabled] in *. destruct q as [w [[s' i]|]]; cbn [q_w q_seq] in *; [done|]. destruct (l_pos w) eqn:Hp; [|done]. destruct R as [R1 R2]. cbn [q_seq] in *. exists []. rewrite app_nil_r.
    destruct (seq_accepted s) eqn:Ha; injection E as <- <-; (split; [exact T|]); (split; [by rewrite qenv_snoc, app_nil_r|]); (split; [|split; [by intros ? ? ?%elem_of_nil|done]]); unfold running; cbn [q_seq]; unfold q_current, q_returned; rewrite qcalls_snoc; unfold qret_step; cbn [fst snd is_qcall]; fold (q_returned tr).
    + split; [done|]. pose proof Ha as Hn%accepted_iff. split; [done|]. split; [done|]. apply accepted_rows in Ha as (t0 & r & Hs & HR). destruct (slices_exist _ _ HR He) as (ds & L & HS & _). exists (returned tr'), ds. split; [done|]. split; [lia|]. split; [done|].
      left. split; [by eapply idle_current|]. by rewrite app_nil_r.
    + split; [|by rewrite (idle_current tr' w)]. constructor; [done|].
      (* the boolean test decides *)
      clear -Ha. unfold seq_accepted in Ha. destruct s as [|t0 s]; [by left|]. apply not_true_iff_false in Ha. rewrite forallb_forall in Ha.
      destruct (decide (Exists (fun t => t_shape t = []) (t0 :: s))) as [(t & Ht & Hs)%Exists_exists|HE]; [right; left; by exists t|]. apply not_Exists_Forall in HE; [|apply _]. rewrite Forall_forall in HE.
      destruct (decide (Exists (fun t => dim0 t <> dim0 t0) (t0 :: s))) as [(t & Ht & Hs)%Exists_exists|HE2].
      * right. right. pose proof (HE t Ht) as H1. pose proof (HE t0 ltac:(left)) as H2. unfold dim0 in Hs. destruct (t_shape t) as [|a sa] eqn:Ea; [done|]. destruct (t_shape t0) as [|b sb] eqn:Eb; [done|]. exists t, t0, a, b, sa, sb. split; [done|]. split; [left|]. done.
      * apply not_Exists_Forall in HE2; [|intros x; apply _]. rewrite Forall_forall in HE2. destruct Ha. intros t Ht%elem_of_list_In. specialize (HE t Ht). specialize (HE2 t Ht). assert (dim0 t = dim0 t0) as -> by (destruct (decide (dim0 t = dim0 t0)); done). rewrite Nat.eqb_refl. destruct (t_shape t) eqn:Et; [by destruct HE|done].
  - (* the loop goes on *)
    cbn [q_step q_enabled] in *. destruct q as [w [[s i]|]]; cbn [q_w q_seq] in *; [|done]. destruct (l_pos w) eqn:Hp; [|done]. destruct R as (R1 & R2 & RO & b & ds & R3 & R4 & R5 & R6). cbn [q_seq] in *.
    pose proof (idle_current _ _ T Hp) as HC. destruct R6 as [[_ C2]|(j & d & _ & _ & C3 & _)]; [|congruence].
    assert (Hne : s <> []) by (intros ->; apply R2; by left). assert (HD : match s with [] => 0%nat | t0 :: _ => dim0 t0 end = length ds) by (by eapply rows_accepted; [|apply R3]).
    unfold seq_next in E. rewrite HD in E. destruct (Nat.ltb_spec i (length ds)) as [Hi|Hi].
    + destruct (lookup_lt_is_Some_2 ds i Hi) as [d Hd]. rewrite (slice_of _ _ _ _ R3 Hd) in E. destruct (append p w d) as [| |w' r] eqn:Ea; try done.
      exists [(LAppend d, r)]. assert (T' : lw_trace p (lw_new p key) (tr' ++ [(LAppend d, r)]) w').
      { econstructor; [exact T| |cbn [lw_step]; unfold idle; by rewrite Hp]. cbn. eapply slice_ok; [exact RO|exact R3|by eapply elem_of_list_lookup_2]. }
      apply seq_after_inv in E as [(Hr & -> & ->)|(st & -> & Hst & -> & ->)]; (split; [exact T'|]); (split; [rewrite env_snoc, qenv_snoc, EN; cbn [is_call]; done|]); (split; [|split; [intros c0 r0 [= -> ->]%elem_of_list_singleton _; left; by eexists|done]]); unfold running; cbn [q_seq]; unfold q_current, q_returned; rewrite qcalls_snoc; unfold qret_step; cbn [fst snd is_qcall]; fold (q_returned tr) (q_current tr); rewrite ?R1; cbn [fst snd].
      * split; [done|]. split; [done|]. split; [done|]. exists b, ds. split; [done|]. split; [lia|]. split; [done|]. unfold current, returned. rewrite calls_snoc. unfold ret_step. cbn [fst snd is_call]. fold (current tr') (returned tr').
        destruct Hr as [-> | ->]; cbn [fst snd]; [right; by exists i, d|left; split; [done|]; by rewrite C2, <- app_assoc, <- appends_snoc].
      * unfold current, returned. rewrite calls_snoc. unfold ret_step. cbn [fst snd is_call]. fold (returned tr'). split; [|done]. rewrite C2, <- app_assoc. by econstructor.
    + injection E as <- <-. exists []. rewrite app_nil_r. split; [exact T|]. split; [by rewrite qenv_snoc, app_nil_r|]. split; [|split; [by intros ? ? ?%elem_of_nil|done]]. unfold running. cbn [q_seq]. unfold q_current, q_returned. rewrite qcalls_snoc. unfold qret_step. cbn [fst snd is_qcall]. fold (q_returned tr) (q_current tr). rewrite R1. cbn [fst snd].
      rewrite HC. split; [|done]. rewrite C2, take_ge by lia. by constructor.
Qed.

(** The whole run; a part of it is unrolled first. *)
Lemma unroll_from tr1 q1 tr1' : lw_trace p (lw_new p key) tr1' (q_w q1) -> environment tr1' = q_environment tr1 -> running tr1 tr1' q1 -> forall tr2 q, q_trace p q1 tr2 q ->
  exists l, lw_trace p (lw_new p key) (tr1' ++ l) (q_w q) /\ environment (tr1' ++ l) = q_environment (tr1 ++ tr2) /\ running (tr1 ++ tr2) (tr1' ++ l) q /\
    (forall c r, (c, r) ∈ l -> is_call c = true -> (exists d, c = LAppend d) \/ exists r', (QBase c, r') ∈ tr2).
Proof.
  intros T EN R tr2 q H. induction H as [|tr2 q e q' ret H (l & IH1 & IH2 & IH3 & IH4) He E].
  - exists []. rewrite !app_nil_r. split; [done|]. split; [done|]. split; [done|]. by intros ? ? ?%elem_of_nil.
  - destruct (unroll_step _ _ _ _ _ _ IH1 IH2 IH3 He E) as (l2 & L1 & L2 & L3 & L4 & _). exists (l ++ l2). rewrite !app_assoc. split; [done|]. split; [done|]. split; [done|].
    intros c r [Hc|Hc]%elem_of_app Hi; [destruct (IH4 c r Hc Hi) as [?|[r' Hr]]; [by left|right; exists r'; apply elem_of_app; by left]|].
    destruct (L4 c r Hc Hi) as [?| ->]; [by left|]. right. exists ret. apply elem_of_app. right. by apply elem_of_list_singleton.
Qed.
Lemma unroll_trace tr q : q_trace p (q_new p key) tr q ->
  exists tr', lw_trace p (lw_new p key) tr' (q_w q) /\ environment tr' = q_environment tr /\ running tr tr' q /\
    (forall c r, (c, r) ∈ tr' -> is_call c = true -> (exists d, c = LAppend d) \/ exists r', (QBase c, r') ∈ tr).
Proof. intros H. apply (unroll_from [] (q_new p key) []); [constructor|done|split; [constructor|done]|done]. Qed.
End unroll.

Lemma q_trace_split p q0 tr q : q_trace p q0 tr q -> forall tr1 e ret tr2, tr = tr1 ++ (e, ret) :: tr2 ->
  exists q1 q2, q_trace p q0 tr1 q1 /\ q_enabled q1 e /\ q_step p q1 e = QRes q2 ret /\ q_trace p q2 tr2 q.
Proof.
  induction 1 as [|tr q e q' ret H IH He E]; intros tr1 e1 ret1 tr2 Htr; [by destruct tr1|]. apply snoc_split in Htr as [(-> & [= -> ->] & ->)|(tr2' & -> & ->)].
  - exists q, q'. split; [done|]. split; [done|]. split; [done|]. constructor.
  - destruct (IH _ _ _ _ eq_refl) as (q1 & q2 & A1 & A2 & A3 & A4). exists q1, q2. split; [done|]. split; [done|]. split; [done|]. by econstructor.
Qed.
Lemma q_trace_ok p q0 tr q : q_trace p q0 tr q -> (forall s st, (QSeq s, st) ∈ q_returned tr -> Forall tensor_ok s) /\ forall s, q_current tr = Some (QSeq s) -> Forall tensor_ok s.
Proof.
  induction 1 as [|tr q e q' ret H [IH1 IH2] He E]; [split; [by intros ? ? ?%elem_of_nil|done]|]. unfold q_returned, q_current. rewrite qcalls_snoc. unfold qret_step. cbn [fst snd]. fold (q_returned tr) (q_current tr).
  assert (HC : forall s, (if is_qcall e then Some e else q_current tr) = Some (QSeq s) -> Forall tensor_ok s).
  { intros s. destruct (is_qcall e); [|by apply IH2]. intros [= ->]. exact He. }
  destruct ret as [st|]; [|done]. destruct (if is_qcall e then Some e else q_current tr) as [e0|]; cbn [fst snd]; [|done]. split; [|done].
  intros s st0 [Hs|[= <- <-]%elem_of_list_singleton]%elem_of_app; [by eapply IH1|by apply HC].
Qed.

(** ** C94 *)

(** Every run with calls of AppendSequence is one of calls of Append for the slices:
    the writer ends in the same state, having sent the same messages, and the stream
    and the worker do the same.  While AppendSequence runs, some of its slices have
    been appended. *)
Theorem C94_unrolled p key tr q : conf_ok p -> q_trace p (q_new p key) tr q ->
  exists tr' b more, lw_trace p (lw_new p key) tr' (q_w q) /\ environment tr' = q_environment tr /\ returned tr' = b ++ more /\ unrolled (q_returned tr) b /\
    match q_current tr with
    | Some (QSeq s) => exists ds i, slices_of s ds /\ more = appends (take i ds) /\ (current tr' = None \/ exists d, ds !! i = Some d /\ current tr' = Some (LAppend d))
    | Some (QBase e) => more = [] /\ current tr' = Some e
    | Some QNext => False
    | None => more = [] /\ current tr' = None
    end.
Proof.
  intros Hcf H. destruct (unroll_trace p key Hcf tr q H) as (tr' & T & EN & R & _). unfold running in R. destruct (q_seq q) as [[s i]|].
  - destruct R as (R1 & R2 & RO & b & ds & R3 & R4 & R5 & R6). rewrite R1. destruct R6 as [[C1 C2]|(j & d & -> & C2 & C3 & C4)].
    + exists tr', b, (appends (take i ds)). split; [done|]. split; [done|]. split; [done|]. split; [done|]. exists ds, i. split; [done|]. split; [done|]. by left.
    + exists tr', b, (appends (take j ds)). split; [done|]. split; [done|]. split; [done|]. split; [done|]. exists ds, j. split; [done|]. split; [done|]. right. by exists d.
  - destruct R as [R1 R2]. exists tr', (returned tr'), []. rewrite app_nil_r. split; [done|]. split; [done|]. split; [done|]. split; [done|]. rewrite R2. by destruct (current tr').
Qed.

(** ** And back *)

Lemma calls_app tr1 tr2 : current tr1 = None -> calls (tr1 ++ tr2) = (returned tr1 ++ returned tr2, current tr2).
Proof.
  intros H. induction tr2 as [|x tr2 IH] using List.rev_ind; [unfold returned, current in *; rewrite !app_nil_r; destruct (calls tr1); cbn in *; congruence|].
  rewrite app_assoc, calls_snoc, IH. unfold returned, current. rewrite calls_snoc. unfold ret_step. cbn [fst snd]. fold (current tr2) (returned tr2). destruct x.2; [|done]. destruct (if is_call x.1 then Some x.1 else current tr2); [|done]. cbn. by rewrite <- app_assoc.
Qed.
Lemma lw_trace_app p w0 tr1 w1 tr2 w2 : lw_trace p w0 tr1 w1 -> lw_trace p w1 tr2 w2 -> lw_trace p w0 (tr1 ++ tr2) w2.
Proof. intros H1 H2. induction H2 as [|tr w e w' ret H IH He E]; [by rewrite app_nil_r|]. rewrite app_assoc. by econstructor. Qed.
Lemma appends_inj_snoc ds k l x st : (k <= length ds)%nat -> appends (take k ds) = l ++ [(x, st)] -> exists j d, k = S j /\ ds !! j = Some d /\ x = LAppend d /\ st = Ok /\ l = appends (take j ds).
Proof.
  intros Hk H. destruct k as [|j]; [by destruct l|]. destruct (lookup_lt_is_Some_2 ds j) as [d Hd]; [lia|]. rewrite (appends_snoc _ _ _ Hd) in H. apply app_inj_2 in H as [<- [= <- <-]]; [|done]. by exists j, d.
Qed.

Section roll.
Context (p : lconf) (key : Z) (Hcf : conf_ok p) (tr1 : list (lev * option status)) (w1 : lw) (H1 : lw_trace p (lw_new p key) tr1 w1) (HI : current tr1 = None).
Context (s : list tensor) (ds : list step) (Hs : ~ unsplittable s) (HO : Forall tensor_ok s) (HS : slices_of s ds) (st : status).

Definition partway (tr : list (lev * option status)) (k i : nat) : Prop :=
  returned tr = appends (take k ds) /\ (k <= length ds)%nat /\ ((current tr = None /\ i = k) \/ exists d, ds !! k = Some d /\ current tr = Some (LAppend d) /\ i = S k).
Definition broken (tr : list (lev * option status)) : Prop :=
  exists i d, ds !! i = Some d /\ st <> Ok /\ returned tr = appends (take i ds) ++ [(LAppend d, st)] /\ current tr = None.

Lemma roll_idle tr w : lw_trace p w1 tr w -> l_pos w = LIdle <-> current tr = None.
Proof.
  intros H. pose proof (lw_trace_app _ _ _ _ _ _ H1 H) as T. pose proof (t_cur _ _ (lw_trace_inv _ _ _ _ Hcf T)) as C. unfold current in C at 1 2. rewrite (calls_app _ _ HI) in C. cbn [snd] in C.
  destruct (l_pos w); [done|]. destruct C as (? & C & _). rewrite C. done.
Qed.
Lemma roll_call tr w e w' ret : lw_trace p w1 tr w -> lw_enabled w e -> lw_step p w e = LNext w' ret -> is_call e = true -> l_pos w = LIdle.
Proof. intros _ _ E Hc. destruct e; try done; cbn [lw_step] in E; unfold idle in E; by destruct (l_pos w). Qed.
Lemma roll_other tr w e w' st' : lw_trace p w1 tr w -> lw_enabled w e -> lw_step p w e = LNext w' (Some st') -> is_call e = false -> exists e0, current tr = Some e0.
Proof.
  intros H He E Hc. destruct (current tr) as [e0|] eqn:EC; [by exists e0|]. pose proof (lw_trace_app _ _ _ _ _ _ H1 H) as T.
  assert (HC : current (tr1 ++ tr) = None) by (unfold current; rewrite (calls_app _ _ HI); exact EC). pose proof (idle_returns p key Hcf _ _ _ _ _ T He Hc E HC). done.
Qed.
Lemma roll_next w tr i d w' ret : lw_trace p w1 tr w -> current tr = None -> ds !! i = Some d -> lw_step p w (LAppend d) = LNext w' ret ->
  q_step p (mkQs w (Some (s, i))) QNext = seq_after w' s (S i) ret.
Proof.
  intros H HC Hd E. pose proof (proj2 (roll_idle tr w H) HC) as Hp. cbn [lw_step] in E. unfold idle in E. rewrite Hp in E. cbn [q_step q_seq q_w]. rewrite Hp. unfold seq_next.
  assert (Hne : s <> []) by (intros Hn; apply Hs; by left). destruct (rows_accepted (length ds) s Hne (proj1 HS)) as [_ ->]. rewrite (proj2 (Nat.ltb_lt _ _)) by (by eapply lookup_lt_Some). by rewrite (slice_of _ _ _ _ HS Hd), E.
Qed.

Lemma roll_trace tr w : lw_trace p w1 tr w ->
  (forall k i, partway tr k i -> exists tq, q_trace p (mkQs w1 None) tq (mkQs w (Some (s, i))) /\ q_returned tq = [] /\ q_current tq = Some (QSeq s) /\ q_environment tq = environment tr) /\
  (broken tr -> exists tq, q_trace p (mkQs w1 None) tq (mkQs w None) /\ q_returned tq = [(QSeq s, st)] /\ q_current tq = None /\ q_environment tq = environment tr).
Proof.
  induction 1 as [|tr w e w' ret H [IHA IHB] He E].
  - split; [|intros (i & d & _ & _ & Hr & _); by destruct (appends (take i ds))]. intros k i (Hr & Hk & Hi). destruct Hi as [[_ ->]|(d & _ & Hc & _)]; [|done].
    assert (k = 0%nat) as ->. { destruct k; [done|]. destruct ds; [cbn in Hk; lia|done]. }
    exists [(QSeq s, None)]. split; [|done]. apply (qt_snoc p (mkQs w1 None) [] (mkQs w1 None) (QSeq s)); [constructor|done|]. cbn [q_step q_seq q_w]. rewrite (proj2 (roll_idle [] w1 ltac:(constructor)) eq_refl). by rewrite (proj2 (accepted_iff s) Hs).
  - unfold partway, broken, returned, current. rewrite calls_snoc. unfold ret_step. cbn [fst snd]. fold (returned tr) (current tr). rewrite env_snoc.
    destruct (is_call e) eqn:Hc.
    + pose proof (roll_call _ _ _ _ _ H He E Hc) as Hp. pose proof (proj1 (roll_idle _ _ H) Hp) as HC. destruct ret as [st'|]; cbn [fst snd].
      * split.
        { intros k i (Hr & Hk & Hi). destruct Hi as [[_ ->]|(d & _ & ? & _)]; [|done]. symmetry in Hr. apply appends_inj_snoc in Hr as (j & d & -> & Hd & -> & -> & Hr); [|done].
          destruct (IHA j j) as (tq & Q1 & Q2 & Q3 & Q4); [split; [done|]; split; [lia|by left]|]. exists (tq ++ [(QNext, None)]). split; [|split; [|split]].
          - econstructor; [exact Q1|done|]. rewrite (roll_next w tr j d w' (Some Ok) H HC Hd E). done.
          - unfold q_returned. rewrite qcalls_snoc. exact Q2.
          - unfold q_current. rewrite qcalls_snoc. exact Q3.
          - by rewrite qenv_snoc, Q4. }
        { intros (i & d & Hd & Hst & Hr & _). apply app_inj_2 in Hr as [Hr [= -> ->]]; [|done]. pose proof (lookup_lt_Some _ _ _ Hd) as Hlt.
          destruct (IHA i i) as (tq & Q1 & Q2 & Q3 & Q4); [split; [done|]; split; [lia|by left]|]. exists (tq ++ [(QNext, Some st)]). split; [|split; [|split]].
          - econstructor; [exact Q1|done|]. rewrite (roll_next w tr i d w' (Some st) H HC Hd E). unfold seq_after. by destruct st.
          - unfold q_returned, q_current in *. rewrite qcalls_snoc. unfold qret_step. cbn [fst snd is_qcall]. rewrite Q2, Q3. done.
          - unfold q_current in *. rewrite qcalls_snoc. unfold qret_step. cbn [fst snd is_qcall]. rewrite Q3. done.
          - by rewrite qenv_snoc, Q4. }
      * split; [|by intros (? & ? & _ & _ & _ & ?)]. intros k i (Hr & Hk & Hi). destruct Hi as [[? _]|(d & Hd & [= ->] & ->)]; [done|].
        destruct (IHA k k) as (tq & Q1 & Q2 & Q3 & Q4); [split; [done|]; split; [lia|by left]|]. exists (tq ++ [(QNext, None)]). split; [|split; [|split]].
        { econstructor; [exact Q1|done|]. rewrite (roll_next w tr k d w' None H HC Hd E). done. }
        { unfold q_returned. rewrite qcalls_snoc. exact Q2. }
        { unfold q_current. rewrite qcalls_snoc. exact Q3. }
        { by rewrite qenv_snoc, Q4. }
    + assert (UC : user_call e = false) by (by rewrite user_is_call). destruct ret as [st'|]; cbn [fst snd].
      * destruct (roll_other _ _ _ _ _ H He E Hc) as [e0 EC]. rewrite EC. cbn [fst snd]. split.
        { intros k i (Hr & Hk & Hi). destruct Hi as [[_ ->]|(d & _ & ? & _)]; [|done]. symmetry in Hr. apply appends_inj_snoc in Hr as (j & d & -> & Hd & -> & -> & Hr); [|done].
          destruct (IHA j (S j)) as (tq & Q1 & Q2 & Q3 & Q4); [split; [done|]; split; [lia|]; right; by exists d|]. exists (tq ++ [(QBase e, None)]). split; [|split; [|split]].
          - econstructor; [exact Q1|done|]. cbn [q_step q_seq q_w]. rewrite UC, E. done.
          - unfold q_returned. rewrite qcalls_snoc. exact Q2.
          - unfold q_current in *. rewrite qcalls_snoc. unfold qret_step. cbn [fst snd is_qcall]. by rewrite Hc.
          - by rewrite qenv_snoc, Q4, Hc. }
        { intros (i & d & Hd & Hst & Hr & _). apply app_inj_2 in Hr as [Hr [= -> ->]]; [|done]. pose proof (lookup_lt_Some _ _ _ Hd) as Hlt.
          destruct (IHA i (S i)) as (tq & Q1 & Q2 & Q3 & Q4); [split; [done|]; split; [lia|]; right; by exists d|]. exists (tq ++ [(QBase e, Some st)]). split; [|split; [|split]].
          - econstructor; [exact Q1|done|]. cbn [q_step q_seq q_w]. rewrite UC, E. unfold seq_after. by destruct st.
          - unfold q_returned, q_current in *. rewrite qcalls_snoc. unfold qret_step. cbn [fst snd is_qcall]. rewrite Hc, Q2, Q3. done.
          - unfold q_current in *. rewrite qcalls_snoc. unfold qret_step. cbn [fst snd is_qcall]. rewrite Hc, Q3. done.
          - by rewrite qenv_snoc, Q4, Hc. }
      * split.
        { intros k i HP. destruct (IHA k i HP) as (tq & Q1 & Q2 & Q3 & Q4). exists (tq ++ [(QBase e, None)]). split; [|split; [|split]].
          - econstructor; [exact Q1|done|]. cbn [q_step q_seq q_w]. rewrite UC, E. done.
          - unfold q_returned. rewrite qcalls_snoc. exact Q2.
          - unfold q_current in *. rewrite qcalls_snoc. unfold qret_step. cbn [fst snd is_qcall]. by rewrite Hc.
          - by rewrite qenv_snoc, Q4, Hc. }
        { intros HB. destruct (IHB HB) as (tq & Q1 & Q2 & Q3 & Q4). exists (tq ++ [(QBase e, None)]). split; [|split; [|split]].
          - econstructor; [exact Q1|done|]. cbn [q_step q_seq q_w]. by rewrite E.
          - unfold q_returned. rewrite qcalls_snoc. exact Q2.
          - unfold q_current in *. rewrite qcalls_snoc. unfold qret_step. cbn [fst snd is_qcall]. by rewrite Hc.
          - by rewrite qenv_snoc, Q4, Hc. }
Qed.
End roll.

(** When no call is running: calling Append for the slices of a sequence in turn, up
    to the first that fails, can be replaced by AppendSequence.  It returns what the
    last Append did and leaves the same writer, whatever the stream and the worker do
    in the meantime. *)
Theorem C94_rolled p key tr1 w1 s ds tr2 w2 st : conf_ok p -> lw_trace p (lw_new p key) tr1 w1 -> current tr1 = None ->
  ~ unsplittable s -> Forall tensor_ok s -> slices_of s ds -> lw_trace p w1 tr2 w2 -> current tr2 = None ->
  (returned tr2 = appends ds /\ st = Ok) \/ (exists i d, ds !! i = Some d /\ st <> Ok /\ returned tr2 = appends (take i ds) ++ [(LAppend d, st)]) ->
  exists tr, q_trace p (mkQs w1 None) tr (mkQs w2 None) /\ q_returned tr = [(QSeq s, st)] /\ q_current tr = None /\ q_environment tr = environment tr2.
Proof.
  intros Hcf H1 HI Hs HO HS H2 HC [[Hr ->]|(i & d & Hd & Hst & Hr)].
  - destruct (roll_trace p key Hcf tr1 w1 H1 HI s ds Hs HO HS Ok tr2 w2 H2) as [HA _]. destruct (HA (length ds) (length ds)) as (tq & Q1 & Q2 & Q3 & Q4); [split; [by rewrite take_ge|]; split; [done|by left]|].
    exists (tq ++ [(QNext, Some Ok)]). assert (Hp : l_pos w2 = LIdle) by (by eapply roll_idle). assert (Hne : s <> []) by (intros Hn; apply Hs; by left). split; [|split; [|split]].
    + econstructor; [exact Q1|done|]. cbn [q_step q_seq q_w]. rewrite Hp. unfold seq_next. destruct (rows_accepted (length ds) s Hne (proj1 HS)) as [_ ->]. by rewrite Nat.ltb_irrefl.
    + unfold q_returned, q_current in *. rewrite qcalls_snoc. unfold qret_step. cbn [fst snd is_qcall]. rewrite Q2, Q3. done.
    + unfold q_current in *. rewrite qcalls_snoc. unfold qret_step. cbn [fst snd is_qcall]. rewrite Q3. done.
    + by rewrite qenv_snoc, Q4, app_nil_r.
  - destruct (roll_trace p key Hcf tr1 w1 H1 HI s ds Hs HO HS st tr2 w2 H2) as [_ HB]. apply HB. by exists i, d.
Qed.

(** ** What a sampled item contains *)

(** AppendSequence, Append and Flush have succeeded; Close has not been called. *)
Definition q_smooth (tr : list (qev * option status)) : Prop :=
  (forall r ret, (QBase (LClose r), ret) ∉ tr) /\ forall e st, (e, st) ∈ q_returned tr -> match e with QBase (LAppend _) | QBase LFlush | QSeq _ => st = Ok | _ => True end.
(** All appended steps have the types and shapes [sg]. *)
Definition one_signature (sg : list (dty * list nat)) (tr : list (qev * option status)) : Prop :=
  (forall d, (QBase (LAppend d), Ok) ∈ q_returned tr -> (fun t => (t_ty t, t_shape t)) <$> d = sg) /\
  (forall s, (QSeq s, Ok) ∈ q_returned tr -> (fun t => (t_ty t, tail (t_shape t))) <$> s = sg).

Lemma unrolled_calls a b e st : unrolled a b -> (e, st) ∈ b ->
  (QBase e, st) ∈ a \/ exists s d, e = LAppend d /\ ((st <> Ok /\ (QSeq s, st) ∈ a) \/ (st = Ok /\ exists ds st', (QSeq s, st') ∈ a /\ slices_of s ds /\ d ∈ ds)).
Proof.
  assert (APP : forall ds (x : lev) y, (x, y) ∈ appends ds -> y = Ok /\ exists d, x = LAppend d /\ d ∈ ds).
  { intros ds x y (d & [= -> ->] & Hd)%elem_of_list_fmap. split; [done|]. by exists d. }
  induction 1 as [|a b e0 st0 H IH|a b s H IH Hs|a b s ds H IH Hn HS|a b s ds i d0 st0 H IH Hn HS Hd Hst]; intros Hb; [by apply elem_of_nil in Hb| | | |].
  1: apply elem_of_app in Hb as [Hb|[= -> ->]%elem_of_list_singleton]; [|left; apply elem_of_app; right; by apply elem_of_list_singleton].
  all: assert (LIFT : forall y, y ∈ a -> y ∈ a ++ [y] /\ forall z, y ∈ a ++ [z]) by (intros y Hy; split; intros; apply elem_of_app; by left).
  3: apply elem_of_app in Hb as [Hb|Hb].
  4: { apply APP in Hb as (-> & d & -> & Hd). right. exists s, d. split; [done|]. right. split; [done|]. exists ds, Ok. split; [apply elem_of_app; right; by apply elem_of_list_singleton|done]. }
  4: apply elem_of_app in Hb as [Hb|[Hb|[= -> ->]%elem_of_list_singleton]%elem_of_app].
  5: { apply APP in Hb as (-> & d & -> & Hd'). right. exists s, d. split; [done|]. right. split; [done|]. exists ds, st0. split; [apply elem_of_app; right; by apply elem_of_list_singleton|]. split; [done|]. rewrite <- (take_drop i ds), elem_of_app. by left. }
  5: { right. exists s, d0. split; [done|]. left. split; [done|]. apply elem_of_app. right. by apply elem_of_list_singleton. }
  all: destruct (IH Hb) as [Hx|(s1 & d1 & -> & [[Hx1 Hx2]|(Hx1 & ds1 & st1 & Hx2 & Hx3)])]; [left; apply elem_of_app; by left|right; exists s1, d1; split; [done|]; left; split; [done|]; apply elem_of_app; by left|].
  all: right; exists s1, d1; split; [done|]; right; split; [done|]; exists ds1, st1; split; [apply elem_of_app; by left|done].
Qed.
Lemma unrolled_last a b s : unrolled (a ++ [(QSeq s, Ok)]) b -> exists b' ds, b = b' ++ appends ds /\ slices_of s ds /\ s <> [].
Proof.
  intros H. remember (a ++ [(QSeq s, Ok)]) as l eqn:El. destruct H as [|a0 b0 e0 st0 H|a0 b0 s0 H Hs|a0 b0 s0 ds H Hn HS|a0 b0 s0 ds i d0 st0 H Hn HS Hd Hst]; [by destruct a|..]; apply app_inj_2 in El as [-> El]; try done.
  injection El as ->. exists b0, ds. split; [done|]. split; [done|]. intros ->. apply Hn. by left. injection El as -> ->. done.
Qed.

(** A tensor is what its rows are stacked to. *)
Lemma concat_rows (n k : nat) (l : list Z) : length l = (n * k)%nat -> concat ((fun i => take k (drop (i * k) l)) <$> seq 0 n) = l.
Proof.
  revert l. induction n as [|n IH]; intros l Hl; [by destruct l|]. cbn [seq fmap list_fmap concat]. rewrite Nat.mul_0_l, drop_0. rewrite <- (take_drop k l) at 2. f_equal.
  rewrite <- (IH (drop k l)) by (rewrite drop_length; lia). f_equal. rewrite <- seq_shift, <- list_fmap_compose. apply list_fmap_ext. intros _ i _. cbn. rewrite drop_drop. done.
Qed.
Lemma restack s ds c t t0 : slices_of s ds -> ds <> [] -> s !! c = Some t0 -> tensor_ok t0 -> step_column c ds t -> t = t0.
Proof.
  intros [HR HS] Hne Ht0 [HO _] (ty & sh & ts & HM & HK & ->). apply mapM_Some in HM.
  destruct (Forall_lookup_1 _ _ _ _ HR Ht0) as [sh0 E0]. pose proof (Forall2_length _ _ _ HM) as HL.
  assert (ROW : forall i r, ts !! i = Some r -> is_row t0 i r).
  { intros i r Hr. destruct (Forall2_lookup_r _ _ _ _ _ HM Hr) as (d & Hd & Hc). destruct (HS i d Hd) as [_ H]. destruct (H c t0 Ht0) as (r' & Hr' & HI). rewrite Hc in Hr'. by injection Hr' as <-. }
  assert (KIND : ty = t_ty t0 /\ sh = sh0).
  { destruct ts as [|r ts]; [by destruct ds|]. destruct (ROW 0%nat r eq_refl) as (d & sh' & A1 & _ & A2 & A3 & _). apply Forall_cons in HK as [[<- <-] _]. rewrite E0 in A1. injection A1 as <- <-. done. }
  destruct KIND as [-> ->]. destruct t0 as [ty0 shape0 data0]. cbn in *. subst shape0. unfold stacked. rewrite <- HL. f_equal.
  rewrite <- (concat_rows (length ds) (Tensor.elements sh0) data0) by (rewrite HO; done). f_equal.
  apply list_eq. intros i. rewrite !list_lookup_fmap. destruct (decide (i < length ds)%nat) as [Hi|Hi].
  - rewrite lookup_seq_lt by done. destruct (lookup_lt_is_Some_2 ts i) as [r Hr]; [lia|]. rewrite Hr. cbn. f_equal. pose proof (row_slice _ _ _ (ROW i r Hr)) as E. unfold Sample.sub_slice in E. cbn in E. rewrite decide_True in E by done. by injection E as <-.
  - rewrite (lookup_ge_None_2 ts) by lia. rewrite lookup_seq_ge by lia. done.
Qed.
Lemma rows_sig s ds d : slices_of s ds -> d ∈ ds -> step_sig d = (fun t => (t_ty t, tail (t_shape t))) <$> s.
Proof.
  intros [_ H] [i Hd]%elem_of_list_lookup. destruct (H i d Hd) as [L R]. unfold step_sig. apply list_eq. intros c. rewrite !list_lookup_fmap. destruct (s !! c) as [t|] eqn:Et.
  - destruct (R c t Et) as (r & -> & (n & sh & A1 & _ & A2 & A3 & _)). cbn. by rewrite A1, A2, A3.
  - apply lookup_ge_None in Et. by rewrite lookup_ge_None_2 by lia.
Qed.
Lemma appended_appends ds : appended (appends ds) = ds.
Proof. induction ds as [|d ds IH]; [done|]. cbn. f_equal. exact IH. Qed.

Lemma run_smooth p key tr q tr' : running tr tr' q -> (forall c r, (c, r) ∈ tr' -> is_call c = true -> (exists d, c = LAppend d) \/ exists r', (QBase c, r') ∈ tr) -> q_trace p (q_new p key) tr q -> q_smooth tr -> smooth tr'.
Proof.
  intros R HC _ [H1 H2]. split.
  - intros r ret Hx. destruct (HC _ _ Hx eq_refl) as [[d ?]|[r' Hr]]; [done|]. by destruct (H1 r r').
  - assert (UN : forall b, unrolled (q_returned tr) b -> forall e st, (e, st) ∈ b -> match e with LAppend _ | LFlush => st = Ok | _ => True end).
    { intros b U e st Hx. destruct (unrolled_calls _ _ _ _ U Hx) as [Hy|(s & d & -> & [[Hst Hy]|[-> _]])]; [|by specialize (H2 _ _ Hy)|done]. specialize (H2 _ _ Hy). by destruct e. }
    assert (AP : forall ds e st, (e, st) ∈ appends ds -> match e with LAppend _ | LFlush => st = Ok | _ => True end) by (by intros ds e st (d & [= -> ->] & _)%elem_of_list_fmap).
    unfold running in R. destruct (q_seq q) as [[s i]|]; [|destruct R as [R _]; by apply UN].
    destruct R as (_ & _ & _ & b & ds & _ & _ & R5 & R6). intros e st Hx.
    assert (exists j, returned tr' = b ++ appends (take j ds)) as [j E] by (destruct R6 as [[_ C2]|(j & _ & _ & _ & _ & C4)]; by eexists). rewrite E in Hx. apply elem_of_app in Hx as [Hx|Hx]; [by eapply UN|by eapply AP].
Qed.

(** A sequence of [n] steps is appended and CreateItem is called for [n] steps.  When
    the server has taken the item from the stream, sampling gives the tensors that
    were given to AppendSequence.  The conditions are those of C37_writer_partial. *)
Theorem C94_sampled p key tr q tr1 a s n table prio ikey ret tr2 pre r suf chunks c ii data mt sg : conf_ok p ->
  q_trace p (q_new p key) tr q -> q_smooth tr -> tr = tr1 ++ (QBase (LCreate table n prio ikey), ret) :: tr2 -> ret = None \/ ret = Some Ok ->
  q_returned tr1 = a ++ [(QSeq s, Ok)] -> rows_everywhere (Z.to_nat n) s -> 1 <= n -> (forall st, (QBase LFlush, st) ∉ tr1) -> one_signature sg tr1 ->
  l_wire (q_w q) = pre ++ r :: suf -> async_run (fun _ => true) ∅ pre = Some chunks -> async_insert_request (fun _ => true) chunks r = Some (IInsert c ii data) -> ii_key ii = ikey ->
  exists sm, as_sample_local (mkSampled (mkSinfo mt (ii_traj ii) (replicate (length s) false)) data) = AOk sm /\ as_trajectory sm = SROk (mt, s).
Proof.
  intros Hcf H Hsm Htr Hret Hlast HR Hn Hfl [Hsg1 Hsg2] Hw Hrun Hreq Hkey.
  destruct (q_trace_split _ _ _ _ H _ _ _ _ Htr) as (q1 & q2 & A1 & A2 & A3 & A4).
  destruct (unroll_trace p key Hcf tr1 q1 A1) as (tr1' & T1 & EN1 & R1 & P1).
  destruct (unroll_step p key Hcf tr1 tr1' q1 _ q2 ret T1 EN1 R1 A2 A3) as (l & L1 & L2 & L3 & L4 & L5). destruct (L5 _ eq_refl eq_refl) as [-> L6].
  destruct (unroll_from p key Hcf _ q2 _ L1 L2 L3 tr2 q A4) as (l2 & M1 & M2 & M3 & M4). rewrite <- !app_assoc in M1, M2, M3. cbn [app] in M1, M2, M3.
  assert (M3' : running tr (tr1' ++ (LCreate table n prio ikey, ret) :: l2) q) by (rewrite <- app_assoc in M3; rewrite Htr; exact M3).
  assert (SM : smooth (tr1' ++ (LCreate table n prio ikey, ret) :: l2)).
  { eapply run_smooth; [exact M3'| |exact H|exact Hsm]. intros c0 r0 [Hx|Hx]%elem_of_app Hi.
    - destruct (P1 c0 r0 Hx Hi) as [?|[r' Hr]]; [by left|]. right. exists r'. rewrite Htr. apply elem_of_app. by left.
    - apply elem_of_cons in Hx as [[= -> ->]|Hx]; [right; exists ret; rewrite Htr; apply elem_of_app; right; left|]. destruct (M4 c0 r0 Hx Hi) as [?|[r' Hr]]; [by left|]. right. exists r'. rewrite Htr. apply elem_of_app. right. by right. }
  unfold running in R1. rewrite L6 in R1. destruct R1 as [U1 _]. rewrite Hlast in U1. pose proof U1 as U2. apply unrolled_last in U1 as (b' & ds & Hb & HS & Hne).
  assert (LD : length ds = Z.to_nat n). { destruct HS as [HS _]. destruct s as [|t s]; [done|]. apply Forall_cons in HS as [[x E] _], HR as [[y E'] _]. congruence. }
  assert (HO : Forall tensor_ok s). { destruct (q_trace_ok _ _ _ _ A1) as [HO _]. apply (HO s Ok). rewrite Hlast. apply elem_of_app. right. by apply elem_of_list_singleton. }
  assert (HSG : Forall (fun x => step_sig x = sg) (appended (returned tr1'))).
  { apply Forall_forall. intros x ([e0 st0] & Hx & He)%elem_of_list_omap. destruct e0 as [d0| | | | | | |], st0; try done. injection He as ->.
    destruct (unrolled_calls _ _ _ _ U2 Hx) as [Hy|(s1 & d1 & [= <-] & [[Hst Hy]|(_ & ds1 & st1 & Hy & Hz & Hd)])]; [apply Hsg1; by rewrite Hlast|done|].
    rewrite (rows_sig _ _ _ Hz Hd). apply Hsg2. rewrite Hlast.
    destruct Hsm as [_ Hsm].
    assert (st1 = Ok) as ->; [|exact Hy].
    assert (SUB : forall y, y ∈ q_returned tr1 -> y ∈ q_returned tr).
    { intros y Hy1. rewrite Htr. clear -Hy1. revert Hy1. generalize ((QBase (LCreate table n prio ikey), ret) :: tr2). intros l0 Hy1. induction l0 as [|x0 l0 IH] using List.rev_ind; [by rewrite app_nil_r|]. rewrite app_assoc. unfold q_returned in *. rewrite qcalls_snoc. unfold qret_step.
      destruct x0.2; [|done]. destruct (if is_qcall x0.1 then Some x0.1 else _); [|done]. cbn. apply elem_of_app. by left. }
    rewrite <- Hlast in Hy. by specialize (Hsm _ _ (SUB _ Hy)). }
  assert (Hsgl : length sg = length s). { rewrite <- (Hsg2 s); [by rewrite fmap_length|]. rewrite Hlast. apply elem_of_app. right. by apply elem_of_list_singleton. }
  assert (Hsgn : sg <> []) by (intros ->; by destruct s).
  assert (Hfl' : forall st, (LFlush, st) ∉ tr1'). { intros st Hx. destruct (P1 _ _ Hx eq_refl) as [[d ?]|[r' Hr]]; [done|]. by destruct (Hfl r'). }
  pose proof (C37_writer_partial p key Hcf _ (q_w q) tr1' table n prio ikey ret l2 pre r suf chunks c ii data mt sg M1 SM eq_refl Hret Hfl' Hn Hw Hrun Hreq Hkey HSG Hsgn) as (_ & _ & sm & out & O1 & O2 & O3 & O4).
  rewrite Hsgl in O1. exists sm. split; [exact O1|]. rewrite O2. do 2 f_equal.
  assert (LS : last_steps (Z.to_nat n) (appended (returned tr1')) = ds).
  { rewrite Hb, appended_app, appended_appends. unfold last_steps. rewrite <- LD. rewrite app_length, Nat.add_sub. by rewrite drop_app. }
  rewrite LS in O4. apply list_eq. intros j. destruct (out !! j) as [t|] eqn:Et.
  - destruct (lookup_lt_is_Some_2 s j) as [t0 Ht0]; [apply lookup_lt_Some in Et; lia|]. rewrite Ht0. f_equal. eapply restack; [exact HS| |exact Ht0|by eapply Forall_lookup_1|by apply O4]. intros ->. cbn in LD. lia.
  - apply lookup_ge_None in Et. symmetry. apply lookup_ge_None. lia.
Qed.

(** ** C59 with AppendSequence *)

Theorem C59_sequence_partial p key tr q e : conf_ok p -> q_trace p (q_new p key) tr q -> (forall c, (c, DataLoss) ∉ q_returned tr) -> q_enabled q e -> (forall table prio k, e <> QBase (LCreate table 0 prio k)) ->
  q_step p q e <> QCrash.
Proof.
  intros Hcf H HD He Hz. destruct (unroll_trace p key Hcf tr q H) as (tr' & T & EN & R & _).
  assert (HD' : forall c, (c, DataLoss) ∉ returned tr').
  { intros c Hx. assert (exists b, unrolled (q_returned tr) b /\ (c, DataLoss) ∈ b) as (b & U & Hb).
    { unfold running in R. destruct (q_seq q) as [[s i]|]; [|destruct R as [R _]; by exists (returned tr')]. destruct R as (_ & _ & _ & b & ds & _ & _ & R5 & R6). exists b. split; [done|].
      assert (exists j, returned tr' = b ++ appends (take j ds)) as [j E] by (destruct R6 as [[_ C2]|(j & _ & _ & _ & _ & C4)]; by eexists). rewrite E in Hx. apply elem_of_app in Hx as [Hx|(d & Hx & _)%elem_of_list_fmap]; done. }
    destruct (unrolled_calls _ _ _ _ U Hb) as [Hy|(s & d & _ & [[_ Hy]|[? _]])]; [by apply HD in Hy|by apply HD in Hy|done]. }
  assert (ST : forall e, lw_enabled (q_w q) e -> (forall table prio k, e <> LCreate table 0 prio k) -> lw_step p (q_w q) e <> LCrash) by (intros e0 He0 Hz0; by eapply C59_writer_partial).
  destruct q as [w o]. cbn [q_w q_seq] in *. destruct e as [e|s|]; cbn [q_step q_w q_seq q_enabled] in *.
  - assert (Hz' : forall table prio k, e <> LCreate table 0 prio k) by (intros ? ? ? ->; by eapply Hz). specialize (ST e He Hz'). destruct o as [[s i]|]; [destruct (user_call e); [done|]|]; destruct (lw_step p w e) as [| |w' r]; try done. unfold seq_after. by destruct r as [[]|].
  - destruct o; [done|]. destruct (l_pos w); [|done]. by destruct (seq_accepted s).
  - destruct o as [[s i]|]; [|done]. destruct (l_pos w) eqn:Hp; [|done]. destruct R as (_ & R2 & RO & b & ds & R3 & _). cbn [q_seq] in *. unfold seq_next. assert (Hne : s <> []) by (intros ->; apply R2; by left).
    destruct (rows_accepted (length ds) s Hne (proj1 R3)) as [_ ->]. destruct (Nat.ltb_spec i (length ds)) as [Hi|Hi]; [|done]. destruct (lookup_lt_is_Some_2 ds i Hi) as [d Hd]. rewrite (slice_of _ _ _ _ R3 Hd).
    specialize (ST (LAppend d)). cbn [lw_step lw_enabled] in ST. unfold idle in ST. rewrite Hp in ST. specialize (ST ltac:(eapply slice_ok; [exact RO|exact R3|by eapply elem_of_list_lookup_2]) ltac:(done)). destruct (append p w d) as [| |w' r]; try done. unfold seq_after. by destruct r as [[]|].
Qed.

(** ** Examples *)

Definition q_enabled_b (q : qs) (e : qev) : bool := match e with QBase e => lw_enabled_b (q_w q) e | QSeq s => forallb tensor_ok_b s | QNext => true end.
Lemma q_enabled_sound q e : q_enabled_b q e = true -> q_enabled q e.
Proof. destruct e as [e|s|]; cbn [q_enabled_b q_enabled]; [apply lw_enabled_sound| |done]. intros H. apply Is_true_true, forallb_True in H. eapply Forall_impl; [exact H|]. intros t Ht%Is_true_true. by apply tensor_ok_b_sound. Qed.
Fixpoint q_log (p : lconf) (q : qs) (es : list qev) : option (qs * list (qev * option status)) :=
  match es with
  | [] => Some (q, [])
  | e :: es => if q_enabled_b q e then match q_step p q e with QRes q' r => '(q', l) ← q_log p q' es; Some (q', (e, r) :: l) | _ => None end else None
  end.
Lemma q_log_trace p q0 es : forall tr q q' l, q_trace p q0 tr q -> q_log p q es = Some (q', l) -> q_trace p q0 (tr ++ l) q'.
Proof.
  induction es as [|e es IH]; intros tr q q' l H; cbn [q_log]; [intros [= <- <-]; by rewrite app_nil_r|]. destruct (q_enabled_b q e) eqn:He; [|done].
  destruct (q_step p q e) as [| |q1 r] eqn:E; try done. destruct (q_log p q1 es) as [[q2 l2]|] eqn:El; cbn; [|done]. intros [= <- <-].
  replace (tr ++ (e, r) :: l2) with ((tr ++ [(e, r)]) ++ l2) by (by rewrite <- app_assoc). eapply IH; [|exact El]. econstructor; [exact H|by apply q_enabled_sound|exact E].
Qed.
Definition qrun (p : lconf) (es : list qev) : qs * list (qev * option status) := default (q_new p 100, []) (q_log p (q_new p 100) es).
Lemma qrun_trace p es : q_trace p (q_new p 100) (qrun p es).2 (qrun p es).1.
Proof. unfold qrun. destruct (q_log p (q_new p 100) es) as [[q l]|] eqn:E; [|constructor]. cbn. rewrite <- (app_nil_l l). eapply q_log_trace; [constructor|exact E]. Qed.

(** Three steps of a vector and a matrix. *)
Definition sq_ex : list tensor := [vec [1; 2; 3]; mkTensor (TOther 1) [3; 2]%nat [1; 2; 2; 3; 3; 4]].
Definition qgo (b : Z) (n : nat) : list qev := QBase <$> go b n.
Definition sq_first : list qev := [QBase (LAppend (lstep 9)); QSeq sq_ex; QNext] ++ qgo 200 3 ++ [QNext; QNext] ++ qgo 300 4 ++ [QNext].

(** Chunks of three steps; the stream breaks when the first is written. *)
Definition bad_conf : lconf := mkLconf 3 3 false None None.
Definition sq_bad : list qev := [QBase (LAppend (lstep 9)); QBase (LCreate 6 1 (Fin 1) 41); QSeq sq_ex; QNext; QNext] ++ qgo 200 3 ++ [QBase (LStep false OutLost 300)] ++ qgo 400 2 ++ [QBase (LFinish Internal 500)].
Definition sq_rows : list step := [[scalar 1; vec [1; 2]]; [scalar 2; vec [2; 3]]; [scalar 3; vec [3; 4]]].
Lemma sq_slices : slices_of sq_ex sq_rows.
Proof.
  split; [repeat apply Forall_cons_2; try apply Forall_nil_2; by eexists|]. intros i d Hd. assert (length d = 2%nat) as L by (destruct i as [|[|[|]]]; cbn in Hd; try done; by injection Hd as <-). split; [done|].
  intros c t Ht. assert (HR : exists r, d !! c = Some r /\ Sample.sub_slice t i = Some r).
  { destruct c as [|[|]]; cbn in Ht; try done; injection Ht as <-; destruct i as [|[|[|]]]; cbn in Hd; try done; injection Hd as <-; eexists; (split; [reflexivity|vm_compute; reflexivity]). }
  destruct HR as (r & Hr & E). exists r. split; [done|]. destruct c as [|[|]]; cbn in Ht; try done; injection Ht as <-; vm_compute in E; destruct i as [|[|[|]]]; try done; injection E as <-; eexists _, _; (split; [reflexivity|]); (split; [cbn; lia|]); (split; [done|]); (split; [done|]); (split; [done|]); intros j Hj; cbn in Hj;
    (destruct j as [|[|]]; [reflexivity|first [reflexivity|exfalso; lia]|exfalso; lia]).
Qed.
Lemma sq_splittable : ~ unsplittable sq_ex.
Proof. apply accepted_iff. vm_compute. reflexivity. Qed.

(** Not all or nothing: the second of three slices fails, the first stays appended. *)
Theorem C94_atomic_refuted : ~ (forall p key tr1 q1 tr2 q2 s st, conf_ok p -> q_trace p (q_new p key) tr1 q1 -> q_current tr1 = None -> q_trace p q1 tr2 q2 -> q_returned tr2 = [(QSeq s, st)] -> st <> Ok ->
  l_hist (q_w q2) = l_hist (q_w q1)).
Proof.
  intros H. set (R := qrun bad_conf sq_bad). set (R1 := qrun bad_conf (take 2 sq_bad)). pose proof (qrun_trace bad_conf sq_bad) as T. fold R in T.
  assert (E : R.2 = take 2 R.2 ++ (QSeq sq_ex, None) :: drop 3 R.2) by (vm_compute; reflexivity).
  destruct (q_trace_split _ _ _ _ T _ _ _ _ E) as (q1 & q2 & A1 & A2 & A3 & A4).
  assert (q1 = R1.1) as ->.
  { assert (take 2 R.2 = R1.2) as E1 by (vm_compute; reflexivity). rewrite E1 in A1. pose proof (qrun_trace bad_conf (take 2 sq_bad)) as B1. fold R1 in B1. clear -A1 B1. revert B1. generalize R1.1. induction A1 as [|tr q e q' ret A1 IH He E]; intros q0 B.
    - inversion B as [|tr ? ? ? ? ? ? ? X]; [done|]. by destruct tr.
    - remember (tr ++ [(e, ret)]) as l eqn:El. destruct B as [|tr' w' e' w1' ret' B He' E']; [by destruct tr|]. apply app_inj_2 in El as [-> [= -> ->]]; [|done]. rewrite (IH _ B) in E. congruence. }
  assert (A5 : q_trace bad_conf R1.1 ((QSeq sq_ex, None) :: drop 3 R.2) R.1).
  { clear -A2 A3 A4. change ((QSeq sq_ex, None) :: drop 3 R.2) with ([(QSeq sq_ex, None : option status)] ++ drop 3 R.2). revert A4. generalize (drop 3 R.2), R.1. intros l q A4. induction A4 as [|tr w e w' ret A4 IH He E].
    - rewrite app_nil_r. apply (qt_snoc _ _ [] R1.1); [constructor|done|done].
    - rewrite app_assoc. by econstructor. }
  assert (HH : l_hist (q_w R.1) = l_hist (q_w R1.1)).
  { eapply (H bad_conf 100 (take 2 R.2) R1.1 _ R.1 sq_ex Internal); [split; [cbn; lia|split; [cbn; lia|done]]|exact A1|vm_compute; reflexivity|exact A5|vm_compute; reflexivity|done]. }
  assert (length (l_hist (q_w R.1)) = 2%nat) as L1 by (vm_compute; reflexivity). assert (length (l_hist (q_w R1.1)) = 1%nat) as L2 by (vm_compute; reflexivity). rewrite HH in L1. congruence.
Qed.

(** A sequence over the end of two chunks, after one other step. *)
Example C94_unrolled_example : exists tr q tr', conf_ok (lex_conf (Some 1)) /\ q_trace (lex_conf (Some 1)) (q_new (lex_conf (Some 1)) 100) tr q /\ q_returned tr = [(QBase (LAppend (lstep 9)), Ok); (QSeq sq_ex, Ok)] /\
  lw_trace (lex_conf (Some 1)) (lw_new (lex_conf (Some 1)) 100) tr' (q_w q) /\ returned tr' = (LAppend (lstep 9), Ok) :: appends sq_rows /\ environment tr' = q_environment tr /\ length (environment tr') = 7%nat.
Proof.
  set (R := qrun (lex_conf (Some 1)) sq_first). set (B := lrun (lex_conf (Some 1)) ([LAppend (lstep 9); LAppend (nth 0 sq_rows [])] ++ go 200 3 ++ [LAppend (nth 1 sq_rows []); LAppend (nth 2 sq_rows [])] ++ go 300 4)). exists R.2, R.1, (take 7 B.2 ++ drop 7 B.2).
  assert (HB : lw_trace (lex_conf (Some 1)) (lw_new (lex_conf (Some 1)) 100) B.2 B.1) by apply lrun_trace.
  split; [by apply lex_conf_ok|]. split; [apply qrun_trace|]. split; [vm_compute; reflexivity|]. rewrite take_drop. split.
  { assert (E : q_w R.1 = B.1) by (vm_compute; reflexivity). rewrite E. exact HB. }
  split; [vm_compute; reflexivity|]. split; vm_compute; reflexivity.
Qed.
Example C94_rolled_example : exists tr1 w1 tr2 w2, lw_trace (lex_conf (Some 1)) (lw_new (lex_conf (Some 1)) 100) tr1 w1 /\ current tr1 = None /\ tr1 <> [] /\ ~ unsplittable sq_ex /\ Forall tensor_ok sq_ex /\ slices_of sq_ex sq_rows /\
  lw_trace (lex_conf (Some 1)) w1 tr2 w2 /\ current tr2 = None /\ returned tr2 = appends sq_rows.
Proof.
  set (B := lrun (lex_conf (Some 1)) [LAppend (lstep 9)]).
  set (C := default (B.1, []) (lw_log (lex_conf (Some 1)) B.1 ([LAppend (nth 0 sq_rows [])] ++ go 200 3 ++ [LAppend (nth 1 sq_rows []); LAppend (nth 2 sq_rows [])] ++ go 300 4))).
  exists B.2, B.1, C.2, C.1. split; [apply lrun_trace|]. split; [vm_compute; reflexivity|]. split; [vm_compute; discriminate|]. split; [apply sq_splittable|].
  split. { apply Forall_forall. intros t Ht. apply tensor_ok_b_sound. unfold sq_ex in Ht. apply elem_of_cons in Ht as [-> | Ht]; [vm_compute; reflexivity|]. apply elem_of_list_singleton in Ht as ->. vm_compute. reflexivity. }
  split; [apply sq_slices|]. split; [|split; vm_compute; reflexivity].
  unfold C. destruct (lw_log _ _ _) as [[w l]|] eqn:E; [|exfalso; revert E; vm_compute; discriminate]. cbn [default fst snd]. rewrite <- (app_nil_l l). eapply log_trace; [constructor|exact E].
Qed.
Example C94_sampled_example : exists tr q tr1 ret tr2 pre r suf chunks c ii data, conf_ok (lex_conf (Some 1)) /\
  q_trace (lex_conf (Some 1)) (q_new (lex_conf (Some 1)) 100) tr q /\ q_smooth tr /\ tr = tr1 ++ (QBase (LCreate 5 3 (Fin 1) 42), ret) :: tr2 /\ (ret = None \/ ret = Some Ok) /\
  q_returned tr1 = [(QBase (LAppend (lstep 9)), Ok)] ++ [(QSeq sq_ex, Ok)] /\ rows_everywhere (Z.to_nat 3) sq_ex /\ (forall st, (QBase LFlush, st) ∉ tr1) /\ one_signature [(TOther 1, []); (TOther 1, [2%nat])] tr1 /\
  l_wire (q_w q) = pre ++ r :: suf /\ async_run (fun _ => true) ∅ pre = Some chunks /\ async_insert_request (fun _ => true) chunks r = Some (IInsert c ii data) /\ ii_key ii = 42 /\ lex_sampled (q_w q) 2 = Some sq_ex.
Proof.
  set (R := qrun (lex_conf (Some 1)) (sq_first ++ [QBase (LCreate 5 3 (Fin 1) 42)] ++ qgo 400 6)).
  set (st := store_of (async_insert_request (fun _ => true) (default ∅ (async_run (fun _ => true) ∅ (removelast (l_wire (q_w R.1))))) (default (mkIreq [] None) (last (l_wire (q_w R.1)))))).
  exists R.2, R.1, (take 13 R.2), None, (drop 14 R.2), (removelast (l_wire (q_w R.1))), (default (mkIreq [] None) (last (l_wire (q_w R.1)))), [], (default ∅ (async_run (fun _ => true) ∅ (removelast (l_wire (q_w R.1))))).
  exists st.1.1, (default (mkIitem 0 0 [] [] false) st.1.2), st.2.
  assert (ER : q_returned R.2 = [(QBase (LAppend (lstep 9)), Ok); (QSeq sq_ex, Ok); (QBase (LCreate 5 3 (Fin 1) 42), Ok)]) by (vm_compute; reflexivity).
  assert (ER1 : q_returned (take 13 R.2) = [(QBase (LAppend (lstep 9)), Ok)] ++ [(QSeq sq_ex, Ok)]) by (vm_compute; reflexivity).
  split; [by apply lex_conf_ok|]. split; [apply qrun_trace|]. split.
  { split.
    - intros r ret Hx. assert (forallb (fun x => match x.1 with QBase (LClose _) => false | _ => true end) R.2 = true) as F by (vm_compute; reflexivity). rewrite forallb_forall in F. by specialize (F _ (proj1 (elem_of_list_In _ _) Hx)).
    - rewrite ER. intros e s Hx. repeat (apply elem_of_cons in Hx as [[= -> ->]|Hx]; [done|]). exfalso; exact (proj1 (elem_of_nil _) Hx). }
  split; [vm_compute; reflexivity|]. split; [by left|]. split; [exact ER1|]. split; [repeat apply Forall_cons_2; try apply Forall_nil_2; by eexists|].
  split. { intros s Hx. assert (forallb (fun x => match x.1 with QBase LFlush => false | _ => true end) (take 13 R.2) = true) as F by (vm_compute; reflexivity). rewrite forallb_forall in F. by specialize (F _ (proj1 (elem_of_list_In _ _) Hx)). }
  split. { split; rewrite ER1; intros x Hx; repeat (apply elem_of_cons in Hx as [Hx|Hx]; [first [discriminate Hx|injection Hx as ->; reflexivity]|]); exfalso; exact (proj1 (elem_of_nil _) Hx). }
  split; [vm_compute; reflexivity|]. split; [vm_compute; reflexivity|]. split; [vm_compute; reflexivity|]. split; vm_compute; reflexivity.
Qed.
Example C59_sequence_example : exists tr q, q_trace bad_conf (q_new bad_conf 100) tr q /\ (forall c, (c, DataLoss) ∉ q_returned tr) /\ q_enabled q QNext /\ q_seq q = Some (sq_ex, 1%nat).
Proof.
  set (R := qrun bad_conf (take 4 sq_bad)). exists R.2, R.1. split; [apply qrun_trace|]. assert (ER : (q_returned R.2).*2 = [Ok; Ok]) by (vm_compute; reflexivity). split; [|split; [done|vm_compute; reflexivity]].
  intros c Hx. apply (elem_of_list_fmap_1 snd) in Hx. change (DataLoss ∈ (q_returned R.2).*2) in Hx. rewrite ER in Hx. repeat (apply elem_of_cons in Hx as [Hx|Hx]; [discriminate Hx|]). exfalso; exact (proj1 (elem_of_nil _) Hx).
Qed.

Print Assumptions C94_unrolled.
Print Assumptions C94_rolled.
Print Assumptions C94_sampled.
Print Assumptions C59_sequence_partial.
Print Assumptions C94_atomic_refuted.
