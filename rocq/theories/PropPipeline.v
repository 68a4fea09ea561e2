(** C89: from create_item in Python to the elements of a TrajectoryDataset. *)
From stdpp Require Import strings gmap.
From Verif Require Import Base RateLimiter Selector PyWriter PyWriterProofs PropPyWriter Trajectory Table EventLog TableProofs TableLog SelSpec PropSelectors TableSpec LogFacts PropTable PyConfig PropQueue.
From Verif Require Import Signature PropSignature PyTree PropPyTree.
From Verif Require Import Tensor TrajUtil ChunkerOptions Sample Stream Reactor PropTraj PropSample PropStream PropInsertStream.
From Verif Require Import Writer WriterProofs WriterConf WriterData WriterPlace WriterOwn WriterTrace PropWriter.
From Verif Require Import Chunker PropChunker TrajWriter TrajWriterProofs PropTrajWriter PropChunkKeys PropOrder PropSystem PropSystemAll PyTraj PyTrajProofs PyTrajInv PropPyTraj PropPySystem.
From Verif Require Import SigCheck PropSigCheck Dataset PropDataset PyDataset PropPyDataset.
From Verif Require Import Queue PropBoundedQueue Sampler PropSampler Delivery PropDelivery PropDeliveryTable.
Local Open Scope Z_scope.

(** ** Specification *)

(** create_item was called with the structure of columns [t] and made the item [key]. *)
Definition created (c : client) (key : Z) (t : nest tcol) : Prop := (key, nflatten t) ∈ c_items c.

(** The item comes from a message of one of the clients that names this table. *)
Definition arrives_at (table : Z) (cs : list client) (key : Z) (ch : list Trajectory.chunk) (traj : list (list slice)) : Prop :=
  exists c pre r suf chunks kept ii data, c ∈ cs /\ w_wire (c_cxx c) = pre ++ r :: suf /\ async_run (fun _ => true) ∅ pre = Some chunks /\
    async_insert_request (fun _ => true) chunks r = Some (IInsert kept ii data) /\
    ii_table ii = table /\ key = ii_key ii /\ traj = ii_traj ii /\ Trajectory.ck_key <$> ch = kc_key <$> data.
Definition op_for (table : Z) (cs : list client) (o : op) : Prop :=
  match o with OInsert _ _ it | OInsertWake _ _ it => arrives_at table cs (it_key it) (it_chunks it) (it_traj it) | _ => True end.

(** A client (any state that its user and its threads can bring it to) that has got the
    signatures [mm], and whose items for [table] have the structure [s] and are made of
    indices and slices without a step. *)
Definition writes (mm : gmap Z (option (list Chunker.tspec))) (table : Z) (s : nest sleaf) (c : client) : Prop :=
  (exists top o ep, validate_options o = Ok /\ c_reach top (c_new o (Some mm) ep) c) /\
  forall it cols tcs, (it, cols) ∈ w_created (c_cxx c) -> wi_table it = table -> (wi_key it, tcs) ∈ c_items c ->
    Forall (fun tc => tc_plain tc = true) tcs /\ exists t, tcs = nflatten t /\ shaped s t.

(** The dataset emits the trajectory that create_item was called with: the values that the
    user asked for, each at its place (with tuples for lists). *)
Definition shows (d : pdataset) (cs : list client) (it : item) (o : out) : Prop :=
  exists c t m cols el, c ∈ cs /\ created c (it_key it) t /\ o = OElem (ETraj (m, cols)) /\ m_key m = it_key it /\
    element d cols = Some el /\ tupled wanted t el.

(** The call of the iterator gets the sample [sm] of the table. *)
Definition gets (cs : list client) (sm : sampled) (c : call) : Prop :=
  exists x, as_sample_local (message_of (client_source <$> cs) sm) = AOk x /\ k_pop c = PSample x /\ k_cancel c <> CDuring.

(** ** Proof *)

Lemma writes_ok mm table s cs : Forall (writes mm table s) cs -> Forall source_ok (client_source <$> cs).
Proof. intros H. apply Forall_fmap. eapply Forall_impl; [exact H|]. intros c ((top & o & ep & Ho & Hr) & _). apply client_source_ok. by exists top, o, (Some mm), ep. Qed.

Lemma arrived_sample mm table s cs sm : Forall (writes mm table s) cs -> distinct_keys (client_source <$> cs) -> holds (arrives_at table cs) (sm_item sm) ->
  exists c it t x out, c ∈ cs /\ (it, as_column <$> nflatten t) ∈ w_created (c_cxx c) /\ wi_table it = table /\ created c (it_key (sm_item sm)) t /\ shaped s t /\
    as_sample_local (message_of (client_source <$> cs) sm) = AOk x /\ as_trajectory x = SROk (sample_meta sm, out) /\
    Forall2 (column_value (w_cols (c_cxx c))) (as_column <$> nflatten t) out /\ Forall2 wanted (nflatten t) out.
Proof.
  intros Hcs U (c & pre & r & suf & chunks & kept & ii & data & Hc & Ew & Hrun & Hreq & Htb & Hkey & Htr & Hck). set (ss := client_source <$> cs).
  assert (Hs : client_source c ∈ ss) by (apply elem_of_list_fmap; by exists c). pose proof (proj1 (Forall_forall _ _) Hcs c Hc) as ((top & o & ep & Ho & Hr) & Hst).
  destruct (data_sent ss (client_source c) pre r suf chunks kept ii data Hs Ew Hrun Hreq) as (Hii & K3 & K5).
  assert (Hdata : the_chunk ss <$> (Trajectory.ck_key <$> it_chunks (sm_item sm)) = data).
  { rewrite Hck. clear - U K5. induction K5 as [|kc data H _ IH]; [done|]. rewrite !fmap_cons, IH. f_equal. by apply the_chunk_sent. }
  pose proof (cxx_reach _ _ _ _ _ Hr) as Hw. pose proof (tw_reach_inv _ _ _ _ Ho Hw) as I. pose proof (v_from _ I) as V. rewrite Ew in V.
  apply Forall_app in V as [_ V2]. apply Forall_cons in V2 as [[_ V3] _]. destruct (V3 ii Hii) as (it & cols & Hit & K1 & K2 & _).
  pose proof (v_items _ I) as VI. rewrite Forall_forall in VI. specialize (VI _ Hit). destruct VI as (_ & _ & F2 & _). cbn [fst snd] in F2.
  destruct (ci_created _ _ (reach_cinv _ _ _ _ _ Ho Hr) it cols Hit) as (tcs & -> & Hin).
  destruct (Hst it (as_column <$> tcs) tcs Hit ltac:(congruence) Hin) as (Hp & t & -> & Hsh).
  destruct (C85_item_partial _ _ _ _ _ _ _ Ho Hr Hin Hp) as (_ & Hct & Hv).
  assert (Hsq : the_squeeze ss (it_key (sm_item sm)) (length (ii_traj ii)) = snd <$> (as_column <$> nflatten t)).
  { rewrite Hkey, K1, <- F2. apply (the_squeeze_created ss (it, as_column <$> nflatten t) _ U). unfold created_of. apply elem_concat. exists (w_created (c_cxx c)).
    split; [|done]. apply elem_of_list_fmap. by exists (client_source c). }
  destruct (C39_trajectory_partial o (Some mm) ep Ho (c_cxx c) pre r suf chunks kept ii data it (as_column <$> nflatten t) (sample_meta sm) Hw Ew Hrun Hreq Hit K1 Hct) as (_ & x & out & A1 & A2 & A3).
  exists c, it, t, x, out. split; [done|]. split; [done|]. split; [congruence|]. split; [unfold created; by rewrite Hkey, K1|]. split; [done|].
  split; [unfold message_of; fold ss; by rewrite Hdata, Htr, Hsq|]. split; [done|]. split; [done|]. by apply Hv.
Qed.

Section WithFP.
Context {fp : FP} {laws : FPLaws fp}.
Context (dt : Z -> dty) (sh : list Z -> pshape).
Context (mm : gmap Z (option (list Chunker.tspec))) (table : Z) (s : nest sleaf) (d : pdataset) (es : list Signature.tspec) (o : dopts).
Context (HW : nwf s) (HA : all_specs s) (Hd : from_table_signature dt sh PTrajectory o (Some (Some s)) = Some d).
Context (He : flat_signature_top (sv_of s) = Some es) (Hm : mm !! table = Some (Some (List.map (flat_spec dt sh) es))).

(** Whatever the table hands out, the dataset that was made from the signature of the table emits;
    nothing is refused. *)
Theorem C89_element cs cf os rs t sm : Forall (writes mm table s) cs -> distinct_keys (client_source <$> cs) -> reached cf os rs t -> Forall (op_for table cs) os -> sm ∈ all_samples rs ->
  exists x, as_sample_local (message_of (client_source <$> cs) sm) = AOk x /\
    forall f it c, k_pop c = PSample x -> k_cancel c <> CDuring ->
    exists out, get_next (pd_kind d) (Some (info_specs ++ List.map (flat_spec dt sh) es)) f it c = (out, it) /\ shows d cs (sm_item sm) out.
Proof.
  intros Hcs U Hr Ho Hsm. pose proof (samples_hold (arrives_at table cs) cf os rs t Hr Ho) as H. rewrite Forall_forall in H. specialize (H sm Hsm).
  destruct (arrived_sample mm table s cs sm Hcs U H) as (c & it & tt & x & out & Hc & Hit & Htb & Hcr & Hsh & A1 & A2 & A3 & A4). exists x. split; [done|]. intros f i cl Hp Hn.
  destruct (from_made dt sh PTrajectory o s d HW HA Hd) as ((Hk & _) & _). rewrite Hk. cbn [op_kind get_next]. rewrite Hp.
  assert (get_next_trajectory (Some (info_specs ++ List.map (flat_spec dt sh) es)) x = GOk (sample_meta sm, out)) as ->.
  { apply (C69_trajectory _ x (sample_meta sm) out A2). pose proof (proj1 (Forall_forall _ _) Hcs c Hc) as ((top & o' & ep & Ho' & Hr') & _).
    destruct (C58_signature o' (Some mm) ep Ho' (c_cxx c) mm it (as_column <$> nflatten tt) out (cxx_reach _ _ _ _ _ Hr') eq_refl Hit A3) as (osig & B1 & B2).
    rewrite Htb, Hm in B1. injection B1 as <-. specialize (B2 _ eq_refl). split; [|exact B2]. rewrite app_length, (Forall2_length _ _ _ B2). done. }
  destruct (C88_places dt sh PTrajectory o s d tt wanted out HW HA Hd Hsh A4) as (el & E1 & E2).
  eexists. split; [reflexivity|]. exists c, tt, (sample_meta sm), out, el. split; [done|]. split; [done|]. split; [|done]. by destruct (k_cancel cl).
Qed.

(** These samples are what a worker of the Sampler gets from the stream, however the server
    divides them into messages. *)
Theorem C89_fetched cs cf os rs t sms gs msgs : Forall (writes mm table s) cs -> distinct_keys (client_source <$> cs) -> reached cf os rs t -> Forall (op_for table cs) os -> Forall (fun sm => sm ∈ all_samples rs) sms ->
  let ss := client_source <$> cs in Forall2 carries gs (message_of ss <$> sms) -> concat msgs = concat gs -> Forall (fun r : response => r <> []) msgs ->
  fetch_request (length sms) [] [] msgs = FDone (as_sample_local <$> (message_of ss <$> sms)) [].
Proof.
  intros Hcs U Hr Ho Hin ss Hc Hx Hne. assert (Ho' : Forall (op_from ss) os).
  { assert (G : forall it, arrives_at table cs (it_key it) (it_chunks it) (it_traj it) -> comes_from ss it).
    { intros it (c & pre & r & suf & chunks & kept & ii & data & Hcc & Ew & H1 & H2 & _ & H3 & H4 & H5). exists (client_source c), pre, r, suf, chunks, kept, ii, data. split; [apply elem_of_list_fmap; by exists c|done]. }
    eapply Forall_impl; [exact Ho|]. intros op Hop. destruct op; cbn in *; try done; by apply G. }
  pose proof (samples_hold (came_from ss) cf os rs t Hr Ho') as H. assert (H' : Forall (fun sm => holds (came_from ss) (sm_item sm)) sms).
  { eapply Forall_impl; [exact Hin|]. intros sm Hsm. rewrite Forall_forall in H. by apply H. }
  destruct (came_samples ss sms (writes_ok _ _ _ _ Hcs) U H') as [H1 _]. rewrite <- (fmap_length (message_of ss) sms). by eapply C42_client.
Qed.

(** A run of the iterator: one element for every sample, in the same order. *)
Theorem C89_run cs cf os rs t sms calls f it : Forall (writes mm table s) cs -> distinct_keys (client_source <$> cs) -> reached cf os rs t -> Forall (op_for table cs) os ->
  Forall (fun sm => sm ∈ all_samples rs) sms -> Forall2 (gets cs) sms calls ->
  Forall2 (shows d cs) (sm_item <$> sms) (it_run (pd_kind d) (Some (info_specs ++ List.map (flat_spec dt sh) es)) f it calls).1.
Proof.
  intros Hcs U Hr Ho Hin Hg. revert it. induction Hg as [|sm c sms calls (x & Hx & Hp & Hn) Hg IH]; intros it; [constructor|]. apply Forall_cons in Hin as [Hsm Hin].
  destruct (C89_element cs cf os rs t sm Hcs U Hr Ho Hsm) as (x' & Hx' & HG). rewrite Hx in Hx'. injection Hx' as <-. destruct (HG f it c Hp Hn) as (out & E & HS).
  cbn [it_run]. rewrite E. specialize (IH Hin it). destruct (it_run _ _ f it calls) as [outs it2]. cbn [fst] in *. constructor; [exact HS|exact IH].
Qed.

(** With a table that has max_times_sampled, whatever Samplers with whatever workers
    there are: an item that was inserted once is in at most that many elements. *)
Theorem C89_max_times cs cf os rs t k len cl evs y calls f it : Forall (writes mm table s) cs -> distinct_keys (client_source <$> cs) -> (forall x, (0 < len x)%nat) -> reached cf os rs t -> Forall fresh_op os -> Forall (op_for table cs) os ->
  0 < c_max_times cf -> (inserted k (t_log t) <= 1)%nat -> samplers_new cl -> y_run len (mkDsys cl []) evs = Some y -> y_given y = all_samples rs ->
  Forall2 (gets cs) (delivered y) calls ->
  Z.of_nat (length (List.filter (fun o => match o with OElem (ETraj (m, _)) => m_key m =? k | _ => false end) (it_run (pd_kind d) (Some (info_specs ++ List.map (flat_spec dt sh) es)) f it calls).1)) <= c_max_times cf.
Proof.
  intros Hcs U Hlen Hr Hfr Ho Hmax Hi Hn Hy Hgv Hg. pose proof (C86_max_times cf os rs t k len cl evs y Hlen Hr Hfr Hmax Hi Hn Hy Hgv) as HM.
  assert (Hin : Forall (fun sm => sm ∈ all_samples rs) (delivered y)).
  { pose proof (C86_once len Hlen cl evs y Hn Hy) as Hsub. rewrite Hgv in Hsub. apply Forall_forall. intros sm Hsm. eapply elem_of_submseteq; [exact Hsm|exact Hsub]. }
  pose proof (C89_run cs cf os rs t (delivered y) calls f it Hcs U Hr Ho Hin Hg) as HF. etransitivity; [|exact HM]. apply Nat2Z.inj_le. unfold deliveries. revert HF. generalize (delivered y), (it_run (pd_kind d) (Some (info_specs ++ List.map (flat_spec dt sh) es)) f it calls).1. clear.
  intros sms outs H. rewrite Forall2_fmap_l in H. induction H as [|sm out sms outs (c & tt & m & cols & el & _ & _ & -> & Hk & _) _ IH]; [done|]. cbn. rewrite Hk. destruct (Z.eqb_spec (it_key (sm_item sm)) k) as [E|E]; [rewrite bool_decide_true by done; cbn; lia|]. rewrite bool_decide_false by done. exact IH.
Qed.

(** Table.queue, one Sampler with one worker whose samples the dataset gets, and nothing fails:
    the elements are the trajectories in the order in which they were inserted, none
    twice, none left out. *)
Theorem C89_queue cs n cf os outs q rs t len maxs ps nw k evs smp calls f it : Forall (writes mm table s) cs -> distinct_keys (client_source <$> cs) -> (forall x, (0 < len x)%nat) -> py_table_queue n = Some cf ->
  cfg_ok cf -> Forall (op_ok cf) os -> Forall fresh_op os -> Forall PropQueue.no_reset os -> box_run false n [] false os = Some (outs, q) -> Table.run (new_table cf) os = Some (rs, t) -> Forall (op_for table cs) os ->
  valid_options maxs ps nw [k] -> r_run len (r_new maxs ps nw [k]) evs = Some smp -> r_given smp = all_samples rs ->
  one_caller len (r_new maxs ps nw [k]) evs -> Forall (fun e => undisturbed e = true) evs -> Forall2 (gets cs) (h_returned (r_p smp)) calls ->
  let elems := (it_run (pd_kind d) (Some (info_specs ++ List.map (flat_spec dt sh) es)) f it calls).1 in
  Forall2 (shows d cs) (take (length elems) (PropQueue.accepted os rs)) elems /\
  (length (PropQueue.accepted os rs) = length elems + length (held smp) + length q)%nat.
Proof.
  intros Hcs U Hlen Hc Hcf Hok Hfr Hnr Hb E Ho Hv Hs Hgv Hone Hu Hg elems.
  pose proof (C86_queue_order n cf os outs q rs t len maxs ps nw k evs smp Hlen Hc Hok Hfr Hnr Hb E Hv Hs Hgv Hone Hu) as HQ.
  assert (Hin : Forall (fun sm => sm ∈ all_samples rs) (h_returned (r_p smp))).
  { apply Forall_forall. intros sm Hsm. destruct (C86_order len Hlen maxs ps nw k evs smp Hv Hone Hs) as [Hsub _]. rewrite Hgv in Hsub. eapply elem_of_submseteq; [exact Hsm|]. by apply sublist_submseteq. }
  assert (Hr : reached cf os rs t) by (by split).
  pose proof (C89_run cs cf os rs t _ calls f it Hcs U Hr Ho Hin Hg) as HF. fold elems in HF. pose proof (Forall2_length _ _ _ HF) as HL. split.
  - assert (HT : handed_out <$> take (length elems) (PropQueue.accepted os rs) = sm_item <$> h_returned (r_p smp)).
    { rewrite fmap_take, HQ, <- HL. apply take_app. }
    rewrite <- HT in HF. rewrite Forall2_fmap_l in HF. eapply Forall2_impl; [exact HF|]. intros x y H. exact H.
  - apply (f_equal length) in HQ. rewrite !app_length, !fmap_length in HQ. rewrite fmap_length in HL. lia.
Qed.
End WithFP.

(** ** Example *)

Local Existing Instance fp_exact.
Local Existing Instance fp_exact_laws.
Local Existing Instance fp_exact_exact.

(** The signature of table 5, and a user who appends three steps with the values "a" and
    "b" and makes two items: all values of "a" so far, and the last one of "b". *)
Definition pl_sig : nest sleaf := NDict [("y"%string, NLeaf (LSpec "" 1 [])); ("x"%string, NLeaf (LSpec "" 1 [-1]))].
Definition pl_sigs : gmap Z (option (list Chunker.tspec)) := default ∅ ex_sigs.
Definition pl_run : list xev :=
  [XAppend (ab (scalar 1) (scalar 10)) false 1100] ++ xcols 3 1110 ++
  [XAppend (ab (scalar 2) (scalar 20)) false 1200] ++ xcols 3 1210 ++
  [XTake [PStr "a"] (SSlice None None 1); XTake [PStr "b"] (SIdx (-1)); XCreate 5 (Fin 1) [0; 1]%nat 70] ++
  [XAppend (ab (scalar 3) (scalar 30)) false 1300] ++ xcols 3 1310 ++
  [XTake [PStr "a"] (SSlice None None 1); XTake [PStr "b"] (SIdx (-1)); XCreate 5 (Fin 1) [2; 3]%nat 71; XFlush 0 1700; XRun (SEv EStart)] ++ xsend 4 ++ xsend 5.
Definition pl_client : client := x_after false pl_run.
Definition pl_ds : pdataset := default (mkPds DTrajectory [] [] (NList [])) (from_table_signature dt1 sh1 PTrajectory opts1 (Some (Some pl_sig))).
Definition pl_flat : list Signature.tspec := default [] (flat_signature_top (sv_of pl_sig)).
Definition pl_ops : list op := [OInsert (1, 0) d0 (the_item (client_source pl_client) 0); OInsert (2, 0) d0 (the_item (client_source pl_client) 1); OSample 1 ds0; OSample 1 ds0].
Definition pl_samples : list sampled := match Table.run (new_table dq_cfg) pl_ops with Some (rs, _) => all_samples rs | None => [] end.
Definition pl_events : list (rev sampled) :=
  [RRun (NWorker 0 VStep); RRun (NWorker 0 VStep)] ++
  concat (List.map (fun sm => [RGive 0 [sm] false; RRun (NWorker 0 VStep); RRun (NWorker 0 VStep); RRun NPop; RRun (NReturn 0 true)]) pl_samples).
Definition pl_calls : list call :=
  List.map (fun sm => mkCall (match as_sample_local (message_of (client_source <$> [pl_client]) sm) with AOk x => PSample x | _ => PTimeout end) CNot) pl_samples.

Lemma pl_wf : nwf pl_sig.
Proof. unfold pl_sig. repeat first [constructor|apply Forall_cons_2|apply Forall_nil_2]; cbn; try (by intros ?%elem_of_nil). by intros [[=]|?%elem_of_nil]%elem_of_cons. Qed.
Lemma pl_writes : writes pl_sigs 5 pl_sig pl_client.
Proof.
  split; [exists false, ex_opts, 7; split; [done|exact (x_after_reach false pl_run)]|]. intros it cols tcs _ _ Hin.
  assert (F : forallb (fun x : Z * list tcol => match snd x with [a; b] => tc_plain a && tc_plain b | _ => false end) (c_items pl_client) = true) by (vm_compute; reflexivity).
  rewrite forallb_forall in F. apply elem_of_list_In in Hin. specialize (F _ Hin). cbn [snd] in F. destruct tcs as [|a [|b [|]]]; try discriminate F. apply andb_true_iff in F as [Fa Fb].
  split; [by repeat constructor|]. exists (NDict [("x"%string, NLeaf a); ("y"%string, NLeaf b)]). split; [reflexivity|].
  apply (nr_dict _ _ _ [("y"%string, NLeaf b); ("x"%string, NLeaf a)]); [apply perm_swap|]. repeat constructor.
Qed.
Lemma pl_distinct : distinct_keys (client_source <$> [pl_client]).
Proof.
  split; [|split].
  - assert (N : NoDup (kc_key <$> chunks_of (client_source <$> [pl_client]))) by (apply (bool_decide_unpack _); vm_compute; exact I). intros a b Ha Hb E. by eapply NoDup_fmap_eq.
  - assert (N : NoDup ((fun p => wi_key p.1) <$> created_of (client_source <$> [pl_client]))) by (apply (bool_decide_unpack _); vm_compute; exact I).
    intros p q Hp Hq E. f_equal. f_equal. by eapply (NoDup_fmap_eq (fun p => wi_key p.1)).
  - intros x p Hs Hp Ho. apply elem_of_list_singleton in Hs as ->. exact Ho.
Qed.
Lemma arrival_at c j it : arrival (client_source c) j = Some it -> (match w_wire (c_cxx c) !! j with Some r => match ir_item r with Some ii => ii_table ii =? 5 | None => false end | None => false end) = true ->
  arrives_at 5 [c] (it_key it) (it_chunks it) (it_traj it).
Proof.
  unfold arrival. cbn [source_wire client_source]. destruct (w_wire (c_cxx c) !! j) as [r|] eqn:Er; [|done]. cbn [mbind option_bind]. destruct (async_run _ _ _) as [chunks|] eqn:Ec; [|done]. cbn [mbind option_bind].
  destruct (async_insert_request _ _ _) as [[|k ii data|]|] eqn:E; try done. intros [= <-] Ht. exists c, (take j (w_wire (c_cxx c))), r, (drop (S j) (w_wire (c_cxx c))), chunks, k, ii, data.
  split; [by left|]. split; [symmetry; by apply take_drop_middle|]. split; [done|]. split; [done|]. split.
  { destruct (data_sent [client_source c] (client_source c) (take j (w_wire (c_cxx c))) r (drop (S j) (w_wire (c_cxx c))) chunks k ii data) as [Hii _]; [by left|symmetry; by apply take_drop_middle|done|done|]. rewrite Hii in Ht. by apply Z.eqb_eq. }
  split; [done|]. split; [done|]. cbn [it_chunks PropSystem.item_of]. by rewrite <- list_fmap_compose.
Qed.
Lemma pl_for : Forall (op_for 5 [pl_client]) pl_ops.
Proof.
  assert (G : forall j, match arrival (client_source pl_client) j with Some _ => match w_wire (c_cxx pl_client) !! j with Some r => match ir_item r with Some ii => ii_table ii =? 5 | None => false end | None => false end | None => false end = true ->
    op_for 5 [pl_client] (OInsert (1, 0) d0 (the_item (client_source pl_client) j))).
  { intros j. unfold the_item. destruct (arrival (client_source pl_client) j) as [it|] eqn:E; [|discriminate 1]. intros H. cbn [op_for default]. by eapply arrival_at. }
  unfold pl_ops. apply Forall_cons; split; [apply (G 0%nat); vm_compute; reflexivity|]. apply Forall_cons; split; [apply (G 1%nat); vm_compute; reflexivity|]. by repeat constructor.
Qed.

(** All assumptions of C89_queue hold, and these are the elements. *)
Example C89_example : exists outs q rs t s, let elems := (it_run (pd_kind pl_ds) (Some (info_specs ++ List.map (flat_spec dt1 sh1) pl_flat)) true i_new pl_calls).1 in
  Forall (writes pl_sigs 5 pl_sig) [pl_client] /\ distinct_keys (client_source <$> [pl_client]) /\ nwf pl_sig /\ all_specs pl_sig /\
  from_table_signature dt1 sh1 PTrajectory opts1 (Some (Some pl_sig)) = Some pl_ds /\ flat_signature_top (sv_of pl_sig) = Some pl_flat /\ pl_sigs !! 5 = Some (Some (List.map (flat_spec dt1 sh1) pl_flat)) /\
  py_table_queue 2 = Some dq_cfg /\ cfg_ok dq_cfg /\ Forall (op_ok dq_cfg) pl_ops /\ Forall fresh_op pl_ops /\ Forall PropQueue.no_reset pl_ops /\
  box_run false 2 [] false pl_ops = Some (outs, q) /\ Table.run (new_table dq_cfg) pl_ops = Some (rs, t) /\ Forall (op_for 5 [pl_client]) pl_ops /\ valid_options (-1) (-1) 1 [KLocal 8] /\
  r_run dq_len dq_new pl_events = Some s /\ r_given s = all_samples rs /\ one_caller dq_len dq_new pl_events /\ Forall (fun e => undisturbed e = true) pl_events /\
  Forall2 (gets [pl_client]) (h_returned (r_p s)) pl_calls /\
  List.map (fun o => match o with OElem e => element pl_ds (elem_cols e) | _ => None end) elems =
    [Some (NDict [("y"%string, NLeaf (scalar 20)); ("x"%string, NLeaf (vec [1; 2]))]); Some (NDict [("y"%string, NLeaf (scalar 30)); ("x"%string, NLeaf (vec [1; 2; 3]))])].
Proof.
  eexists _, _, _, _, _. cbv zeta. split; [apply Forall_cons; split; [exact pl_writes|constructor]|]. split; [exact pl_distinct|]. split; [exact pl_wf|]. split; [vm_compute; reflexivity|].
  split; [vm_compute; reflexivity|]. split; [vm_compute; reflexivity|]. split; [vm_compute; reflexivity|]. split; [reflexivity|]. split; [by repeat constructor|]. split; [vm_compute; ops_ok|]. split; [vm_compute; by repeat constructor|]. split; [by repeat constructor|].
  split; [vm_compute; reflexivity|]. split; [vm_compute; reflexivity|]. split; [exact pl_for|]. split; [by repeat constructor; left|]. split; [vm_compute; reflexivity|]. split; [vm_compute; reflexivity|].
  split; [vm_compute; repeat split|]. split; [vm_compute; by repeat constructor|]. split; [|vm_compute; reflexivity].
  vm_compute. repeat constructor; (eexists; split; [reflexivity|]; split; [reflexivity|discriminate]).
Qed.

Print Assumptions C89_element.
Print Assumptions C89_fetched.
Print Assumptions C89_run.
Print Assumptions C89_max_times.
Print Assumptions C89_queue.
