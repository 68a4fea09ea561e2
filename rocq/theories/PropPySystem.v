(** C85, end to end: what a user of the Python TrajectoryWriter appends is what is
    sampled. *)
From stdpp Require Import strings gmap.
From Verif Require Import Base RateLimiter Selector PyWriter PyWriterProofs PropPyWriter Trajectory Table EventLog TableProofs TableLog SelSpec PropSelectors TableSpec LogFacts PropTable.
From Verif Require Import Tensor TrajUtil ChunkerOptions Sample Stream Reactor PropTraj PropSample PropStream PropInsertStream.
From Verif Require Import Writer WriterProofs WriterConf WriterData WriterPlace WriterOwn WriterTrace PropWriter.
From Verif Require Import TableWorker TableWorkerProofs TableWorkerSerial PropTableWorker.
From Verif Require Import Chunker PropChunker TrajWriter TrajWriterProofs PropTrajWriter PropChunkKeys PropOrder PropSystem PropSystemAll PyTraj PyTrajProofs PyTrajInv PropPyTraj.
Local Open Scope Z_scope.

(** A client whose C++ writer was made with valid options. *)
Definition client_ok (c : client) : Prop := exists top o sigs ep, validate_options o = Ok /\ c_reach top (c_new o sigs ep) c.

(** The sample [a] of [sm] holds what the user of [c] asked for with create_item. *)
Definition as_asked (c : client) (sm : sampled) (a : assembled) : Prop :=
  exists tcs, (it_key (sm_item sm), tcs) ∈ c_items c /\
    (Forall (fun tc => tc_plain tc = true) tcs ->
     exists x out, a = AOk x /\ as_trajectory x = SROk (sample_meta sm, out) /\ Forall2 wanted tcs out).

Definition client_source (c : client) : source := STraj (c_cxx c).
Lemma client_source_ok c : client_ok c -> source_ok (client_source c).
Proof. intros (top & o & sigs & ep & Ho & Hr). exists o, sigs, ep. split; [done|]. by eapply cxx_reach. Qed.
Lemma written_asked c sm a : client_ok c -> written_by (client_source c) sm a -> as_asked c sm a.
Proof.
  intros (top & o & sigs & ep & Ho & Hr) (it & cols & Hin & Hk & H). destruct (ci_created _ _ (reach_cinv _ _ _ _ _ Ho Hr) it cols Hin) as (tcs & -> & Hit).
  exists tcs. rewrite <- Hk. split; [done|]. intros Hp. destruct (C85_item_partial _ _ _ _ _ _ _ Ho Hr Hit Hp) as (_ & Hc & Hv).
  destruct (H Hc) as (x & out & -> & Hx & Ho'). exists x, out. split; [done|]. split; [done|]. by apply Hv.
Qed.

Section WithFP.
Context {fp : FP} {laws : FPLaws fp}.

Lemma sources_asked cs rest sms got : Forall client_ok cs -> Forall2 (written ((client_source <$> cs) ++ rest)) sms got ->
  Forall2 (fun sm a => (exists c, c ∈ cs /\ as_asked c sm a) \/ exists s, s ∈ rest /\ written_by s sm a) sms got.
Proof.
  intros Hcs H. eapply Forall2_impl; [exact H|]. intros sm a (s & [(c & -> & Hc)%elem_of_list_fmap|Hs]%elem_of_app & Hw); [left|right; by exists s].
  exists c. split; [done|]. rewrite Forall_forall in Hcs. apply written_asked; [by apply Hcs|exact Hw].
Qed.

(** From [append] to the sample, for any number of Python TrajectoryWriters beside
    other writers. *)
Theorem C85_partial cs rest cf os rs t sms gs msgs : Forall client_ok cs -> Forall source_ok rest ->
  let ss := (client_source <$> cs) ++ rest in
  distinct_keys ss -> reached cf os rs t -> Forall (op_from ss) os -> Forall (fun sm => sm ∈ all_samples rs) sms ->
  Forall2 carries gs (message_of ss <$> sms) -> concat msgs = concat gs -> Forall (fun r : response => r <> []) msgs ->
  exists got, fetch_request (length sms) [] [] msgs = FDone got [] /\
    Forall2 (fun sm a => (exists c, c ∈ cs /\ as_asked c sm a) \/ exists s, s ∈ rest /\ written_by s sm a) sms got.
Proof.
  intros Hcs Hrest ss U Hr Ho Hs Hg He Hm. destruct (C73_all_partial ss cf os rs t sms gs msgs) as (got & H1 & H2); try done.
  { apply Forall_app. split; [|done]. apply Forall_fmap. eapply Forall_impl; [exact Hcs|]. intros c. apply client_source_ok. }
  exists got. split; [done|]. by apply sources_asked.
Qed.

(** The same for tables with a worker. *)
Theorem C85_worker_partial cs rest n cf now0 tr w i st sms gs msgs : Forall client_ok cs -> Forall source_ok rest ->
  let ss := (client_source <$> cs) ++ rest in
  distinct_keys ss -> cfg_ok cf -> wk_trace (accepted cf) n (wk_new (new_table cf) now0) tr w -> Forall (comes_from ss) (arrivals tr) ->
  (i, st, sms) ∈ answers tr ->
  Forall2 carries gs (message_of ss <$> sms) -> concat msgs = concat gs -> Forall (fun r : response => r <> []) msgs ->
  exists got, fetch_request (length sms) [] [] msgs = FDone got [] /\
    Forall2 (fun sm a => (exists c, c ∈ cs /\ as_asked c sm a) \/ exists s, s ∈ rest /\ written_by s sm a) sms got.
Proof.
  intros Hcs Hrest ss U Hcf Ht Ha Hans Hg He Hm. destruct (C73_worker_partial ss n cf now0 tr w i st sms gs msgs) as (got & H1 & H2); try done.
  { apply Forall_app. split; [|done]. apply Forall_fmap. eapply Forall_impl; [exact Hcs|]. intros c. apply client_source_ok. }
  exists got. split; [done|]. by apply sources_asked.
Qed.
End WithFP.

(** ** Runs *)

Inductive xev :=
| XAppend (d : ptree (option tensor)) (partial : bool) (b : Z)
| XTake (p : ppath) (s : sel)
| XSub (i : nat) (s : sel)
| XCreate (table : Z) (prio : dbl) (cols : list nat) (key : Z)
| XFlush (n b : Z)
| XEnd (clear : bool) (b : Z)
| XConfigure (p : ppath) (o : copts) (ok : bool)
| XRun (e : PropTrajWriter.sev).
Definition xev_event (x : xev) : cev :=
  match x with
  | XAppend d partial b => CAppend d partial (nkf b) | XTake p s => CTake p s | XSub i s => CSub i s | XCreate t p cols key => CCreate t p cols key
  | XFlush n b => CFlush n (nkf b) | XEnd clear b => CEnd clear (nkf b) | XConfigure p o ok => CConfigure p o ok | XRun e => CRun (sev_event e)
  end.
(** Bare values and dictionaries of them. *)
Definition flat_tree_b (d : ptree (option tensor)) : bool :=
  match d with
  | PLeaf _ => true
  | PDict l => bool_decide (NoDup (fst <$> l)) && forallb (fun kt => match snd kt with PLeaf _ => true | _ => false end) l
  | _ => false
  end.
Definition xok (top : bool) (c : client) (x : xev) : bool :=
  match x with
  | XAppend d _ b => flat_tree_b d && Bool.eqb (is_leaf d) top && (match flat d with [] => false | _ => true end) && fresh_from_b (c_cxx c) b &&
      forallb (fun pa => match snd pa with Some t => tensor_ok_b t | None => true end) (flat d)
  | XCreate _ _ _ key => bool_decide (key ∉ ((fun p => wi_key p.1) <$> w_created (c_cxx c)))
  | XFlush _ b => fresh_from_b (c_cxx c) b
  | XEnd _ b => match ep_cur (ep_of (c_log c)) with None => true | Some _ => false end && fresh_from_b (c_cxx c) b
  | XRun e => tw_enabled_b (c_cxx c) e
  | _ => true
  end.
Fixpoint x_script (top : bool) (c : client) (es : list xev) : option client :=
  match es with
  | [] => Some c
  | x :: es => if xok top c x then c ← c_step c (xev_event x); x_script top c es else None
  end.

Lemma flat_tree_sound d : flat_tree_b d = true -> wf_tree d.
Proof.
  destruct d as [a|l|l|l]; try done; [constructor|]. cbn. intros [H1%bool_decide_eq_true H2]%andb_true_iff. constructor; [done|].
  rewrite forallb_forall in H2. apply Forall_forall. intros kt Hk%elem_of_list_In. specialize (H2 kt Hk). destruct (snd kt); try done. constructor.
Qed.
Lemma xok_sound top c x : xok top c x = true -> c_enabled top c (xev_event x).
Proof.
  assert (K : forall b, fresh_from_b (c_cxx c) b = true -> fresh_keys (c_cxx c) (nkf b)).
  { intros b Hb. split; [intros i; apply (fresh_from_sound _ b _ Hb); unfold nkf; lia|]. intros i j. unfold nkf. lia. }
  destruct x as [d partial b|p s|i s|t p cols key|n b|clear b|p o ok|e]; cbn [xok xev_event c_enabled]; try done.
  - intros [[[[H1%flat_tree_sound H2%Bool.eqb_prop]%andb_true_iff H3]%andb_true_iff H4]%andb_true_iff H5]%andb_true_iff. split; [done|]. split; [done|]. split; [|split; [by apply K|]].
    + destruct (flat d) as [|[p a] l] eqn:Ef; [done|]. exists p, a. apply flat_spec; [done|]. rewrite Ef. apply elem_of_list_here.
    + intros p t Ht. unfold value_at in Ht. destruct (at_path d p) as [v|] eqn:Ea; [|done]. cbn in Ht. subst v. apply flat_spec in Ea; [|done].
      rewrite forallb_forall in H5. apply elem_of_list_In in Ea. specialize (H5 _ Ea). cbn in H5. by apply tensor_ok_b_sound.
  - by intros H%bool_decide_eq_true.
  - apply K.
  - intros [H1 H2]%andb_true_iff. split; [by destruct (ep_cur _)|by apply K].
  - apply tw_enabled_sound.
Qed.
Lemma x_script_reach top c0 es : forall c c', c_reach top c0 c -> x_script top c es = Some c' -> c_reach top c0 c'.
Proof.
  induction es as [|x es IH]; intros c c' H; cbn [x_script]; [by intros [= <-]|]. destruct (xok top c x) eqn:Hx; [|done].
  destruct (c_step c (xev_event x)) as [c1|] eqn:E; [|done]. cbn [mbind option_bind]. apply IH. eapply cr_step; [exact H|by apply xok_sound|exact E].
Qed.
Definition x_after (top : bool) (es : list xev) : client := default (c_new ex_opts ex_sigs 7) (x_script top (c_new ex_opts ex_sigs 7) es).
Lemma x_after_reach top es : c_reach top (c_new ex_opts ex_sigs 7) (x_after top es).
Proof. unfold x_after. destruct (x_script _ _ es) as [c|] eqn:E; [|constructor]. eapply x_script_reach; [constructor|exact E]. Qed.
Lemma x_after_ok top es : client_ok (x_after top es).
Proof. exists top, ex_opts, ex_sigs, 7. split; [done|apply x_after_reach]. Qed.

(** Steps with two values.  The second call of append fails: the value for "b" has
    another shape than the one before.  The value for "a" is in the C++ writer by
    then.  After a flush, which runs into its timeout, the user goes on.  The second
    item is made while a step is open. *)
Definition ab (a b : tensor) : ptree (option tensor) := PDict [("a"%string, PLeaf (Some a)); ("b"%string, PLeaf (Some b))].
Definition just (k : string) (a : tensor) : ptree (option tensor) := PDict [(k, PLeaf (Some a))].
Definition xcols (n : nat) (b : Z) : list xev := (fun i => XRun (SEv (TrajWriter.EColumn (b + Z.of_nat i)))) <$> seq 0 n.
Definition xsend (n : nat) : list xev := XRun <$> ([SEv ENext] ++ replicate n (SEv (EChunk false OutOk)) ++ [SEv ECheck; SEv (ESend OutOk); SEv EPop]).
Definition py_run : list xev :=
  [XAppend (ab (scalar 1) (scalar 10)) false 1100] ++ xcols 3 1110 ++
  [XTake [PStr "a"] (SSlice None None 1); XCreate 6 (Fin 1) [0%nat] 70] ++
  [XAppend (ab (scalar 2) (vec [20; 21])) false 1200] ++ xcols 2 1210 ++
  [XFlush 0 1300; XRun (SDone true 1310 0)] ++
  [XAppend (ab (scalar 3) (scalar 30)) false 1400] ++ xcols 3 1410 ++
  [XAppend (just "a" (scalar 4)) true 1500] ++ xcols 3 1510 ++
  [XTake [PStr "a"] (SSlice (Some (-3)) None 1); XTake [PStr "b"] (SIdx 1); XTake [PStr "a"] (SSlice (Some 1) None 1); XSub 3 (SIdx (-1));
   XCreate 6 (Fin 1) [1; 2; 4]%nat 71; XAppend (just "b" (scalar 40)) false 1600] ++ xcols 3 1610 ++
  [XFlush 0 1700; XRun (SEv EStart)] ++ xsend 2 ++ xsend 6 ++ [XRun (SEv (EConfirm [70; 71])); XRun (SDone false 1800 0)].

Local Existing Instance fp_exact.
Local Existing Instance fp_exact_laws.
Local Existing Instance fp_exact_exact.

Definition py_client : client := x_after false py_run.
Definition py_ss : list source := (client_source <$> [py_client]) ++ [old_source].
Definition py_ops : list op :=
  [OInsert (1, 0) d0 (the_item (client_source py_client) 0); OInsert (2, 0) d0 (the_item (client_source py_client) 1); OInsert (3, 0) d0 (the_item old_source 1);
   OSample 1 ds0; OSample 1 ds0; OSample 1 ds0].
Lemma py_distinct : distinct_keys py_ss.
Proof.
  split; [|split].
  - assert (N : NoDup (kc_key <$> chunks_of py_ss)) by (apply (bool_decide_unpack _); vm_compute; exact I). intros a b Ha Hb E. by eapply NoDup_fmap_eq.
  - assert (N : NoDup ((fun p => wi_key p.1) <$> created_of py_ss)) by (apply (bool_decide_unpack _); vm_compute; exact I).
    intros p q Hp Hq E. f_equal. f_equal. by eapply (NoDup_fmap_eq (fun p => wi_key p.1)).
  - assert (N : Forall (fun k => k ∉ keys_of old_run.2) ((fun p => wi_key p.1) <$> created_of py_ss)) by (apply (bool_decide_unpack _); vm_compute; exact I).
    intros s p Hs Hp Ho. rewrite Forall_forall in N. apply (N (wi_key p.1)); [apply elem_of_list_fmap; by exists p|].
    apply elem_of_cons in Hs as [-> |[-> |Hs]%elem_of_cons]; [done|by eapply old_keys|by apply elem_of_nil in Hs].
Qed.

(** The results of the calls, and what the items are to hold. *)
Definition outcomes (c : client) : list pres := List.map snd (c_log c).
Definition asked_for (c : client) : list (Z * list (list (option tensor))) := List.map (fun x => (fst x, List.map tc_want (snd x))) (c_items c).
Example C85_example : let r := final ex_cfg py_ops in
  client_ok py_client /\ source_ok old_source /\ distinct_keys py_ss /\ reached ex_cfg py_ops r.1 r.2 /\ Forall (op_from py_ss) py_ops /\
  outcomes py_client = [PyOk; PyCxxError; PyOk; PyOk; PyOk] /\
  asked_for py_client = [(70, [[Some (scalar 1)]]); (71, [[Some (scalar 1); Some (scalar 3); Some (scalar 4)]; [Some (scalar 30)]; [Some (scalar 4)]])] /\
  Forall (fun x : Z * list tcol => Forall (fun tc => tc_plain tc = true) (snd x)) (c_items py_client) /\
  it_key <$> (sm_item <$> all_samples r.1) = [71; 71; 42] /\
  client_reads py_ss (all_samples r.1) = [Some [vec [1; 3; 4]; scalar 30; scalar 4]; Some [vec [1; 3; 4]; scalar 30; scalar 4]; Some [vec [1; 2; 3]; mkTensor (TOther 1) [3; 2]%nat [1; 2; 2; 3; 3; 4]]].
Proof.
  cbv zeta. split; [apply x_after_ok|]. split; [apply old_source_ok|]. split; [apply py_distinct|].
  split. { split; [by repeat constructor|vm_compute; ops_ok|vm_compute; reflexivity]. }
  split. { unfold py_ops. apply Forall_cons; split; [apply (the_item_from py_ss 0 _ 0 eq_refl); vm_compute; reflexivity|]. apply Forall_cons; split; [apply (the_item_from py_ss 0 _ 1 eq_refl); vm_compute; reflexivity|].
    apply Forall_cons; split; [apply (the_item_from py_ss 1 _ 1 eq_refl); vm_compute; reflexivity|].
    apply Forall_cons; split; [exact I|]. apply Forall_cons; split; [exact I|]. apply Forall_cons; split; [exact I|]. apply Forall_nil_2. }
  split; [vm_compute; reflexivity|]. split; [vm_compute; reflexivity|]. split; [|split; vm_compute; reflexivity].
  apply (bool_decide_unpack _). vm_compute. exact I.
Qed.

(** A slice with a step: the user asks for the first and the third value of "a" and
    the sample holds the first and the second. *)
Definition stride_run : list xev :=
  [XAppend (just "a" (scalar 1)) false 1100] ++ xcols 2 1110 ++ [XAppend (just "a" (scalar 2)) false 1200] ++ xcols 2 1210 ++
  [XAppend (just "a" (scalar 3)) false 1300] ++ xcols 2 1310 ++
  [XTake [PStr "a"] (SSlice None None 2); XCreate 6 (Fin 1) [0%nat] 70; XRun (SEv EStart)] ++ xsend 3.
Definition stride_client : client := x_after false stride_run.
Definition stride_ss : list source := client_source <$> [stride_client].
Definition stride_ops : list op := [OInsert (1, 0) d0 (the_item (client_source stride_client) 0); OSample 1 ds0].
Definition stride_r := final all_cfg stride_ops.
Lemma stride_distinct : distinct_keys stride_ss.
Proof.
  split; [|split].
  - assert (N : NoDup (kc_key <$> chunks_of stride_ss)) by (apply (bool_decide_unpack _); vm_compute; exact I). intros a b Ha Hb E. by eapply NoDup_fmap_eq.
  - assert (N : NoDup ((fun p => wi_key p.1) <$> created_of stride_ss)) by (apply (bool_decide_unpack _); vm_compute; exact I).
    intros p q Hp Hq E. f_equal. f_equal. by eapply (NoDup_fmap_eq (fun p => wi_key p.1)).
  - intros s p Hs Hp Ho. apply elem_of_list_singleton in Hs as ->. exact Ho.
Qed.
Definition stride_col : tcol := mkTcol [(0, 0); (0, 2)]%nat false [Some (scalar 1); Some (scalar 3)] false.
Lemma stride_not : ~ Forall2 wanted [stride_col] [vec [1; 2]].
Proof.
  intros H. apply Forall2_cons in H as [(ts & H1 & ty & sh & _ & H2) _]. cbn [stride_col tc_want] in H1.
  destruct ts as [|t1 [|t2 [|]]]; try discriminate H1. injection H1 as <- <-. apply (f_equal t_data) in H2. discriminate H2.
Qed.
Lemma stride_reached : reached all_cfg stride_ops stride_r.1 stride_r.2.
Proof. split; [by repeat constructor|vm_compute; ops_ok|vm_compute; reflexivity]. Qed.
Lemma stride_from : Forall (op_from stride_ss) stride_ops.
Proof. unfold stride_ops. apply Forall_cons; split; [apply (the_item_from stride_ss 0 _ 0 eq_refl); vm_compute; reflexivity|]. apply Forall_cons; split; [exact I|]. apply Forall_nil_2. Qed.
Lemma stride_sample : exists sm, all_samples stride_r.1 = [sm].
Proof. eexists. vm_compute. reflexivity. Qed.
Lemma stride_reads : client_reads stride_ss (all_samples stride_r.1) = [Some [vec [1; 2]]].
Proof. vm_compute. reflexivity. Qed.
Lemma stride_items : c_items stride_client = (fun sm => (it_key (sm_item sm), [stride_col])) <$> all_samples stride_r.1.
Proof. vm_compute. reflexivity. Qed.
Theorem C85_stride_refuted : exists c os rs t sm tcs out, client_ok c /\ distinct_keys [client_source c] /\ reached all_cfg os rs t /\ Forall (op_from [client_source c]) os /\
  all_samples rs = [sm] /\ c_items c = [(it_key (sm_item sm), tcs)] /\ client_reads [client_source c] [sm] = [Some out] /\ ~ Forall2 wanted tcs out.
Proof.
  destruct stride_sample as [sm Es]. exists stride_client, stride_ops, stride_r.1, stride_r.2, sm, [stride_col], [vec [1; 2]].
  split; [apply x_after_ok|]. split; [exact stride_distinct|]. split; [exact stride_reached|]. split; [exact stride_from|]. split; [exact Es|].
  pose proof stride_reads as R. pose proof stride_items as K. rewrite Es in R, K. split; [exact K|]. split; [exact R|exact stride_not].
Qed.

Print Assumptions C85_partial.
Print Assumptions C85_worker_partial.
Print Assumptions C85_stride_refuted.
