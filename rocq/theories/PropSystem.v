(** C73, C75: from the writers through a table to the client that samples. *)
From Verif Require Import Base RateLimiter Selector Trajectory Table EventLog TableProofs TableLog SelSpec PropSelectors TableSpec LogFacts PropTable.
From Verif Require Import Tensor TrajUtil ChunkerOptions Sample Stream Reactor PropTraj PropSample PropStream PropInsertStream
  Chunker PropChunker TrajWriter TrajWriterProofs PropTrajWriter PropChunkKeys PropOrder PyConfig PropQueue.
Local Open Scope Z_scope.

(** ** Specification

    A system of any number of TrajectoryWriters, one table, and a client.  The
    writers and the table run side by side, so what the table sees of a writer are
    the messages on the wire in some states of it; [ws] are these states, any
    number for each writer. *)

(** [w] is a state of a writer with valid options. *)
Definition writer_state (w : tw) : Prop := exists o sigs ep, validate_options o = Ok /\ tw_reach (tw_new o sigs ep) w.

(** Everything that was sent. *)
Definition sent_chunks (ws : list tw) : list kchunk := concat ((fun w => concat (ir_chunks <$> w_wire w)) <$> ws).
Definition all_created (ws : list tw) : list (witem * list (list ref * bool)) := concat (w_created <$> ws).

(** The keys are drawn at random from 64 bits (chunker.cc, trajectory_writer.cc:
    key_generator_->Generate()); that none is drawn twice by different writers is
    an assumption.  For one writer it is proved below. *)
Definition unique_keys (ws : list tw) : Prop :=
  (forall a b, a ∈ sent_chunks ws -> b ∈ sent_chunks ws -> kc_key a = kc_key b -> a = b) /\
  (forall p q, p ∈ all_created ws -> q ∈ all_created ws -> wi_key p.1 = wi_key q.1 -> wi_squeeze p.1 = wi_squeeze q.1).

(** The service, having handled the messages [pre] of a stream, hands the item of
    the next one to the table (reverb_service_async_impl.cc:214-292: the chunks of
    the item are found by their keys). *)
Definition arrives (ws : list tw) (it : item) : Prop :=
  exists w pre r suf chunks c ii data, w ∈ ws /\ w_wire w = pre ++ r :: suf /\ async_run (fun _ => true) ∅ pre = Some chunks /\
    async_insert_request (fun _ => true) chunks r = Some (IInsert c ii data) /\
    it_key it = ii_key ii /\ it_traj it = ii_traj ii /\ Trajectory.ck_key <$> it_chunks it = kc_key <$> data.
(** All insertions of a history of the table are of this kind; samples, changes of
    priorities, deletions and resets are arbitrary. *)
Definition from_writers (ws : list tw) (o : op) : Prop :=
  match o with OInsert _ _ it | OInsertWake _ _ it => arrives ws it | _ => True end.

(** A sampled item as the service sends it.  An item of Table.v has no tensors and
    no squeeze flags, only keys: the chunks are the ones sent with these keys and
    the flags the ones of the item created with this key. *)
Definition no_chunk : chunk_data := mkChunkData [] false.
Definition chunk_for (ws : list tw) (key : Z) : kchunk :=
  match list_find (fun kc => kc_key kc = key) (sent_chunks ws) with Some (_, kc) => kc | None => mkKchunk key no_chunk end.
Definition squeeze_for (ws : list tw) (key : Z) : list bool :=
  match list_find (fun p => wi_key p.1 = key) (all_created ws) with Some (_, p) => wi_squeeze p.1 | None => [] end.
Definition sample_meta (sm : sampled) : meta := mkMeta (it_key (sm_item sm)) (sm_prob sm) (sm_size sm) (sm_prio sm) (sm_limited sm).
Definition wire_sample (ws : list tw) (sm : sampled) : sampled_item :=
  Stream.mkSampled (mkSinfo (sample_meta sm) (it_traj (sm_item sm)) (squeeze_for ws (it_key (sm_item sm))))
    (chunk_for ws <$> (Trajectory.ck_key <$> it_chunks (sm_item sm))).

(** What the client makes of a sample: the columns are the ones of an item that
    some writer created with this key, if no column has references to one chunk in
    a row that are not consecutive (see C39). *)
Definition created_trajectory (ws : list tw) (sm : sampled) (a : assembled) : Prop :=
  exists w it cols, w ∈ ws /\ (it, cols) ∈ w_created w /\ wi_key it = it_key (sm_item sm) /\
    (Forall (fun col => contiguous (w_cols w) col.1) cols ->
     exists s out, a = AOk s /\ as_trajectory s = SROk (sample_meta sm, out) /\ Forall2 (column_value (w_cols w)) cols out).

(** ** What is in the table was inserted *)

Section table.
Context {fp : FP} {laws : FPLaws fp}.
(** A property of what no call changes: the key, the chunks and the trajectory. *)
Context (P : Z -> list Trajectory.chunk -> list (list slice) -> Prop).
Definition holds (it : item) : Prop := P (it_key it) (it_chunks it) (it_traj it).

Definition op_holds (o : op) : Prop := match o with OInsert _ _ it | OInsertWake _ _ it => holds it | _ => True end.
Definition ev_holds (e : event) : Prop := match e with EvInsert it => holds it | _ => True end.

Lemma batch_no_insert c lim log n sms evs : batch_spec c lim log n sms evs -> Forall ev_holds evs.
Proof.
  assert (H : forall log sm evs, one_sample c lim log sm evs -> Forall ev_holds evs).
  { intros l sm e (_ & _ & _ & _ & _ & _ & ->). destruct (_ =? _); by repeat constructor. }
  induction 1 as [log n sm evs H1 _|log n sm evs sms evs' H1 _ IH]; [by eapply H|]. apply Forall_app. split; [by eapply H|done].
Qed.
Lemma deletes_no_insert ks : forall m, Forall ev_holds (delete_events m ks).
Proof. induction ks as [|k ks IH]; intros m; cbn [delete_events]; [constructor|]. destruct (m !! k); [constructor; [done|]|]; apply IH. Qed.
Lemma updates_no_insert us : forall m, Forall ev_holds (update_events m us).
Proof. induction us as [|[k p] us IH]; intros m; cbn [update_events]; [constructor|]. destruct (m !! k); [constructor; [done|]|]; apply IH. Qed.

Lemma new_holds c log d it now evs : holds it -> new_item_spec c log d (it_with_at it now) evs -> Forall ev_holds evs.
Proof. intros H [[_ ->]|(_ & v & q & _ & _ & ->)]; repeat constructor; exact H. Qed.
Lemma wait_holds c log cl now d it r evs : holds it -> insert_wait_spec c log cl now d it r evs -> Forall ev_holds evs.
Proof.
  intros H [(_ & _ & ->)|[(_ & _ & _ & ->)|(_ & _ & _ & [(old & _ & ->)|[_ Hn]])]]; [constructor|constructor|by repeat constructor|by eapply new_holds].
Qed.
Lemma sample_wait_holds c log cl b r evs : sample_wait_spec c log cl b r evs -> Forall ev_holds evs.
Proof. intros [(_ & _ & ->)|[(_ & _ & _ & ->)|(_ & sms & _ & H)]]; [constructor|constructor|by eapply batch_no_insert]. Qed.

Lemma log_inserts c os rs log cl : hist_spec c os rs log cl -> Forall op_holds os -> Forall ev_holds log.
Proof.
  induction 1 as [|os rs log cl o r evs _ IH Hc]; intros Ho; [constructor|]. apply Forall_app in Ho as [Ho [Ho1 _]%Forall_cons]. apply Forall_app. split; [by apply IH|].
  destruct o as [now d it|now d it|b ds|b ds|us ks| |]; cbn [call_spec op_holds] in *.
  - destruct Hc as [(_ & _ & ->)|[(_ & (old & _ & ->) & _)|(_ & _ & H)]]; [constructor|by repeat constructor|by eapply wait_holds].
  - by eapply wait_holds.
  - destruct Hc as [(sms & _ & H)|[_ H]]; [by eapply batch_no_insert|by eapply sample_wait_holds].
  - by eapply sample_wait_holds.
  - destruct Hc as [_ ->]. apply Forall_app. split; [apply deletes_no_insert|apply updates_no_insert].
  - destruct Hc as [_ ->]. by repeat constructor.
  - destruct Hc as [_ ->]. constructor.
Qed.

Lemma replay_holds c log : log_all (ev_ok c) log -> Forall ev_holds log -> forall k it, replay log !! k = Some it -> holds it.
Proof.
  induction log as [|e log IH] using rev_ind; intros Hl Hf k it; [unfold replay; cbn; by rewrite lookup_empty|].
  apply log_all_last in Hl as [Hl He]. apply Forall_app in Hf as [Hf [Hf1 _]%Forall_cons]. specialize (IH Hl Hf). rewrite replay_snoc.
  destruct e as [x|x|x|x|]; cbn [replay_ev ev_ok ev_holds] in *.
  - intros [[_ <-]|[_ H]]%lookup_insert_Some; [done|by eapply IH].
  - destruct He as (old & H1 & H2 & _). intros [[_ <-]|[_ H]]%lookup_insert_Some; [|by eapply IH]. rewrite H2. by apply (IH _ old H1).
  - destruct He as (old & p & H1 & H2 & _). intros [[_ <-]|[_ H]]%lookup_insert_Some; [|by eapply IH]. rewrite H2. by apply (IH _ old H1).
  - intros [_ H]%lookup_delete_Some. by eapply IH.
  - by rewrite lookup_empty.
Qed.

Lemma samples_hold c os rs t : reached c os rs t -> Forall op_holds os -> Forall (fun sm => holds (sm_item sm)) (all_samples rs).
Proof.
  intros H Ho. pose proof (C08_samples_current c os rs t H) as F. pose proof (reached_linv _ _ _ _ H) as LI. destruct H as [Hc Hok Hr].
  destruct (table_meets_spec c os rs t Hc Hok Hr) as [S _]. pose proof (log_inserts _ _ _ _ _ S Ho) as Hl. destruct LI as [_ L _]. pose proof (la_ok _ _ _ _ L) as Hev.
  assert (Hp : forall p, p ∈ sample_points (t_log t) -> exists post, t_log t = p.1 ++ post).
  { intros [pre it] Hin. apply sample_points_elem in Hin as [post E]. eexists. exact E. }
  revert Hp F. generalize (all_samples rs), (sample_points (t_log t)). intros sms pts Hp F. induction F as [|sm p sms pts (old & d & _ & Hold & Hit & _) F IH]; constructor.
  - destruct (Hp p) as [post E]; [left|]. rewrite E in Hev, Hl. apply log_all_pre in Hev. apply Forall_app in Hl as [Hl _].
    rewrite Hit. by apply (replay_holds c p.1 Hev Hl (it_key old) old Hold).
  - apply IH. intros q Hq. apply Hp. by right.
Qed.
End table.

(** ** What arrives *)

Lemma elem_concat {A} (ls : list (list A)) x : x ∈ concat ls <-> exists l, l ∈ ls /\ x ∈ l.
Proof.
  induction ls as [|l ls IH]; cbn [concat]; [split; [by intros ?%elem_of_nil|by intros (l & ?%elem_of_nil & _)]|]. rewrite elem_of_app, IH. split.
  - intros [H|(k & H1 & H2)]; [exists l; split; [left|done]|exists k; split; [by right|done]].
  - intros (k & [->|H1]%elem_of_cons & H2); [by left|right; by exists k].
Qed.
Lemma sent_elem ws w r kc : w ∈ ws -> r ∈ w_wire w -> kc ∈ ir_chunks r -> kc ∈ sent_chunks ws.
Proof.
  intros Hw Hr Hk. unfold sent_chunks. apply elem_concat. exists (concat (ir_chunks <$> w_wire w)). split.
  - apply elem_of_list_fmap. by exists w.
  - apply elem_concat. exists (ir_chunks r). split; [|done]. apply elem_of_list_fmap. by exists r.
Qed.
Lemma created_elem ws w p : w ∈ ws -> p ∈ w_created w -> p ∈ all_created ws.
Proof. intros Hw Hp. unfold all_created. apply elem_concat. exists (w_created w). split; [|done]. apply elem_of_list_fmap. by exists w. Qed.

Lemma chunk_for_sent ws kc : unique_keys ws -> kc ∈ sent_chunks ws -> chunk_for ws (kc_key kc) = kc.
Proof.
  intros [U _] H. unfold chunk_for. destruct (list_find _ _) as [[i x]|] eqn:E.
  - apply list_find_Some in E as (E1 & E2 & _). apply U; [by eapply elem_of_list_lookup_2|done|done].
  - apply list_find_None in E. rewrite Forall_forall in E. by destruct (E _ H).
Qed.
Lemma squeeze_for_created ws p : unique_keys ws -> p ∈ all_created ws -> squeeze_for ws (wi_key p.1) = wi_squeeze p.1.
Proof.
  intros [_ U] H. unfold squeeze_for. destruct (list_find _ _) as [[i x]|] eqn:E.
  - apply list_find_Some in E as (E1 & E2 & _). apply U; [by eapply elem_of_list_lookup_2|done|done].
  - apply list_find_None in E. rewrite Forall_forall in E. by destruct (E _ H).
Qed.

(** The item that arrives is one that the writer has created, and what arrives with
    it are chunks that were sent. *)
Lemma arrived_item ws w pre r suf chunks c ii data : writer_state w -> w ∈ ws -> w_wire w = pre ++ r :: suf ->
  async_run (fun _ => true) ∅ pre = Some chunks -> async_insert_request (fun _ => true) chunks r = Some (IInsert c ii data) ->
  exists it cols, (it, cols) ∈ w_created w /\ ii_key ii = wi_key it /\ wi_squeeze it = snd <$> cols /\
    kc_key <$> data = get_chunk_keys (ii_traj ii) /\ data <> [] /\ Forall (fun kc => kc ∈ sent_chunks ws) data.
Proof.
  intros (o & sigs & ep & Ho & Hr) Hws Hw Hrun Hreq. pose proof (tw_reach_inv _ _ _ _ Ho Hr) as I. pose proof (v_from w I) as V. rewrite Hw in V.
  apply Forall_app in V as [V1 V2]. apply Forall_cons in V2 as [[V2 V3] _].
  assert (S : forall x, x ∈ w_wire w -> Forall (fun kc => kc ∈ sent_chunks ws) (ir_chunks x)).
  { intros x Hx. apply Forall_forall. intros kc Hk. by eapply sent_elem. }
  assert (HC : forall key d, chunks !! key = Some d -> mkKchunk key d ∈ sent_chunks ws).
  { eapply (async_from (fun kc => kc ∈ sent_chunks ws) (fun _ => true) pre); [| |exact Hrun].
    - apply Forall_forall. intros x Hx. apply S. rewrite Hw. apply elem_of_app. by left.
    - intros key d. by rewrite lookup_empty. }
  destruct (insert_data (fun kc => kc ∈ sent_chunks ws) (fun _ => true) chunks c ii data r) as (Hii & Hk & Hd); [|exact HC|exact Hreq|].
  { apply S. rewrite Hw. apply elem_of_app. right. left. }
  destruct (V3 ii Hii) as (it & cols & Hit & K1 & K2 & K3). pose proof (v_items w I) as VI. rewrite Forall_forall in VI. specialize (VI _ Hit).
  exists it, cols. split; [done|]. split; [done|]. destruct VI as (F0 & _ & F2 & F3 & F4). cbn [fst snd] in *. split; [done|]. split; [done|]. split; [|done].
  intros E. rewrite E in Hk. destruct cols as [|[refs sq] cols]; [done|].
  apply Forall_cons in F4 as [(F5 & _ & F6 & _) _]. cbn [fst] in *. destruct refs as [|r0 refs]; [done|]. apply Forall_cons in F6 as [[c0 Hc0] _].
  destruct (merge_head c0 (omap (cell_at (w_cols w)) refs)) as (s & l & E1 & _).
  assert (sl_key s ∈ get_chunk_keys (ii_traj ii)) as HX; [|rewrite <- Hk in HX; by apply elem_of_nil in HX].
  unfold get_chunk_keys. apply chunk_keys_aux_elem. split; [|by intros ?%elem_of_nil]. apply elem_of_list_fmap. exists s. split; [done|].
  rewrite K3, F3. rewrite !fmap_cons. cbn [fst concat]. apply elem_of_app. left.
  assert (Hom : omap (cell_at (w_cols w)) (r0 :: refs) = c0 :: omap (cell_at (w_cols w)) refs) by (cbn; by rewrite Hc0). rewrite Hom, E1. apply elem_of_list_here.
Qed.

(** [arrives] in terms of what no call of the table changes. *)
Definition arrived (ws : list tw) (key : Z) (cs : list Trajectory.chunk) (traj : list (list slice)) : Prop :=
  exists w pre r suf chunks c ii data, w ∈ ws /\ w_wire w = pre ++ r :: suf /\ async_run (fun _ => true) ∅ pre = Some chunks /\
    async_insert_request (fun _ => true) chunks r = Some (IInsert c ii data) /\
    key = ii_key ii /\ traj = ii_traj ii /\ Trajectory.ck_key <$> cs = kc_key <$> data.

Lemma arrived_sample ws sm : Forall writer_state ws -> unique_keys ws -> holds (arrived ws) (sm_item sm) ->
  item_ok (wire_sample ws sm) /\ created_trajectory ws sm (as_sample_local (wire_sample ws sm)).
Proof.
  intros Hws U (w & pre & r & suf & chunks & c & ii & data & Hw & Ew & Hrun & Hreq & Hkey & Htr & Hck).
  pose proof (proj1 (Forall_forall _ _) Hws w Hw) as Hst.
  destruct (arrived_item ws w pre r suf chunks c ii data Hst Hw Ew Hrun Hreq) as (it & cols & Hit & K1 & K2 & K3 & K4 & K5).
  assert (Hdata : chunk_for ws <$> (Trajectory.ck_key <$> it_chunks (sm_item sm)) = data).
  { rewrite Hck. clear - U K5. induction K5 as [|kc data H _ IH]; [done|]. rewrite !fmap_cons, IH. f_equal. by apply chunk_for_sent. }
  assert (Hsq : squeeze_for ws (it_key (sm_item sm)) = snd <$> cols).
  { rewrite Hkey, K1, <- K2. apply (squeeze_for_created ws (it, cols) U). by eapply created_elem. }
  unfold wire_sample. rewrite Hdata, Hsq, Htr. split.
  - split; [done|done].
  - exists w, it, cols. split; [done|]. split; [done|]. split; [congruence|]. intros Hct. destruct Hst as (o & sigs & ep & Ho & Hr).
    destruct (C39_trajectory_partial o sigs ep Ho w pre r suf chunks c ii data it cols (sample_meta sm) Hr Ew Hrun Hreq Hit K1 Hct) as [_ H]. exact H.
Qed.

(** ** C73 *)

Section WithFP.
Context {fp : FP} {laws : FPLaws fp}.

(** Any history of a table whose items come from the writers, any way of cutting
    the samples into messages: the client gets one sample for each sample taken from
    the table, in this order, and its columns are the ones that a writer created
    under its key. *)
Theorem C73_end_to_end_partial ws c os rs t gs msgs : Forall writer_state ws -> unique_keys ws -> reached c os rs t -> Forall (from_writers ws) os ->
  Forall2 carries gs (wire_sample ws <$> all_samples rs) -> concat msgs = concat gs -> Forall (fun r : response => r <> []) msgs ->
  exists got, fetch_request (length (all_samples rs)) [] [] msgs = FDone got [] /\ Forall2 (created_trajectory ws) (all_samples rs) got.
Proof.
  intros Hws U Hr Ho Hc He Hm. pose proof (samples_hold (arrived ws) c os rs t Hr Ho) as H.
  exists (as_sample_local <$> (wire_sample ws <$> all_samples rs)). split.
  - rewrite <- (fmap_length (wire_sample ws)). eapply C42_client; [|exact Hc|exact He|exact Hm]. apply Forall_fmap. eapply Forall_impl; [exact H|].
    intros sm Hsm. by apply arrived_sample.
  - rewrite <- list_fmap_compose. clear Hc. induction H as [|sm sms Hsm H IH]; [constructor|]. constructor; [by apply arrived_sample|done].
Qed.

(** The synchronous service cuts them as it does. *)
Theorem C73_sync_partial ws c os rs t size limit : Forall writer_state ws -> unique_keys ws -> reached c os rs t -> Forall (from_writers ws) os ->
  exists got, fetch_request (length (all_samples rs)) [] [] (concat (sync_split size limit <$> (wire_sample ws <$> all_samples rs))) = FDone got [] /\
    Forall2 (created_trajectory ws) (all_samples rs) got.
Proof.
  intros Hws U Hr Ho. pose proof (samples_hold (arrived ws) c os rs t Hr Ho) as H.
  exists (as_sample_local <$> (wire_sample ws <$> all_samples rs)). split.
  - rewrite <- (fmap_length (wire_sample ws)) at 1. apply C42_sync. apply Forall_fmap. eapply Forall_impl; [exact H|]. intros sm Hsm. by apply arrived_sample.
  - rewrite <- list_fmap_compose. induction H as [|sm sms Hsm H IH]; [constructor|]. constructor; [by apply arrived_sample|done].
Qed.
End WithFP.

(** The states that one writer goes through satisfy the assumption on the keys. *)
Inductive chain (w0 : tw) : list tw -> Prop :=
| chain_nil : chain w0 []
| chain_cons w ws : tw_reach w0 w -> chain w ws -> chain w0 (w :: ws).

Lemma step_created w e w' ret : tw_step w e = TNext w' ret -> exists l, w_created w' = w_created w ++ l.
Proof.
  assert (G : forall x y : tw, w_created y = w_created x -> exists l, w_created y = w_created x ++ l) by (intros x y ->; exists []; by rewrite app_nil_r).
  destruct e as [| |big o'| | |o'| |st|keys|c a|data inc nk|nk|table prio cols key|n nk|clear nk|timeout nk newep|c o'|]; cbn [tw_step].
  - destruct (w_pos w); try done. destruct (negb _); [|destruct (w_closed w)]; intros [= <- <-].
    + destruct (return_frame w (w_unrec w)) as (p & u & ->). by apply G.
    + destruct (return_frame w Cancelled) as (p & u & ->). by apply G.
    + by apply G.
  - destruct (w_pos w); try done. destruct (w_closed w); [|destruct (w_queue w); [done|]]; intros [= <- <-]; by apply G.
  - destruct (w_pos w) as [| |it rest s req| | | | | |]; try done. destruct rest as [|r rest]; [intros [= <- <-]; by apply G|]. destruct (w_cell w r) as [c|]; [|done].
    destruct (ce_chunk c); [|intros [= <- <-]; by apply G]. destruct (bool_decide _); [intros [= <- <-]; by apply G|]. destruct big; intros [= <- <-]; [|by apply G].
    unfold send. destruct (delivered o'); by apply G.
  - destruct (w_pos w) as [| | |it s req| | | | |]; try done. destruct (forallb _ _); [|destruct (forallb _ _)]; intros [= <- <-]; by apply G.
  - destruct (w_pos w); try done. intros [= <- <-]. by apply G.
  - destruct (w_pos w); try done. unfold send. destruct (write_ok o'), (delivered o'); intros [= <- <-]; by apply G.
  - destruct (w_pos w); try done. intros [= <- <-]. by apply G.
  - destruct (w_pos w); try done. intros [= <- <-]. destruct (return_frame w st) as (p & u & ->). by apply G.
  - destruct (w_pos w); try done; (destruct (forallb _ keys); [|done]; intros [= <- <-]; by apply G).
  - destruct (w_pos w); try done. destruct (col_step w c (KTune a)) as [w1|] eqn:E; [|done]. apply col_step_frame in E as (m & ->). intros [= <- <-]. by apply G.
  - unfold append_begin. destruct (w_user w) eqn:Hu; try done. destruct (bool_decide _).
    + destruct (add_chunkers w 0 data nk) as [w1|] eqn:E; [|done]. apply add_chunkers_frame in E as (m & ->). intros [= <- <-]. by apply G.
    + intros [= <- <-]. by apply G.
  - unfold append_col. destruct (w_user w) as [|i rest inc ep' step|] eqn:Hu; try done. destruct rest as [|[t|] rest].
    + destruct (_ && _); [|done]. intros [= <- <-]. destruct (signal_frame (set_stp w (if inc then w_stp w + 1 else w_stp w))) as (p & ->). by apply G.
    + destruct (mbind _ _) as [[st w1]|] eqn:E; [|done].
      assert (exists m, w1 = set_cols w m) as (m & ->).
      { destruct (w_cols w !! i) as [[k h]|]; [|done]. cbn [mbind option_bind] in E. destruct (k_append k t ep' step nk) as [[[st' x] k']|]; [|done]. cbn [mbind option_bind] in E.
        destruct (col_step w i (KAppend t ep' step nk)) as [w2|] eqn:E2; [|done]. cbn [mbind option_bind] in E. injection E as _ <-. by apply col_step_frame in E2. }
      destruct (bool_decide (st = Ok)) eqn:Hst; intros [= <- <-]; by apply G.
    + intros [= <- <-]. by apply G.
  - unfold create_item. destruct (w_user w) eqn:Hu; try done.
    destruct (forallb _ cols); [intros [= <- <-]; by apply G|].
    destruct (bool_decide_reflect (w_unrec w = Ok)); cbn [negb]; [|intros [= <- <-]; by apply G].
    destruct (columns_validate w cols) as [st|]; [|done]. destruct (bool_decide_reflect (st = Ok)) as [->|]; cbn [negb]; [|intros [= <- <-]; by apply G].
    cbn zeta. destruct (item_validate _ _) as [st|]; [|done]. destruct (bool_decide_reflect (st = Ok)) as [->|]; cbn [negb]; [|intros [= <- <-]; by apply G].
    intros [= <- <-]. cbn [w_created set_created set_queue]. by eexists.
  - destruct (w_user w) eqn:Hu; try done. unfold flush_begin. destruct (force_flush _ _ _) as [[st w1]|] eqn:E; [|done]. apply force_flush_frame in E as (m & ->).
    destruct (bool_decide _); intros [= <- <-]; [destruct (signal_frame (set_cols w m)) as (p & ->)|]; by apply G.
  - destruct (w_user w) eqn:Hu; try done. destruct (bool_decide _); [|intros [= <- <-]; by apply G].
    unfold flush_begin. destruct (force_flush _ _ _) as [[st w1]|] eqn:E; [|done]. apply force_flush_frame in E as (m & ->).
    destruct (bool_decide _); intros [= <- <-]; [destruct (signal_frame (set_cols w m)) as (p & ->)|]; by apply G.
  - unfold flush_done. destruct (w_user w) as [| |n fin] eqn:Hu; try done.
    destruct (flush_cond w n); [|destruct timeout; [|done]; intros [= <- <-]; by apply G].
    cbn zeta. destruct (negb _); [intros [= <- <-]; by apply G|]. destruct fin as [|clear]; [intros [= <- <-]; by apply G|].
    destruct (end_chunkers _ _ _ _) as [[st w1]|] eqn:E; [|done]. apply end_chunkers_frame in E as (m & u & ->).
    destruct (bool_decide _); intros [= <- <-]; by apply G.
  - unfold configure. destruct (w_user w) eqn:Hu; try done. destruct (negb _); [intros [= <- <-]; by apply G|]. destruct (w_cols w !! c) as [[k h]|]; [|intros [= <- <-]; by apply G].
    destruct (col_step w c _) as [w1|] eqn:E; [|done]. apply col_step_frame in E as (m & ->). intros [= <- <-]. by apply G.
  - unfold close. intros [= <- <-]. destruct (w_closed w); [by apply G|]. destruct (signal_frame (set_closed w true)) as (p & ->). by apply G.
Qed.
Lemma reach_created w w' : tw_reach w w' -> exists l, w_created w' = w_created w ++ l.
Proof.
  induction 1 as [|w1 e w2 ret _ [l IH] _ E]; [exists []; by rewrite app_nil_r|]. apply step_created in E as [l' ->]. exists (l ++ l'). by rewrite IH, app_assoc.
Qed.
Lemma reach_trans w0 w1 w2 : tw_reach w0 w1 -> tw_reach w1 w2 -> tw_reach w0 w2.
Proof. intros H. induction 1; [done|by econstructor]. Qed.

Lemma chain_between w0 ws : chain w0 ws -> forall a b, a ∈ ws -> b ∈ ws -> tw_reach w0 a /\ tw_reach w0 b /\ (tw_reach a b \/ tw_reach b a).
Proof.
  induction 1 as [w0|w0 w ws Hw Hc IH]; intros a b; [by intros ?%elem_of_nil|].
  assert (HA : forall x, x ∈ ws -> tw_reach w x) by (intros x Hx; by destruct (IH x x Hx Hx)).
  intros [->|Ha]%elem_of_cons [->|Hb]%elem_of_cons.
  - split; [done|]. split; [done|]. left. constructor.
  - split; [done|]. split; [eapply reach_trans; [exact Hw|by apply HA]|]. left. by apply HA.
  - split; [eapply reach_trans; [exact Hw|by apply HA]|]. split; [done|]. right. by apply HA.
  - destruct (IH a b Ha Hb) as (H1 & H2 & H3). split; [by eapply reach_trans|]. split; [by eapply reach_trans|done].
Qed.

Theorem C73_one_writer o sigs ep ws : validate_options o = Ok -> chain (tw_new o sigs ep) ws -> Forall writer_state ws /\ unique_keys ws.
Proof.
  intros Ho Hc. split.
  { apply Forall_forall. intros w Hw. destruct (chain_between _ _ Hc w w Hw Hw) as [H _]. by exists o, sigs, ep. }
  assert (EC : forall x, x ∈ sent_chunks ws -> exists w r, w ∈ ws /\ r ∈ w_wire w /\ x ∈ ir_chunks r).
  { intros x (l & (w & -> & Hw)%elem_of_list_fmap & (l' & (r & -> & Hr)%elem_of_list_fmap & Hx)%elem_concat)%elem_concat. by exists w, r. }
  assert (EI : forall x, x ∈ all_created ws -> exists w, w ∈ ws /\ x ∈ w_created w).
  { intros x (l & (w & -> & Hw)%elem_of_list_fmap & Hx)%elem_concat. by exists w. }
  split.
  - intros a b (w1 & r1 & Hw1 & Hr1 & Ha)%EC (w2 & r2 & Hw2 & Hr2 & Hb)%EC Hk. destruct (chain_between _ _ Hc w1 w2 Hw1 Hw2) as (R1 & R2 & [R|R]).
    + by eapply (C60_trajectory o sigs ep w1 w2 r1 r2).
    + symmetry. by eapply (C60_trajectory o sigs ep w2 w1 r2 r1).
  - assert (K : forall w1 w2 p q, tw_reach (tw_new o sigs ep) w2 -> tw_reach w1 w2 -> p ∈ w_created w1 -> q ∈ w_created w2 -> wi_key p.1 = wi_key q.1 -> p = q).
    { intros w1 w2 p q R1 R Hp Hq Hk. destruct (reach_created _ _ R) as [l El]. pose proof (v_keys _ (tw_reach_inv _ _ _ _ Ho R1)) as N.
      assert (p ∈ w_created w2) as Hp2 by (rewrite El; apply elem_of_app; by left).
      apply elem_of_list_lookup in Hp2 as [i Hi]. apply elem_of_list_lookup in Hq as [j Hj].
      assert (i = j) as ->; [|congruence]. apply (NoDup_lookup (created_keys (w_created w2)) i j (wi_key p.1) N); unfold created_keys; rewrite list_lookup_fmap; [by rewrite Hi|]. rewrite Hj. cbn. congruence. }
    intros p q (w1 & Hw1 & Hp)%EI (w2 & Hw2 & Hq)%EI Hk. destruct (chain_between _ _ Hc w1 w2 Hw1 Hw2) as (R1 & R2 & [R|R]).
    + by rewrite (K w1 w2 p q).
    + by rewrite (K w2 w1 q p).
Qed.

(** ** C75: a queue between one writer and one client *)

Section queue.
Context {fp : FP} {laws : FPLaws fp}.

Lemma created_at o sigs ep w w' it cols i k : validate_options o = Ok -> tw_reach (tw_new o sigs ep) w -> tw_reach w' w -> (it, cols) ∈ w_created w' ->
  created_keys (w_created w) !! i = Some k -> wi_key it = k -> w_created w !! i = Some (it, cols).
Proof.
  intros Ho R R' Hit Hi Hk. destruct (reach_created _ _ R') as [l El]. pose proof (v_keys _ (tw_reach_inv _ _ _ _ Ho R)) as N.
  assert ((it, cols) ∈ w_created w) as Hj by (rewrite El; apply elem_of_app; by left). apply elem_of_list_lookup in Hj as [j Hj].
  assert (i = j) as ->; [|done]. apply (NoDup_lookup _ i j k N); [done|]. unfold created_keys. rewrite list_lookup_fmap, Hj. cbn. congruence.
Qed.

(** One TrajectoryWriter, a Table.queue, no Write that fails although the server gets
    the message, and the service handles the messages of every stream, in order and
    to the end except for the last one ([accepted]): the
    client gets the items in the order of their creation, each once and none left
    out: the n-th sample has the columns of the n-th CreateItem. *)
Theorem C75_queue_partial o sigs ep ws w l n c os outs q rs t gs msgs : validate_options o = Ok ->
  chain (tw_new o sigs ep) ws -> last ws = Some w -> clean_sends (tw_new o sigs ep) l w ->
  py_table_queue n = Some c -> Forall (op_ok c) os -> Forall fresh_op os -> Forall no_reset os -> Forall (from_writers ws) os ->
  box_run false n [] false os = Some (outs, q) -> Table.run (new_table c) os = Some (rs, t) -> it_key <$> accepted os rs `prefix_of` l ->
  Forall2 carries gs (wire_sample ws <$> all_samples rs) -> concat msgs = concat gs -> Forall (fun r : response => r <> []) msgs ->
  exists got, fetch_request (length (all_samples rs)) [] [] msgs = FDone got [] /\
    forall i a, got !! i = Some a -> exists it cols, w_created w !! i = Some (it, cols) /\
      exists w', w' ∈ ws /\ (it, cols) ∈ w_created w' /\
      (Forall (fun col => contiguous (w_cols w') col.1) cols -> exists s mt out, a = AOk s /\ as_trajectory s = SROk (mt, out) /\ m_key mt = wi_key it /\ Forall2 (column_value (w_cols w')) cols out).
Proof.
  intros Ho Hch Hlast Hcl Hc Hok Hf Hr Hw Hb E Hp Hcar He Hm. destruct (C73_one_writer o sigs ep ws Ho Hch) as [Hws U].
  assert (Hcfg : cfg_ok c). { unfold py_table_queue, py_table in Hc. destruct (Z.leb_spec n 0); [done|]. injection Hc as <-. repeat split; cbn; lia. }
  assert (R : reached c os rs t) by done.
  destruct (C73_end_to_end_partial ws c os rs t gs msgs Hws U R Hw Hcar He Hm) as (got & G1 & G2). exists got. split; [done|].
  destruct (C30_exactly_once n c os outs q rs t Hc Hok Hf Hr Hb E) as [X _].
  destruct (C74_exactly_once o sigs ep l w Ho Hcl) as [PL _].
  intros i a Ha. destruct (Forall2_lookup_r _ _ _ _ _ G2 Ha) as (sm & Hsm & (w' & it & cols & Hw' & Hit & Hkey & Hval)).
  assert (Hlw : w ∈ ws) by (apply last_Some_elem_of in Hlast; done).
  destruct (chain_between _ _ Hch w w Hlw Hlw) as [Rw _].
  assert (Rww : tw_reach w' w).
  { clear - Hch Hlast Hw'. revert Hlast Hw'. induction Hch as [w0|w0 w1 ws R1 Hch IH]; [done|]. intros Hlast [->|Hin]%elem_of_cons.
    - destruct ws as [|w2 ws]; [injection Hlast as <-; constructor|]. rewrite last_cons_cons in Hlast.
      destruct (chain_between _ _ Hch w w) as [H _]; [by apply last_Some_elem_of..|done].
    - destruct ws as [|w2 ws]; [by apply elem_of_nil in Hin|]. rewrite last_cons_cons in Hlast. by apply IH. }
  exists it, cols. split.
  - eapply (created_at o sigs ep w w'); [done|done|done|done| |exact Hkey].
    assert (K : (it_key <$> accepted os rs) !! i = Some (it_key (sm_item sm))).
    { assert (it_key <$> accepted os rs = it_key <$> (handed_out <$> accepted os rs)) as -> by (rewrite <- list_fmap_compose; done).
      rewrite X, fmap_app. apply lookup_app_l_Some. by rewrite !list_lookup_fmap, Hsm. }
    eapply prefix_lookup; [|exact PL]. eapply prefix_lookup; [exact K|done].
  - exists w'. split; [done|]. split; [done|]. intros Hct. destruct (Hval Hct) as (s & out & A1 & A2 & A3). exists s, (sample_meta sm), out. by rewrite Hkey.
Qed.
End queue.

(** ** Runs *)

Local Existing Instance fp_exact.
Local Existing Instance fp_exact_laws.
Local Existing Instance fp_exact_exact.

Definition item_of (ii : iitem) (data : list kchunk) : item :=
  mkItem (ii_key ii) (Fin 1) 0 (0, 0) ((fun kc => Trajectory.mkChunk (kc_key kc) 7) <$> data) (ii_traj ii).
Definition arrived_at (w : tw) (j : nat) : option item :=
  r ← w_wire w !! j; chunks ← async_run (fun _ => true) ∅ (take j (w_wire w));
  match async_insert_request (fun _ => true) chunks r with Some (IInsert _ ii data) => Some (item_of ii data) | _ => None end.
Lemma arrived_at_sound ws w j it : w ∈ ws -> arrived_at w j = Some it -> arrives ws it.
Proof.
  intros Hw. unfold arrived_at. destruct (w_wire w !! j) as [r|] eqn:Er; [|done]. cbn [mbind option_bind]. destruct (async_run _ _ _) as [chunks|] eqn:Ec; [|done]. cbn [mbind option_bind].
  destruct (async_insert_request _ _ _) as [[|c ii data|]|] eqn:E; try done. intros [= <-]. exists w, (take j (w_wire w)), r, (drop (S j) (w_wire w)), chunks, c, ii, data.
  split; [done|]. split; [symmetry; by apply take_drop_middle|]. split; [done|]. split; [done|]. split; [done|]. split; [done|]. cbn [it_chunks item_of]. by rewrite <- list_fmap_compose.
Qed.

(** The run of three items of PropOrder.v, at the end of the first and of the second
    stream. *)
Definition sys_w1 (o : wout) : tw := after order_opts (take 23 (order_run o)).
Definition sys_w2 (o : wout) : tw := after order_opts (order_run o).
Definition sys_ws (o : wout) : list tw := [sys_w1 o; sys_w2 o].
Definition sys_item (w : tw) (j : nat) : item := default (mkItem 0 (Fin 0) 0 (0, 0) [] []) (arrived_at w j).

Lemma script_app w es es' : tw_script w (es ++ es') = w1 ← tw_script w es; tw_script w1 es'.
Proof. revert w. induction es as [|s es IH]; intros w; [done|]. cbn [tw_script app]. destruct (tw_enabled_b w s); [|done]. destruct (tw_step w (sev_event s)); [done|done|apply IH]. Qed.
Lemma sys_chain o : is_Some (tw_script (tw_new order_opts ex_sigs 7) (order_run o)) -> chain (tw_new order_opts ex_sigs 7) (sys_ws o).
Proof.
  intros [w E]. constructor; [apply after_reach|]. constructor; [|constructor]. unfold sys_w1, sys_w2, after. pose proof E as E'. rewrite <- (take_drop 23 (order_run o)), script_app in E'. rewrite E.
  destruct (tw_script _ (take 23 (order_run o))) as [w1|]; [|done]. cbn [mbind option_bind] in E'. eapply script_reach; [constructor|exact E'].
Qed.

Definition sys_cfg : tcfg := default ex_cfg (py_table_queue 2).
Definition sys_ops : list op :=
  [OInsert (1, 0) d0 (sys_item (sys_w1 OutLost) 0); OSample 1 ds0;
   OInsert (2, 0) d0 (sys_item (sys_w2 OutLost) 0); OInsert (3, 0) d0 (sys_item (sys_w2 OutLost) 1); OSample 2 ds0].
(** What the client gets, with messages cut after every chunk. *)
Definition client_gets (ws : list tw) (rs : list result) : list (option (list tensor)) :=
  match fetch_request (length (all_samples rs)) [] [] (concat (sync_split (fun _ => 1) 0 <$> (wire_sample ws <$> all_samples rs))) with
  | FDone got _ => (fun a => match a with AOk s => match as_trajectory s with SROk (_, out) => Some out | _ => None end | _ => None end) <$> got
  | _ => []
  end.

Lemma created_runs (m : cmap) (cs : list (witem * list (list ref * bool))) :
  cs.*2 = [[(PropTrajWriter.run 0 0 1, true)]; [(PropTrajWriter.run 0 1 1, true)]; [(PropTrajWriter.run 0 2 1, true)]] ->
  Forall (fun p => Forall (fun col => contiguous m col.1) p.2) cs.
Proof.
  intros Hc. apply Forall_forall. intros p Hp. apply (elem_of_list_fmap_1 snd) in Hp. rewrite Hc in Hp.
  repeat (apply elem_of_cons in Hp as [-> |Hp]; [constructor; [apply run_contiguous|constructor]|]). by apply elem_of_nil in Hp.
Qed.
Example C75_example : let r := final sys_cfg sys_ops in exists l outs q,
  validate_options order_opts = Ok /\ chain (tw_new order_opts ex_sigs 7) (sys_ws OutLost) /\ last (sys_ws OutLost) = Some (sys_w2 OutLost) /\
  clean_sends (tw_new order_opts ex_sigs 7) l (sys_w2 OutLost) /\ py_table_queue 2 = Some sys_cfg /\ Forall (op_ok sys_cfg) sys_ops /\ Forall fresh_op sys_ops /\ Forall no_reset sys_ops /\
  Forall (from_writers (sys_ws OutLost)) sys_ops /\ box_run false 2 [] false sys_ops = Some (outs, q) /\ Table.run (new_table sys_cfg) sys_ops = Some (r.1, r.2) /\
  it_key <$> accepted sys_ops r.1 `prefix_of` l /\ Forall (fun p => Forall (fun col => contiguous (w_cols (sys_w2 OutLost)) col.1) p.2) (w_created (sys_w2 OutLost)) /\
  client_gets (sys_ws OutLost) r.1 = [Some [scalar 1]; Some [scalar 2]; Some [scalar 3]].
Proof.
  cbv zeta. assert (S : is_Some (tw_script (tw_new order_opts ex_sigs 7) (order_run OutLost))) by (vm_compute; by eexists).
  exists ([] ++ script_sent (tw_new order_opts ex_sigs 7) (order_run OutLost)), (default ([], []) (box_run false 2 [] false sys_ops)).1, (default ([], []) (box_run false 2 [] false sys_ops)).2.
  split; [done|]. split; [by apply sys_chain|]. split; [done|].
  split. { destruct S as [w E]. unfold sys_w2, after. rewrite E. eapply script_clean; [constructor|vm_compute; reflexivity|exact E]. }
  split; [vm_compute; reflexivity|]. split; [vm_compute; ops_ok|]. split; [vm_compute; by repeat constructor|]. split; [vm_compute; by repeat constructor|].
  split.
  { assert (H : forall w j, w ∈ sys_ws OutLost -> is_Some (arrived_at w j) -> arrives (sys_ws OutLost) (sys_item w j)).
    { intros w j Hw [it Hit]. unfold sys_item. rewrite Hit. by eapply arrived_at_sound. }
    unfold sys_ops. apply Forall_cons; split; [apply (H _ _ (elem_of_list_here _ _)); vm_compute; by eexists|]. apply Forall_cons; split; [exact I|]. apply Forall_cons; split; [apply (H _ _ (elem_of_list_further _ _ _ (elem_of_list_here _ _))); vm_compute; by eexists|]. apply Forall_cons; split; [apply (H _ _ (elem_of_list_further _ _ _ (elem_of_list_here _ _))); vm_compute; by eexists|]. apply Forall_cons; split; [exact I|]. apply Forall_nil_2. }
  split; [vm_compute; reflexivity|]. split; [vm_compute; reflexivity|].
  split. { vm_compute. exists []. reflexivity. }
  split; [|vm_compute; reflexivity].
  eapply created_runs. vm_compute; reflexivity.
Qed.

(** C73: two writers, a table that hands out items more than once, a changed
    priority. *)
Definition sys_other : tw := after order_opts (append1 8 500 ++ append1 9 510 ++ [SEv (ECreate 6 (Fin 1) [(PropTrajWriter.run 0 0 2, false)] 51); SEv EStart; SEv ENext] ++
  replicate 3 (SEv (EChunk false OutOk)) ++ [SEv ECheck; SEv (ESend OutOk)]).
Definition two_ws : list tw := [sys_w2 OutLost; sys_other].
Definition two_ops : list op :=
  [OInsert (1, 0) d0 (sys_item sys_other 0); OInsert (2, 0) d0 (sys_item (sys_w2 OutLost) 1); OMutate [(51, Fin 5)] []; OSample 1 ds0; OSample 1 ds0; OSample 1 ds0].

Lemma NoDup_fmap_eq {A B} (f : A -> B) (l : list A) a b : NoDup (f <$> l) -> a ∈ l -> b ∈ l -> f a = f b -> a = b.
Proof.
  intros N [i Hi]%elem_of_list_lookup [j Hj]%elem_of_list_lookup E. assert (i = j) as ->; [|congruence].
  apply (NoDup_lookup _ i j (f a) N); rewrite list_lookup_fmap; [by rewrite Hi|]. rewrite Hj. cbn. by rewrite E.
Qed.
Lemma nodup_unique ws : NoDup (kc_key <$> sent_chunks ws) -> NoDup ((fun p => wi_key p.1) <$> all_created ws) -> unique_keys ws.
Proof. intros N1 N2. split; [intros a b Ha Hb E; by eapply NoDup_fmap_eq|]. intros p q Hp Hq E. f_equal. f_equal. by eapply (NoDup_fmap_eq (fun p => wi_key p.1)). Qed.

Example C73_example : let r := final ex_cfg two_ops in
  Forall writer_state two_ws /\ unique_keys two_ws /\ reached ex_cfg two_ops r.1 r.2 /\ Forall (from_writers two_ws) two_ops /\
  it_key <$> (sm_item <$> all_samples r.1) = [51; 51; 43] /\ client_gets two_ws r.1 = [Some [vec [8; 9]]; Some [vec [8; 9]]; Some [scalar 3]].
Proof.
  cbv zeta. split. { apply Forall_cons. split; [|apply Forall_cons; split; [|apply Forall_nil_2]]; exists order_opts, ex_sigs, 7; (split; [done|apply after_reach]). }
  split. { apply nodup_unique; apply (bool_decide_unpack _); vm_compute; exact I. }
  split. { split; [by repeat constructor|vm_compute; ops_ok|vm_compute; reflexivity]. }
  split.
  { assert (H : forall w j, w ∈ two_ws -> is_Some (arrived_at w j) -> arrives two_ws (sys_item w j)).
    { intros w j Hw [it Hit]. unfold sys_item. rewrite Hit. by eapply arrived_at_sound. }
    unfold two_ops. apply Forall_cons; split; [apply (H _ _ (elem_of_list_further _ _ _ (elem_of_list_here _ _))); vm_compute; by eexists|]. apply Forall_cons; split; [apply (H _ _ (elem_of_list_here _ _)); vm_compute; by eexists|]. apply Forall_cons; split; [exact I|]. apply Forall_cons; split; [exact I|]. apply Forall_cons; split; [exact I|]. apply Forall_cons; split; [exact I|]. apply Forall_nil_2. }
  split; vm_compute; reflexivity.
Qed.

(** C75: without the assumption on failed writes a queue hands out an item twice: the
    Write of item 42 fails although the server has got the message, the item is
    sampled, and the writer sends it again over its next stream. *)
Definition dup_ops : list op :=
  [OInsert (1, 0) d0 (sys_item (sys_w1 OutSent) 0); OInsert (2, 0) d0 (sys_item (sys_w1 OutSent) 1); OSample 2 ds0;
   OInsert (3, 0) d0 (sys_item (sys_w2 OutSent) 0); OSample 1 ds0].
Theorem C75_exactly_once_refuted : let r := final sys_cfg dup_ops in exists l outs q,
  validate_options order_opts = Ok /\ chain (tw_new order_opts ex_sigs 7) (sys_ws OutSent) /\
  sends (tw_new order_opts ex_sigs 7) l (sys_w2 OutSent) /\ py_table_queue 2 = Some sys_cfg /\ Forall (op_ok sys_cfg) dup_ops /\ Forall fresh_op dup_ops /\ Forall no_reset dup_ops /\
  Forall (from_writers (sys_ws OutSent)) dup_ops /\ box_run false 2 [] false dup_ops = Some (outs, q) /\ Table.run (new_table sys_cfg) dup_ops = Some (r.1, r.2) /\
  it_key <$> accepted dup_ops r.1 `prefix_of` l /\
  it_key <$> (sm_item <$> all_samples r.1) = [41; 42; 42] /\ created_keys (w_created (sys_w2 OutSent)) = [41; 42; 43].
Proof.
  cbv zeta. assert (S : is_Some (tw_script (tw_new order_opts ex_sigs 7) (order_run OutSent))) by (vm_compute; by eexists).
  exists ([] ++ script_sent (tw_new order_opts ex_sigs 7) (order_run OutSent)), (default ([], []) (box_run false 2 [] false dup_ops)).1, (default ([], []) (box_run false 2 [] false dup_ops)).2.
  split; [done|]. split; [by apply sys_chain|].
  split. { destruct S as [w E]. unfold sys_w2, after. rewrite E. eapply script_sends; [constructor|exact E]. }
  split; [vm_compute; reflexivity|]. split; [vm_compute; ops_ok|]. split; [vm_compute; by repeat constructor|]. split; [vm_compute; by repeat constructor|].
  split.
  { assert (H : forall w j, w ∈ sys_ws OutSent -> is_Some (arrived_at w j) -> arrives (sys_ws OutSent) (sys_item w j)).
    { intros w j Hw [it Hit]. unfold sys_item. rewrite Hit. by eapply arrived_at_sound. }
    unfold dup_ops. apply Forall_cons; split; [apply (H _ _ (elem_of_list_here _ _)); vm_compute; by eexists|]. apply Forall_cons; split; [apply (H _ _ (elem_of_list_here _ _)); vm_compute; by eexists|]. apply Forall_cons; split; [exact I|]. apply Forall_cons; split; [apply (H _ _ (elem_of_list_further _ _ _ (elem_of_list_here _ _))); vm_compute; by eexists|]. apply Forall_cons; split; [exact I|]. apply Forall_nil_2. }
  split; [vm_compute; reflexivity|]. split; [vm_compute; reflexivity|].
  split. { vm_compute. exists [43]. reflexivity. }
  split; vm_compute; reflexivity.
Qed.

(** C75: the first stream breaks before the server has handled item 41, whose Write
    had succeeded.  The writer does not send it again: it is never handed out,
    although the later ones are. *)
Definition lost_ops : list op :=
  [OInsert (2, 0) d0 (sys_item (sys_w2 OutLost) 0); OInsert (3, 0) d0 (sys_item (sys_w2 OutLost) 1); OSample 2 ds0].
Theorem C75_none_lost_refuted : let r := final sys_cfg lost_ops in exists l,
  chain (tw_new order_opts ex_sigs 7) (sys_ws OutLost) /\ clean_sends (tw_new order_opts ex_sigs 7) l (sys_w2 OutLost) /\ py_table_queue 2 = Some sys_cfg /\
  Forall (from_writers (sys_ws OutLost)) lost_ops /\ reached sys_cfg lost_ops r.1 r.2 /\
  it_key <$> (sm_item <$> all_samples r.1) = [42; 43] /\ created_keys (w_created (sys_w2 OutLost)) = [41; 42; 43] /\ wi_key <$> w_queue (sys_w2 OutLost) = [43].
Proof.
  cbv zeta. assert (S : is_Some (tw_script (tw_new order_opts ex_sigs 7) (order_run OutLost))) by (vm_compute; by eexists).
  exists ([] ++ script_sent (tw_new order_opts ex_sigs 7) (order_run OutLost)). split; [by apply sys_chain|].
  split. { destruct S as [w E]. unfold sys_w2, after. rewrite E. eapply script_clean; [constructor|vm_compute; reflexivity|exact E]. }
  split; [vm_compute; reflexivity|]. split.
  { assert (H : forall w j, w ∈ sys_ws OutLost -> is_Some (arrived_at w j) -> arrives (sys_ws OutLost) (sys_item w j)).
    { intros w j Hw [it Hit]. unfold sys_item. rewrite Hit. by eapply arrived_at_sound. }
    unfold lost_ops. apply Forall_cons; split; [apply (H _ _ (elem_of_list_further _ _ _ (elem_of_list_here _ _))); vm_compute; by eexists|].
    apply Forall_cons; split; [apply (H _ _ (elem_of_list_further _ _ _ (elem_of_list_here _ _))); vm_compute; by eexists|]. apply Forall_cons; split; [exact I|]. apply Forall_nil_2. }
  split. { split; [vm_compute; by repeat constructor|vm_compute; ops_ok|vm_compute; reflexivity]. }
  split; [vm_compute; reflexivity|]. split; vm_compute; reflexivity.
Qed.

Print Assumptions C73_end_to_end_partial.
Print Assumptions C73_sync_partial.
Print Assumptions C73_one_writer.
Print Assumptions C75_queue_partial.
Print Assumptions C75_exactly_once_refuted.
Print Assumptions C75_none_lost_refuted.
