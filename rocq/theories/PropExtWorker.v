(** C27 (atomic calls with an extension worker), C64 (threads that wait for room in the
    extension buffer), C65 (what asynchronous extensions see).  Model: ExtWorker.v. *)
From Verif Require Import Base RateLimiter Selector Trajectory Table EventLog TableProofs TableLog SelSpec PropSelectors TableSpec LogFacts PropTable PropLimiter TableWorker TableWorkerProofs TableWorkerSerial ExtWorker.

(** ** Programs that never wait *)

Definition prep {A} (q : list ereq) (o : option (A * list ereq)) : option (A * list ereq) := (fun x => (x.1, q ++ x.2)) <$> o.
(** The result, the table and the requests of a program that finds room every time. *)
Fixpoint collapse (p : pres) : option (result * table * list ereq) :=
  match p with
  | XDone r t => Some (r, t, [])
  | XFail => None
  | XNeed mk t k => q ← mk t; prep [q] (collapse (k t))
  end.
Lemma prep_app {A} q1 q2 (o : option (A * list ereq)) : prep q1 (prep q2 o) = prep (q1 ++ q2) o.
Proof. destruct o as [[a q]|]; [|done]. cbn. by rewrite app_assoc. Qed.
Lemma prep_nil {A} (o : option (A * list ereq)) : prep [] o = o.
Proof. by destruct o as [[a q]|]. Qed.

(** The calls of the extensions among the requests. *)
Definition events_of (l : list ereq) : list event := omap (fun q => match q with QEvent e => Some e | QRelease _ => None end) l.
Lemma events_of_app a b : events_of (a ++ b) = events_of a ++ events_of b.
Proof. apply omap_app. Qed.

(** Which operations are passed on to the extension worker. *)
Definition passed_on (has : bool) (e : event) : bool := has || match e with EvDelete _ | EvReset => true | _ => false end.

Definition logged (has : bool) (t t' : table) (q : list ereq) : Prop :=
  exists evs, t_log t' = t_log t ++ evs /\ events_of q = List.filter (passed_on has) evs.
Lemma logged_refl has t : logged has t t [].
Proof. exists []. by rewrite app_nil_r. Qed.
Lemma logged_same has t t' : t_log t' = t_log t -> logged has t t' [].
Proof. exists []. by rewrite app_nil_r. Qed.
Lemma logged_trans has t1 t2 t3 q1 q2 : logged has t1 t2 q1 -> logged has t2 t3 q2 -> logged has t1 t3 (q1 ++ q2).
Proof. intros (e1 & H1 & F1) (e2 & H2 & F2). exists (e1 ++ e2). rewrite H2, H1, app_assoc, events_of_app, F1, F2, List.filter_app. done. Qed.

Section WithFP.
Context {fp : FP} {laws : FPLaws fp}.

Definition ext_reqs (has always : bool) (e : event) : list ereq := if has || always then [QEvent e] else [].
Lemma ext_c has always ev key it t k : t_data t !! key = Some it -> collapse (ext_x has always ev key it t k) = prep (ext_reqs has always (ev it)) (collapse (k (ext_op t (ev it)))).
Proof. intros H. unfold ext_x, ext_reqs. destruct (has || always); [|by rewrite prep_nil]. cbn [collapse]. unfold item_req. cbn [t_data ext_op]. rewrite H. done. Qed.
Lemma ext_logged has always e t : always = (match e with EvDelete _ | EvReset => true | _ => false end) -> logged has t (ext_op t e) (ext_reqs has always e).
Proof. intros ->. exists [e]. split; [done|]. unfold ext_reqs. cbn. unfold passed_on. by destruct (has || _). Qed.

Lemma delete_c has t key st t' : delete_item t key = Some (st, t') ->
  exists q, (forall kont, collapse (delete_x has t key kont) = prep q (collapse (kont st t'))) /\ logged has t t' q.
Proof.
  unfold delete_item, delete_x. destruct (t_data t !! key) as [it|] eqn:Hk; [|intros [= <- <-]; exists []; split; [intros; by rewrite prep_nil|apply logged_refl]].
  destruct (dec_eps _ _ _) as [[e n]|]; [|done]. cbn zeta. intros E. exists (ext_reqs has true (EvDelete it)). split.
  - intros kont. rewrite ext_c by done. f_equal. cbn [t_data ext_op with_eps t_sampler t_remover t_limiter with_data with_limiter] in *. rewrite Hk.
    destruct (sel_delete _ _) as [st1 s1] in E |- *. destruct (decide (st1 = Ok)).
    + cbn [with_sampler t_remover] in *. destruct (sel_delete _ _) as [st2 s2] in E |- *. by injection E as <- <-.
    + by injection E as <- <-.
  - assert (Hl : t_log t' = t_log (ext_op t (EvDelete it))).
    { cbn [t_data ext_op with_eps t_sampler t_remover t_limiter with_data with_limiter] in *. destruct (sel_delete _ _) as [st1 s1] in E. destruct (decide (st1 = Ok)); [destruct (sel_delete _ _) as [st2 s2] in E|]; by injection E as <- <-. }
    destruct (ext_logged has true (EvDelete it) t eq_refl) as (evs & H1 & H2). exists evs. by rewrite Hl.
Qed.

Lemma update_c has t key p st t' : update_item t key p = (st, t') ->
  exists q, (forall kont, collapse (update_x has t key p kont) = prep q (collapse (kont st t'))) /\ logged has t t' q.
Proof.
  unfold update_item, update_x. destruct (t_data t !! key) as [it|] eqn:Hk; [|intros [= <- <-]; exists []; split; [intros; by rewrite prep_nil|apply logged_refl]].
  cbn zeta. cbn [with_data t_sampler]. destruct (sel_update (t_sampler t) key p) as [st1 s1]. destruct (decide (st1 = Ok)).
  - cbn [with_sampler with_data t_remover]. destruct (sel_update (t_remover t) key p) as [st2 s2]. destruct (decide (st2 = Ok)).
    + intros [= <- <-]. exists (ext_reqs has false (EvUpdate (item_set_priority it p))). split.
      * intros kont. rewrite ext_c; [done|]. cbn. by rewrite lookup_insert.
      * destruct (ext_logged has false (EvUpdate (item_set_priority it p)) t eq_refl) as (evs & H1 & H2). by exists evs.
    + intros [= <- <-]. exists []. split; [intros; by rewrite prep_nil|by apply logged_same].
  - intros [= <- <-]. exists []. split; [intros; by rewrite prep_nil|by apply logged_same].
Qed.

Lemma insert_c has t now d it st t' : insert_internal t now d it = Some (st, t') ->
  exists q, (forall kont, collapse (insert_x has t now d it kont) = prep q (collapse (kont st t'))) /\ logged has t t' q.
Proof.
  unfold insert_internal, insert_x. destruct (t_data t !! it_key it) as [old|] eqn:Hk.
  - intros [= E]. destruct (update_c has _ _ _ _ _ E) as (q & Q & L). destruct (decide (st = Ok)) as [->|Hne].
    + exists (q ++ [QRelease it]). split; [|eapply logged_trans; [exact L|exists []; by rewrite app_nil_r]]. intros kont. rewrite Q. rewrite bool_decide_true by done. cbn [collapse mbind option_bind]. by rewrite prep_app.
    + exists q. split; [|done]. intros kont. rewrite Q. by rewrite bool_decide_false by done.
  - unfold insert_new. cbn zeta. cbn [with_data t_sampler]. destruct (sel_insert (t_sampler t) (it_key it) (it_prio it)) as [st1 s1]. destruct (bool_decide (st1 = Ok)); cbn [negb].
    2: { intros [= <- <-]. exists []. split; [intros; by rewrite prep_nil|by apply logged_same]. }
    cbn [with_sampler with_data t_remover]. destruct (sel_insert (t_remover t) (it_key it) (it_prio it)) as [st2 s2]. destruct (bool_decide (st2 = Ok)); cbn [negb].
    2: { intros [= <- <-]. exists []. split; [intros; by rewrite prep_nil|by apply logged_same]. }
    cbn [with_remover with_sampler with_data ext_op with_eps t_eps t_del_eps t_max_size t_remover].
    set (it1 := item_set_inserted_at it now). set (t1 := ext_op (with_remover (with_sampler (with_data t (<[it_key it := it1]> (t_data t))) s1) s2) (EvInsert it1)).
    assert (Hd : t_data t1 !! it_key it = Some it1) by (cbn; by rewrite lookup_insert).
    assert (L1 : logged has t t1 (ext_reqs has false (EvInsert it1))).
    { destruct (ext_logged has false (EvInsert it1) t eq_refl) as (evs & H1 & H2). exists evs. done. }
    intros E. 
    assert (HX : exists q, (forall kont, collapse (let t := with_eps t1 (inc_eps (t_eps t1) (it_chunks it1)) (t_del_eps t1) in
        if t_max_size t <? t_size t then
          match sel_sample (t_remover t) d with
          | None => XFail
          | Some (victim, _) =>
            delete_x has t victim (fun st t =>
              if negb (bool_decide (st = Ok)) then kont st t
              else kont Ok (with_limiter t (lim_insert (t_limiter t))))
          end
        else kont Ok (with_limiter t (lim_insert (t_limiter t)))) = prep q (collapse (kont st t'))) /\ logged has t1 t' q).
    { cbn zeta. set (t2 := with_eps t1 (inc_eps (t_eps t1) (it_chunks it1)) (t_del_eps t1)). change (with_eps t1 (inc_eps (t_eps t) (it_chunks it1)) (t_del_eps t)) with t2 in E.
      change (t_max_size t) with (t_max_size t2) in E. change s2 with (t_remover t2) in E. destruct (t_max_size t2 <? t_size t2).
      - destruct (sel_sample (t_remover t2) d) as [[victim pr]|]; [|done]. destruct (delete_item t2 victim) as [[st3 t3]|] eqn:Ed; [|done].
        destruct (delete_c has _ _ _ _ Ed) as (q & Q & L). exists q. destruct (bool_decide (st3 = Ok)) eqn:Eb; cbn [negb] in E; injection E as <- <-.
        + split; [|done]. intros kont. rewrite Q. by rewrite Eb.
        + split; [|done]. intros kont. rewrite Q. by rewrite Eb.
      - injection E as <- <-. exists []. split; [intros; by rewrite prep_nil|by apply logged_same]. }
    destruct HX as (q & Q & L). exists (ext_reqs has false (EvInsert it1) ++ q). split; [|by eapply logged_trans].
    intros kont. rewrite ext_c by (cbn; by rewrite lookup_insert). rewrite <- prep_app, <- Q. f_equal. 
    change (ext_op _ _) with t1. rewrite Hd. done.
Qed.

Lemma sample_c has t d b st sm t' : sample_one t d b = Some (st, sm, t') ->
  exists q, (forall kont, collapse (sample_x has t d b kont) = prep q (collapse (kont st sm t'))) /\ logged has t t' q.
Proof.
  unfold sample_one, sample_x. destruct (sel_sample _ _) as [[k pr]|]; [|done]. destruct (t_data t !! k) as [it|] eqn:Hk; [|done]. cbn zeta.
  set (t1 := if it_times it =? 0 then with_unique t (t_unique t + 1) else t). set (it1 := item_set_times it (it_times it + 1)). set (t2 := with_data t1 (<[k := it1]> (t_data t1))).
  assert (L1 : logged has t (ext_op t2 (EvSample it1)) (ext_reqs has false (EvSample it1))).
  { destruct (ext_logged has false (EvSample it1) t eq_refl) as (evs & H1 & H2). exists evs. split; [|done]. rewrite <- H1. cbn. unfold t1. by destruct (_ =? 0). }
  assert (Hd : t_data (ext_op t2 (EvSample it1)) !! k = Some it1) by (cbn; by rewrite lookup_insert).
  intros E. assert (HX : exists q, (forall kont : status -> sampled -> table -> pres, collapse (if it_times it1 =? t_max_times (ext_op t2 (EvSample it1)) then delete_x has (ext_op t2 (EvSample it1)) (it_key it1) (fun st t => kont st (mkSampled it1 pr (t_size t2) (it_prio it1) (it_times it1) b) t)
          else kont Ok (mkSampled it1 pr (t_size t2) (it_prio it1) (it_times it1) b) (ext_op t2 (EvSample it1))) = prep q (collapse (kont st sm t'))) /\ logged has (ext_op t2 (EvSample it1)) t' q).
  { destruct (it_times it1 =? _).
    - destruct (delete_item _ _) as [[st3 t3]|] eqn:Ed; [|done]. destruct (delete_c has _ _ _ _ Ed) as (q & Q & L). exists q. injection E as <- <- <-. split; [|done]. intros kont. by rewrite Q.
    - injection E as <- <- <-. exists []. split; [intros; by rewrite prep_nil|by apply logged_same]. }
  destruct HX as (q & Q & L). exists (ext_reqs has false (EvSample it1) ++ q). split; [|by eapply logged_trans].
  intros kont. rewrite ext_c by (cbn; by rewrite lookup_insert). rewrite <- prep_app, <- Q. f_equal. by rewrite Hd.
Qed.

Lemma update_all_c has us : forall t st t', update_items t us = (st, t') -> exists q, collapse (update_all_x has t us) = Some (RStatus st, t', q) /\ logged has t t' q.
Proof.
  induction us as [|[k p] us IH]; intros t st t'; cbn [update_items update_all_x]; [intros [= <- <-]; exists []; split; [done|apply logged_refl]|].
  destruct (update_item t k p) as [st1 t1] eqn:E1. destruct (update_c has _ _ _ _ _ E1) as (q & Q & L). intros E. rewrite Q. destruct (bool_decide (st1 = Ok)).
  - destruct (IH _ _ _ E) as (q2 & -> & L2). exists (q ++ q2). split; [done|by eapply logged_trans].
  - injection E as <- <-. exists q. split; [|done]. cbn. by rewrite app_nil_r.
Qed.
Lemma mutate_c has us ks : forall t r t', mutate_items t us ks = Some (r, t') -> exists q, collapse (mutate_x has t us ks) = Some (r, t', q) /\ logged has t t' q.
Proof.
  unfold mutate_items. induction ks as [|k ks IH]; intros t r t'; cbn [delete_items mutate_x].
  - rewrite bool_decide_true by done. destruct (update_items t us) as [st t1] eqn:E1. intros [= <- <-]. by apply update_all_c.
  - destruct (delete_item t k) as [[st1 t1]|] eqn:E1; [|done]. destruct (delete_c has _ _ _ _ E1) as (q & Q & L). rewrite Q. destruct (bool_decide (st1 = Ok)) eqn:Eb.
    + intros E. destruct (IH _ _ _ E) as (q2 & -> & L2). exists (q ++ q2). split; [done|by eapply logged_trans].
    + rewrite Eb. intros [= <- <-]. exists q. split; [|done]. cbn. by rewrite app_nil_r.
Qed.

(** What the buffer has room for is done at once. *)
Lemma drive_c cap p : forall buf r t q, collapse p = Some (r, t, q) ->
  match drive cap buf p with
  | (buf', DDone r' t') => r' = r /\ t' = t /\ buf' = buf ++ q
  | (_, DCrash) => False
  | (buf', DWait mk t1 k) => exists q1 q2, buf' = buf ++ q1 /\ q = q1 ++ q2 /\ collapse (XNeed mk t1 k) = Some (r, t, q2) /\ (cap <= length buf')%nat
  end.
Proof.
  induction p as [r0 t0| |mk t0 k IH]; intros buf r t q E; [injection E as <- <- <-; cbn; by rewrite app_nil_r|done|].
  cbn [drive]. destruct (Nat.ltb_spec (length buf) cap) as [Hl|Hl].
  - cbn [collapse] in E. destruct (mk t0) as [rq|]; [|done]. cbn [mbind option_bind] in E. destruct (collapse (k t0)) as [[[r1 t1] q1]|] eqn:Ec; [|done]. cbn in E. injection E as <- <- <-.
    specialize (IH t0 (buf ++ [rq]) _ _ _ Ec). destruct (drive cap (buf ++ [rq]) (k t0)) as [buf' [r' t'| |mk' t' k']]; [|done|].
    + destruct IH as (-> & -> & ->). by rewrite <- app_assoc.
    + destruct IH as (q2 & q3 & -> & -> & H & Hc). exists (rq :: q2), q3. rewrite <- app_assoc in Hc |- *. done.
  - exists [], q. rewrite app_nil_r. done.
Qed.

(** ** Runs in which no call starts while another one waits *)

(** The calls of a run, as calls of the synchronous interface (Table.v), in the order
    in which they start; the numbers of the calls that have returned and their results,
    in that order. *)
Definition call_of (e : xev) : option op :=
  match e with
  | XMutate us ks => Some (OMutate us ks)
  | XInsert at_ d it => Some (OInsert at_ d it)
  | XSample d _ => Some (OSample 1 (fun _ => d))
  | XReset => Some OReset
  | XResume _ | XExt _ => None
  end.
Definition calls (tr : list (xev * list (nat * result))) : list op := omap (fun x => call_of x.1) tr.
Definition returns (tr : list (xev * list (nat * result))) : list (nat * result) := tr ≫= snd.
Lemma calls_app a b : calls (a ++ b) = calls a ++ calls b.
Proof. apply omap_app. Qed.
Lemma returns_app a b : returns (a ++ b) = returns a ++ returns b.
Proof. apply bind_app. Qed.

(** The selectors accept all priorities, and no call starts while a thread waits for
    room in the buffer. *)
Definition alone (cf : tcfg) (w : xw) (e : xev) (w' : xw) : Prop := x_prio cf e /\ (x_ws w = [] \/ call_of e = None).

(** All requests so far. *)
Definition requests (w : xw) : list ereq := x_seen w ++ x_cur w ++ x_buf w.

Record xinv (cf : tcfg) (has : bool) (tr : list (xev * list (nat * result))) (w : xw) (os : list op) (rs : list result) (t0 : table) : Prop := {
  xi_reached : reached cf os rs t0;
  xi_open : l_cancelled (t_limiter t0) = false;
  xi_next : x_next w = length (calls tr);
  xi_ids : (returns tr).*1 = seq 0 (length os);
  xi_res : Forall2 same_result (returns tr).*2 rs;
  xi_cur : x_pos w <> XProc -> x_cur w = [];
  xi_ws : match x_ws w with
          | [] => x_t w = t0 /\ calls tr = os /\ events_of (requests w) = List.filter (passed_on has) (t_log t0)
          | [x] => exists o r r' t' q, calls tr = os ++ [o] /\ op_ok cf o /\ is_close o = false /\ step t0 o = Some (r', t') /\ same_result r r' /\ xt_id x = length os /\
              collapse (XNeed (xt_mk x) (x_t w) (xt_k x)) = Some (r, t', q) /\ events_of (requests w ++ q) = List.filter (passed_on has) (t_log t')
          | _ => False
          end }.

Lemma rs_length cf os rs t : reached cf os rs t -> length rs = length os.
Proof.
  intros [_ _ H]. revert rs t H. generalize (new_table cf). clear. induction os as [|o os IH]; intros t0 rs t H; cbn [run] in H; [by injection H as <- <-|].
  destruct (step t0 o) as [[r t1]|]; [|done]. destruct (run t1 os) as [[rs1 t2]|] eqn:E; [|done]. injection H as <- <-. cbn. f_equal. by eapply IH.
Qed.

Lemma notify_proc a b p : notify a b p = XProc <-> p = XProc.
Proof. destruct a, b, p; done. Qed.

(** A call starts, or goes on after it waited. *)
Lemma xinv_go cf has tr w os rs t0 e id n p o r r' t' q cap :
  reached cf os rs t0 -> l_cancelled (t_limiter t0) = false -> (returns tr).*1 = seq 0 (length os) -> Forall2 same_result (returns tr).*2 rs -> (x_pos w <> XProc -> x_cur w = []) ->
  (forall outs, calls (tr ++ [(e, outs)]) = os ++ [o]) -> n = length (os ++ [o]) -> id = length os -> op_ok cf o -> is_close o = false -> step t0 o = Some (r', t') -> same_result r r' ->
  collapse p = Some (r, t', q) -> events_of (requests w ++ q) = List.filter (passed_on has) (t_log t') ->
  match go cap w id [] n p with XNext w' outs => exists os rs t0, xinv cf has (tr ++ [(e, outs)]) w' os rs t0 | XCrash => False | XNo => True end.
Proof.
  intros RE Hca Hid Hres Hcur Hcalls Hn Hi Hok Hcl Hst Hsr Hp Hlog. pose proof (drive_c cap p (x_buf w) _ _ _ Hp) as HD. unfold go.
  destruct (drive cap (x_buf w) p) as [buf [r1 t1| |mk t1 k]]; [|done|].
  - destruct HD as (-> & -> & ->). exists (os ++ [o]), (rs ++ [r']), t'. constructor; cbn [x_t x_buf x_cur x_seen x_pos x_ws x_next].
    + by eapply reached_snoc.
    + destruct (spec_step cf t0 o (re_cfg _ _ _ _ RE) (reached_linv _ _ _ _ RE) Hok) as (r2 & t2 & evs & E2 & _ & _ & _ & Hc2). rewrite Hst in E2. injection E2 as <- <-. by rewrite Hc2, Hca, Hcl.
    + by rewrite Hcalls.
    + rewrite returns_app, fmap_app, Hid, app_length. cbn. by rewrite seq_app, Hi.
    + rewrite returns_app, fmap_app. apply Forall2_app; [done|]. cbn. constructor; [done|constructor].
    + rewrite notify_proc. done.
    + split_and!; [done|by rewrite Hcalls|]. rewrite <- Hlog. unfold requests. cbn. by rewrite !app_assoc.
  - destruct HD as (q1 & q2 & -> & -> & Hc & _). exists os, rs, t0. constructor; cbn [x_t x_buf x_cur x_seen x_pos x_ws x_next app].
    + done.
    + done.
    + by rewrite Hcalls.
    + by rewrite returns_app, app_nil_r.
    + by rewrite returns_app, app_nil_r.
    + rewrite notify_proc. done.
    + exists o, r, r', t', q2. cbn [xt_id xt_mk xt_k]. split_and!; try done. rewrite <- Hlog. unfold requests. cbn. by rewrite !app_assoc.
Qed.

Lemma reset_log t : t_log (reset_table t) = t_log t ++ [EvReset].
Proof. done. Qed.

Lemma xinv_step cf has cap tr w os rs t0 e : xinv cf has tr w os rs t0 -> x_can e -> x_prio cf e -> (x_ws w = [] \/ call_of e = None) ->
  match x_step has cap w e with XNext w' outs => exists os rs t0, xinv cf has (tr ++ [(e, outs)]) w' os rs t0 | XCrash => False | XNo => True end.
Proof.
  intros [RE Hca Hn Hid Hres Hcur Hws] He Hp Ha. pose proof (li_inv _ _ (reached_linv _ _ _ _ RE)) as I.
  destruct e as [us ks|at_ d it|d lim| |i|pick]; cbn [x_step x_can x_prio call_of] in *.
  - destruct Ha as [Ha|Ha]; [|done]. rewrite Ha in Hws |- *. destruct Hws as (<- & Hc & Hl).
    destruct (mutate_ok cf (x_t w) us ks I Hp) as (t' & E). destruct (mutate_c has _ _ _ _ _ E) as (q & Q & evs & L1 & L2).
    eapply (xinv_go cf has tr w os rs (x_t w) _ _ _ _ (OMutate us ks) (RStatus Ok) (RStatus Ok) t' q); try done.
    + intros outs. rewrite calls_app, Hc. done.
    + rewrite Hn, Hc, app_length. cbn. lia.
    + by rewrite Hn, Hc.
    + by rewrite events_of_app, Hl, L1, L2, List.filter_app.
  - destruct Ha as [Ha|Ha]; [|done]. rewrite Ha in Hws |- *. destruct Hws as (<- & Hc & Hl). destruct (can_insert _ _) eqn:Hci; [|done]. destruct He as [Hd Hv].
    assert (HI : exists t', insert_internal (x_t w) at_ d it = Some (Ok, t') /\ step (x_t w) (OInsert at_ d it) = Some (RStatus Ok, t')).
    { unfold insert_internal. cbn [step]. unfold insert_or_assign. rewrite bool_decide_true by done. cbn [negb]. destruct (t_data (x_t w) !! it_key it) as [old|] eqn:Hk.
      - destruct (update_item_inv cf _ (it_key it) (it_prio it) I Hp) as (t' & -> & _). eauto.
      - destruct (insert_new_spec cf _ at_ d it I Hp Hd Hk) as (t' & E & _). exists t'. split; [done|]. unfold insert_resume, await_can_insert. rewrite Hca, Hci, Hk, E. done. }
    destruct HI as (t' & E1 & E2). destruct (insert_c has _ _ _ _ _ _ E1) as (q & Q & evs & L1 & L2).
    eapply (xinv_go cf has tr w os rs (x_t w) _ _ _ _ (OInsert at_ d it) (RStatus Ok) (RStatus Ok) t' (q ++ [])); try done.
    + intros outs. rewrite calls_app, Hc. done.
    + rewrite Hn, Hc, app_length. cbn. lia.
    + by rewrite Hn, Hc.
    + rewrite Q. done.
    + by rewrite app_nil_r, events_of_app, Hl, L1, L2, List.filter_app.
  - destruct Ha as [Ha|Ha]; [|done]. rewrite Ha in Hws |- *. destruct Hws as (<- & Hc & Hl). unfold maybe_commit_sample. destruct (can_sample _ 1) eqn:Hcs; [|done].
    destruct (can_sample_nonempty cf _ 1 (re_cfg _ _ _ _ RE) I Hcs) as [Hne _].
    destruct (sample_one_inv cf (with_limiter (x_t w) (lim_sample (t_limiter (x_t w)))) d lim (lim_sample_inv _ _ I) He Hne) as (sm & t' & E1 & _).
    destruct (sample_one_limited _ _ _ _ _ _ E1) as (sm' & E2 & Hs). destruct (sample_c has _ _ _ _ _ _ E1) as (q & Q & evs & L1 & L2).
    eapply (xinv_go cf has tr w os rs (x_t w) _ _ _ _ (OSample 1 (fun _ => d)) (RSamples Ok [sm]) (RSamples Ok [sm']) t' (q ++ [])); try done.
    + intros outs. rewrite calls_app, Hc. done.
    + rewrite Hn, Hc, app_length. cbn. lia.
    + by rewrite Hn, Hc.
    + intros ?. exact He.
    + cbn [step]. unfold sample_batch, maybe_commit_sample. rewrite Hcs. unfold sample_run. change (Z.to_nat (1 - 1)) with 0%nat. cbn [sample_loop]. rewrite E2. rewrite bool_decide_true by done. done.
    + split; [done|]. constructor; [exact Hs|constructor].
    + rewrite Q. done.
    + rewrite app_nil_r, events_of_app, Hl, L1, L2, List.filter_app. done.
  - destruct Ha as [Ha|Ha]; [|done]. rewrite Ha in Hws |- *. destruct Hws as (<- & Hc & Hl). destruct (x_pos w) as [|sg|] eqn:Hpos; [done| |done]. destruct (x_buf w) as [|b buf] eqn:Hbuf; [|done].
    exists (os ++ [OReset]), (rs ++ [RStatus Ok]), (reset_table (x_t w)). constructor; cbn [x_t x_buf x_cur x_seen x_pos x_ws x_next].
    + by eapply reached_snoc.
    + destruct (spec_step cf (x_t w) OReset (re_cfg _ _ _ _ RE) (reached_linv _ _ _ _ RE) Logic.I) as (r2 & t2 & evs & E2 & _ & _ & _ & Hc2). injection E2 as <- <-. by rewrite Hc2, Hca.
    + rewrite calls_app, app_length, Hn. cbn. lia.
    + rewrite returns_app, fmap_app, Hid, app_length. cbn. by rewrite seq_app, Hn, Hc.
    + rewrite returns_app, fmap_app. apply Forall2_app; [done|]. cbn. constructor; [done|constructor].
    + intros _. apply Hcur. done.
    + split_and!; [done|by rewrite calls_app, Hc|]. rewrite reset_log, List.filter_app, <- Hl. unfold requests. cbn [x_seen x_cur x_buf]. rewrite Hbuf, (Hcur ltac:(done)). rewrite !app_nil_r, events_of_app. f_equal. cbn. unfold passed_on. by rewrite orb_true_r.
  - destruct (x_ws w) as [|x [|]] eqn:Hx; [done| |done]. destruct Hws as (o & r & r' & t' & q & Hc & Hok & Hcl & Hst & Hsr & Hxi & Hco & Hlog). cbn [List.find List.filter]. destruct (Nat.eqb_spec (xt_id x) i) as [<-|]; [|done]. cbn [negb].
    eapply (xinv_go cf has tr w os rs t0 _ _ _ _ o r r' t' q); try done.
    + intros outs. rewrite calls_app, Hc. cbn. by rewrite app_nil_r.
    + by rewrite Hn, Hc.
  - clear Ha. assert (HS : forall w', x_t w' = x_t w -> x_ws w' = x_ws w \/ x_ws w' = signal_room pick (x_ws w) -> x_next w' = x_next w -> requests w' = requests w -> (x_pos w' <> XProc -> x_cur w' = []) ->
      exists os rs t0, xinv cf has (tr ++ [(XExt pick, [])]) w' os rs t0).
    { intros w' H1 H2 H3 H4 H5. exists os, rs, t0. constructor; rewrite ?calls_app, ?returns_app; cbn; rewrite ?app_nil_r; try done; [by rewrite H3|].
      destruct (x_ws w) as [|x [|]] eqn:Hx; [| |done].
      - assert (x_ws w' = []) as -> by (by destruct H2 as [->| ->]). by rewrite H1, H4.
      - assert (exists b, x_ws w' = [mkXt (xt_id x) (xt_mk x) (xt_k x) b]) as (b & ->).
        { destruct H2 as [->| ->]; [exists (xt_sig x); by destruct x|]. unfold signal_room. cbn [rouse List.filter]. destruct x as [a b c [|]]; cbn; eauto. }
        cbn [xt_id xt_mk xt_k]. by rewrite H1, H4. }
    destruct (x_pos w) eqn:Hpos.
    + destruct (x_buf w) as [|b buf] eqn:Hbuf; apply HS; try done; try (by left).
      * unfold requests. cbn. by rewrite Hbuf.
      * intros _. by apply Hcur.
      * unfold take_batch. cbn [x_ws]. destruct (_ <=? _)%nat; auto.
      * unfold requests, take_batch. cbn. rewrite (Hcur ltac:(done)). by rewrite app_nil_r.
    + apply HS; try done.
      * unfold take_batch. cbn [x_ws]. destruct (_ <=? _)%nat; auto.
      * unfold requests, take_batch. cbn. rewrite (Hcur ltac:(done)). by rewrite app_nil_r.
    + apply HS; try done; [by left|]. unfold requests. cbn. by rewrite <- app_assoc.
Qed.

Lemma xinv_trace cf has cap tr w : cfg_ok cf -> x_trace (alone cf) has cap (x_new (new_table cf)) tr w -> exists os rs t0, xinv cf has tr w os rs t0.
Proof.
  intros Hc. induction 1 as [|tr w e w' outs H (os & rs & t0 & IH) He E [Ha1 Ha2]].
  - exists [], [], (new_table cf). constructor; cbn; try done.
  - pose proof (xinv_step cf has cap tr w os rs t0 e IH He Ha1 Ha2) as HS. by rewrite E in HS.
Qed.

(** ** C27 *)

(** If no call starts while another one waits for room in the buffer, the calls are
    atomic, whatever the extension worker does in between and however often a call
    waits: when all have returned, they have returned in the order in which they
    started, and the table and the results are those of the same calls of a
    table without worker, one after the other.
    Missing from the full statement: calls that start while another one waits
    (C27_refuted), rejected priorities. *)
Theorem C27_atomic_partial cf has cap tr w : cfg_ok cf -> x_trace (alone cf) has cap (x_new (new_table cf)) tr w -> x_ws w = [] ->
  exists rs, reached cf (calls tr) rs (x_t w) /\ (returns tr).*1 = seq 0 (length (calls tr)) /\ Forall2 same_result (returns tr).*2 rs.
Proof.
  intros Hc H Hw. destruct (xinv_trace _ _ _ _ _ Hc H) as (os & rs & t0 & [RE Hca Hn Hid Hres _ Hws]). rewrite Hw in Hws. destruct Hws as (<- & -> & _). eauto.
Qed.

(** The process does not crash in such runs. *)
Theorem C27_no_crash cf has cap tr w e : cfg_ok cf -> x_trace (alone cf) has cap (x_new (new_table cf)) tr w -> x_can e -> x_prio cf e -> (x_ws w = [] \/ call_of e = None) ->
  x_step has cap w e <> XCrash.
Proof.
  intros Hc H He Hp Ha. destruct (xinv_trace _ _ _ _ _ Hc H) as (os & rs & t0 & I). pose proof (xinv_step cf has cap tr w os rs t0 e I He Hp Ha) as HS. by destruct (x_step has cap w e).
Qed.

(** ** C65 *)

(** The asynchronous extensions are told of every operation of the table exactly once
    and in the order in which the table performs them: what they have been told, what
    the extension worker holds and what is in the buffer is together the log of the
    table. *)
Theorem C65_told_in_order_partial cf cap tr w : cfg_ok cf -> x_trace (alone cf) true cap (x_new (new_table cf)) tr w -> x_ws w = [] ->
  events_of (x_seen w) ++ events_of (x_cur w) ++ events_of (x_buf w) = t_log (x_t w).
Proof.
  intros Hc H Hw. destruct (xinv_trace _ _ _ _ _ Hc H) as (os & rs & t0 & [RE Hca Hn Hid Hres _ Hws]). rewrite Hw in Hws. destruct Hws as (-> & _ & Hl).
  unfold requests in Hl. rewrite !events_of_app in Hl. rewrite Hl. clear. induction (t_log t0) as [|e l IH]; [done|]. cbn. by rewrite IH.
Qed.

(** When the extension worker sleeps and has no signal pending, they have been told
    of everything; their view of the table's contents is then the table's. *)
Theorem C65_view_partial cf cap tr w : cfg_ok cf -> x_trace (alone cf) true cap (x_new (new_table cf)) tr w -> x_ws w = [] -> x_pos w <> XProc -> x_buf w = [] ->
  events_of (x_seen w) = t_log (x_t w) /\ replay (events_of (x_seen w)) = t_data (x_t w).
Proof.
  intros Hc H Hw Hp Hb. pose proof (C65_told_in_order_partial _ _ _ _ Hc H Hw) as HL.
  destruct (xinv_trace _ _ _ _ _ Hc H) as (os & rs & t0 & [RE Hca Hn Hid Hres Hcur Hws]). rewrite Hb, (Hcur Hp), !app_nil_r in HL. split; [done|]. rewrite HL.
  rewrite Hw in Hws. destruct Hws as (-> & _). by apply (C20_replay _ _ _ _ RE).
Qed.

(** ** C64 *)

(** A waiting thread without signal: the buffer is full or a thread has a signal. *)
Record cinv (cap : nat) (w : xw) : Prop := {
  ci_sleep : x_pos w = XSleep false -> x_buf w = [];
  ci_wait : forall x, x ∈ x_ws w -> xt_sig x = false -> (cap <= length (x_buf w))%nat \/ exists y, y ∈ x_ws w /\ xt_sig y = true }.

(** The buffer only grows; a program that waits has found it full. *)
Lemma drive_grows cap p : forall buf, exists q, (drive cap buf p).1 = buf ++ q /\
  match (drive cap buf p).2 with
  | DDone _ _ => match p with XNeed _ _ _ => q <> [] | _ => True end
  | DWait _ _ _ => (cap <= length (buf ++ q))%nat
  | DCrash => True
  end.
Proof.
  induction p as [r0 t0| |mk t0 k IH]; intros buf; [exists []; cbn; by rewrite app_nil_r|exists []; cbn; by rewrite app_nil_r|].
  cbn [drive]. destruct (Nat.ltb_spec (length buf) cap) as [Hl|Hl]; [|exists []; cbn; by rewrite app_nil_r].
  destruct (mk t0) as [rq|]; [|exists []; cbn; by rewrite app_nil_r]. destruct (IH t0 (buf ++ [rq])) as (q & H1 & H2). exists (rq :: q). rewrite H1, <- app_assoc in *. split; [done|].
  by destruct (drive cap (buf ++ [rq]) (k t0)).2.
Qed.

Lemma notify_sleep a b p : notify a b p = XSleep false -> p = XSleep false /\ (a = [] -> b = []).
Proof. destruct a, b, p as [|[|]|]; done. Qed.

Lemma go_cinv cap w id ws n p w' outs : (x_pos w = XSleep false -> x_buf w = []) ->
  (forall x buf, x ∈ ws -> xt_sig x = false -> (exists q, buf = x_buf w ++ q) -> match p with XNeed _ _ _ => (cap <= length buf)%nat \/ exists q, q <> [] /\ buf = x_buf w ++ q | _ => True end -> (cap <= length buf)%nat \/ exists y, y ∈ ws /\ xt_sig y = true) ->
  go cap w id ws n p = XNext w' outs -> cinv cap w'.
Proof.
  intros Hs Hw. unfold go. destruct (drive_grows cap p (x_buf w)) as (q & H1 & H2). destruct (drive cap (x_buf w) p) as [buf [r t| |mk t k]]; cbn [fst snd] in *; [|done|]; intros [= <- <-]; subst buf; constructor; cbn [x_pos x_buf x_ws].
  - intros [Hp Hn]%notify_sleep. auto.
  - intros x Hx Hsx. apply (Hw x); [done|done|eauto|]. destruct p; eauto.
  - intros [Hp Hn]%notify_sleep. auto.
  - intros x _ _. by left.
Qed.

Lemma rouse_spec n : forall ws, (n < length (List.filter (fun x => negb (xt_sig x)) ws))%nat -> exists y, y ∈ rouse n ws /\ xt_sig y = true.
Proof.
  intros ws. revert n. induction ws as [|x ws IH]; intros n; cbn; [lia|]. destruct (xt_sig x) eqn:Hx; cbn [negb].
  - intros H. destruct (IH n H) as (y & Hy & ?). exists y. split; [by apply elem_of_cons; right|done].
  - cbn. destruct n as [|n]; intros H; [eexists; split; [apply elem_of_cons; by left|done]|]. destruct (IH n ltac:(lia)) as (y & Hy & ?). exists y. split; [by apply elem_of_cons; right|done].
Qed.
Lemma signal_room_spec pick ws x : x ∈ ws -> xt_sig x = false -> exists y, y ∈ signal_room pick ws /\ xt_sig y = true.
Proof.
  intros Hx Hs. apply rouse_spec. apply Nat.mod_upper_bound. apply elem_of_list_In in Hx. intros H. apply nil_length_inv in H. assert (HI : List.In x (List.filter (fun x => negb (xt_sig x)) ws)) by (apply filter_In; split; [done|by rewrite Hs]). by rewrite H in HI.
Qed.

(** At most one thread waits at any time. *)
Definition one_waits (w : xw) (e : xev) (w' : xw) : Prop := (length (x_ws w') <= 1)%nat.

Lemma cinv_step has cap w e w' outs : cinv cap w -> (cap = 1 \/ (length (x_ws w) <= 1))%nat -> x_step has cap w e = XNext w' outs -> cinv cap w'.
Proof.
  intros [Hs Hw] Hcap E.
  assert (HC : forall id n p, go cap w id (x_ws w) n p = XNext w' outs -> cinv cap w').
  { intros id n p. apply go_cinv; [done|]. intros x buf Hx Hsx [q ->] _. destruct (Hw x Hx Hsx) as [H|H]; [left; rewrite app_length; lia|by right]. }
  assert (HT : forall pick, cinv cap (take_batch cap w pick)).
  { intros pick. constructor; [done|]. unfold take_batch. cbn [x_ws x_buf]. destruct (Nat.leb_spec cap (length (x_buf w))) as [Hl|Hl].
    - intros x Hx Hsx. right. assert (HU : forall n ws, x ∈ rouse n ws -> xt_sig x = false -> x ∈ ws).
      { clear. intros n ws. revert n. induction ws as [|y ws IH]; intros n; cbn; [done|]. destruct (xt_sig y) eqn:Hy; [|destruct n].
        - intros [->|H]%elem_of_cons Hs; [by apply elem_of_cons; left|]. apply elem_of_cons. right. by eapply IH.
        - intros [->|H]%elem_of_cons Hs; [done|]. by apply elem_of_cons; right.
        - intros [->|H]%elem_of_cons Hs; [by apply elem_of_cons; left|]. apply elem_of_cons. right. by eapply IH. }
      eapply signal_room_spec; [by eapply HU|done].
    - intros x Hx Hsx. right. destruct (Hw x Hx Hsx) as [H|H]; [lia|done]. }
  destruct e as [us ks|at_ d it|d lim| |i|pick]; cbn [x_step] in E; eauto.
  - destruct (can_insert _ _); [eauto|done].
  - destruct (maybe_commit_sample _); [eauto|done].
  - destruct (x_pos w) as [|sg|] eqn:Hp; try done. destruct (x_buf w) eqn:Hb; [|done]. injection E as <- <-. constructor; cbn [x_pos x_buf x_ws]; [done|]. intros x Hx Hsx. destruct (Hw x Hx Hsx); auto.
  - destruct (List.find _ _) as [x|] eqn:Ef; [|done]. revert E. apply go_cinv; [done|]. intros y buf Hy Hsy _ HB. left. apply find_some in Ef as [F1 F2]. apply elem_of_list_In, filter_In in Hy as [Hy1 Hy2].
    destruct Hcap as [->|Hcap].
    + destruct HB as [HB|(q & Hq & ->)]; [done|]. rewrite app_length. destruct q; [done|]. cbn. lia.
    + destruct (x_ws w) as [|z [|]]; [done| |cbn in Hcap; lia]. destruct F1 as [->|[]], Hy1 as [->|[]]. by rewrite F2 in Hy2.
  - destruct (x_pos w) as [|sg|] eqn:Hp.
    + destruct (x_buf w) eqn:Hb; injection E as <- <-; [|apply HT]. constructor; cbn [x_pos x_buf x_ws]; [done|]. intros x Hx Hsx. destruct (Hw x Hx Hsx); auto.
    + injection E as <- <-. apply HT.
    + injection E as <- <-. constructor; cbn [x_pos x_buf x_ws]; [done|]. intros x Hx Hsx. destruct (Hw x Hx Hsx); auto.
Qed.

Lemma cinv_new cap t : cinv cap (x_new t).
Proof. constructor; [done|]. intros x Hx. by apply elem_of_nil in Hx. Qed.

(** Once the extension worker sleeps without signal and no waiting thread has a signal,
    nobody waits: if the buffer holds one request, or if at most one thread waits at
    any time.
    Missing from the full statement: larger buffers for which several threads wait
    (C64_refuted). *)
Theorem C64_small_buffer_partial has tr w t : x_trace (fun _ _ _ => True) has 1 (x_new t) tr w ->
  x_pos w = XSleep false -> Forall (fun x => xt_sig x = false) (x_ws w) -> x_ws w = [].
Proof.
  intros H Hp Hs. assert (I : cinv 1 w).
  { clear Hp Hs. induction H as [|tr w e w' outs H IH He E _]; [apply cinv_new|]. eapply cinv_step; [exact IH|by left|exact E]. }
  destruct I as [I1 I2]. rewrite (I1 Hp) in I2. destruct (x_ws w) as [|x ws]; [done|]. exfalso. rewrite Forall_forall in Hs.
  destruct (I2 x) as [HH|(y & Hy & Hsy)]; [by apply elem_of_cons; left|apply Hs; by apply elem_of_cons; left|cbn in HH; lia|]. by rewrite (Hs _ Hy) in Hsy.
Qed.
Theorem C64_one_thread_partial has cap tr w t : (1 <= cap)%nat -> x_trace one_waits has cap (x_new t) tr w ->
  x_pos w = XSleep false -> Forall (fun x => xt_sig x = false) (x_ws w) -> x_ws w = [].
Proof.
  intros Hcap H Hp Hs. assert (I : cinv cap w /\ (length (x_ws w) <= 1)%nat).
  { clear Hp Hs. induction H as [|tr w e w' outs H [IH1 IH2] He E Ha]; [split; [apply cinv_new|cbn; lia]|]. split; [|exact Ha]. eapply cinv_step; [exact IH1|by right|exact E]. }
  destruct I as [[I1 I2] _]. rewrite (I1 Hp) in I2. destruct (x_ws w) as [|x ws]; [done|]. exfalso. rewrite Forall_forall in Hs.
  destruct (I2 x) as [HH|(y & Hy & Hsy)]; [by apply elem_of_cons; left|apply Hs; by apply elem_of_cons; left|cbn in HH; lia|]. by rewrite (Hs _ Hy) in Hsy.
Qed.

End WithFP.

(** ** Concrete cases *)

Local Existing Instance fp_exact.
Local Existing Instance fp_exact_laws.
Local Existing Instance fp_exact_exact.

(** table.h:105-106, table.cc:144-146. *)
Definition buffer_size (max_size : Z) : nat := Z.to_nat (Z.max 1 (Z.min (max_size / 10) 1000)).

Fixpoint xplay (has : bool) (cap : nat) (ok : xw -> xev -> bool) (evs : list xev) (tr : list (xev * list (nat * result))) (w : xw) : option (list (xev * list (nat * result)) * xw) :=
  match evs with
  | [] => Some (tr, w)
  | e :: evs => if ok w e then match x_step has cap w e with XNext w' outs => xplay has cap ok evs (tr ++ [(e, outs)]) w' | _ => None end else None
  end.
Lemma xplay_trace (A : xw -> xev -> xw -> Prop) has cap ok w0 evs : (forall w e w', ok w e = true -> A w e w') -> Forall x_can evs ->
  forall tr w tr' w', x_trace A has cap w0 tr w -> xplay has cap ok evs tr w = Some (tr', w') -> x_trace A has cap w0 tr' w'.
Proof.
  intros Hok. induction 1 as [|e evs He Hes IH]; intros tr w tr' w' H E; cbn [xplay] in E; [by injection E as <- <-|].
  destruct (ok w e) eqn:Ho; [|discriminate E]. destruct (x_step has cap w e) as [w1 outs| |] eqn:Es; [|discriminate E|discriminate E]. eapply IH; [|exact E]. econstructor; eauto.
Qed.
Definition xscript (cf : tcfg) (has : bool) (cap : nat) (ok : xw -> xev -> bool) (evs : list xev) : list (xev * list (nat * result)) * xw :=
  default ([], x_new (new_table cf)) (xplay has cap ok evs [] (x_new (new_table cf))).
Lemma xscript_trace (A : xw -> xev -> xw -> Prop) cf has cap ok evs : (forall w e w', ok w e = true -> A w e w') -> Forall x_can evs -> (if xplay has cap ok evs [] (x_new (new_table cf)) then true else false) = true ->
  x_trace A has cap (x_new (new_table cf)) (xscript cf has cap ok evs).1 (xscript cf has cap ok evs).2.
Proof.
  intros Hok He. unfold xscript. destruct (xplay _ _ _ _ _ _) as [[tr w]|] eqn:E; [intros _|done]. cbn [default fst snd]. eapply xplay_trace; [exact Hok|exact He| |exact E]. constructor.
Qed.
Definition alone_b (w : xw) (e : xev) : bool := (match x_ws w with [] => true | _ => false end || match call_of e with None => true | Some _ => false end) && match e with XMutate (_ :: _) _ => false | _ => true end.
Lemma alone_b_ok cf w e w' : c_sampler cf = KFifo -> c_remover cf = KFifo -> alone_b w e = true -> alone cf w e w'.
Proof.
  intros H1 H2. unfold alone_b. intros [Ha Hb]%andb_true_iff. split.
  - destruct e as [[|] ks| | | | |]; cbn; try done. unfold prio_ok. by rewrite H1, H2.
  - apply orb_true_iff in Ha as [Ha|Ha]; [left; by destruct (x_ws w)|right; by destruct (call_of e)].
Qed.
Definition x_ins (k ep : Z) : xev := XInsert (1, 0) d0 (mk_item k 1 ep 0).
Definition prio_b (e : xev) : bool := match e with XMutate (_ :: _) _ => false | _ => true end.
Lemma prio_b_ok cf e : c_sampler cf = KFifo -> c_remover cf = KFifo -> prio_b e = true -> x_prio cf e.
Proof. intros H1 H2. destruct e as [[|] ks| | | | |]; cbn; try done. unfold prio_ok. by rewrite H1, H2. Qed.
Ltac xevs_ok := repeat first [exact d0_ok | exact Logic.I | reflexivity | constructor].

(** A table of ten items; the buffer has room for one request.  The second insertion,
    the sample and the deletion wait. *)
Definition a_cfg : tcfg := mkCfg 10 0 KFifo KFifo 1 1 (-100) 100.
Definition a_evs : list xev := [XExt 0; x_ins 1 7; x_ins 2 8; XExt 0; XResume 1; XExt 0; XSample d0 false; XExt 0; XExt 0; XResume 2; XMutate [] [2]; XExt 0; XExt 0; XResume 3; XExt 0; XExt 0; XExt 0; XReset].
Definition a_run := xscript a_cfg true (buffer_size 10) alone_b a_evs.
Example C27_example :
  cfg_ok a_cfg /\ buffer_size 10 = 1%nat /\ x_trace (alone a_cfg) true 1 (x_new (new_table a_cfg)) a_run.1 a_run.2 /\ x_ws a_run.2 = [] /\ x_pos a_run.2 = XSleep false /\
  calls a_run.1 = [OInsert (1, 0) d0 (mk_item 1 1 7 0); OInsert (1, 0) d0 (mk_item 2 1 8 0); OSample 1 (fun _ => d0); OMutate [] [2]; OReset] /\
  length (events_of (x_seen a_run.2)) = 5%nat /\
  (returns (xscript a_cfg true 1 alone_b (take 3 a_evs)).1).*1 = [0%nat].
Proof.
  split; [by repeat constructor|]. split; [done|]. split; [apply (xscript_trace (alone a_cfg) a_cfg true 1 alone_b a_evs); [by intros; apply alone_b_ok|xevs_ok|by vm_compute]|]. by vm_compute.
Qed.

(** Without asynchronous extensions; the buffer of a table of ten items has room for one
    request.  Items 1 and 2 belong to different episodes.  Item 1 is deleted; the
    request fills the buffer.  The deletion of item 2 waits for room, after it has
    dropped the episode.  Meanwhile a second client deletes item 2: it finds the item
    but not its episode, and the process aborts.  If two items share the episode,
    the item is counted and deleted twice. *)
Definition b_evs : list xev := [x_ins 1 7; x_ins 2 8; XMutate [] [1]; XMutate [] [2]].
Definition b_run := xscript a_cfg false 1 (fun _ => prio_b) b_evs.
Definition c_evs : list xev := [x_ins 1 7; x_ins 2 8; x_ins 3 8; XMutate [] [1]; XMutate [] [2]; XMutate [] [2]; XExt 0; XResume 4; XExt 0; XExt 0].
Definition c_run := xscript a_cfg false 1 (fun _ => prio_b) c_evs.
Theorem C27_refuted :
  (x_trace (fun _ e _ => x_prio a_cfg e) false 1 (x_new (new_table a_cfg)) b_run.1 b_run.2 /\ length (x_ws b_run.2) = 1%nat /\ x_step false 1 b_run.2 (XMutate [] [2]) = XCrash) /\
  (x_trace (fun _ e _ => x_prio a_cfg e) false 1 (x_new (new_table a_cfg)) c_run.1 c_run.2 /\ it_key <$> t_data (x_t c_run.2) !! 3 = Some 3 /\
   t_eps (x_t c_run.2) !! 8 = None /\ x_step false 1 c_run.2 (XResume 5) = XCrash /\ x_step false 1 c_run.2 (XMutate [] [3]) = XCrash).
Proof.
  pose proof (fun (w : xw) (e : xev) (w' : xw) => prio_b_ok a_cfg e eq_refl eq_refl) as HP.
  split; split.
  - apply (xscript_trace (fun _ e _ => x_prio a_cfg e) a_cfg false 1 (fun _ => prio_b) b_evs); [exact HP|xevs_ok|by vm_compute].
  - by vm_compute.
  - apply (xscript_trace (fun _ e _ => x_prio a_cfg e) a_cfg false 1 (fun _ => prio_b) c_evs); [exact HP|xevs_ok|by vm_compute].
  - by vm_compute.
Qed.

(** The buffer of a table of twenty items has room for two requests.  Two deletions fill
    it; two more threads wait.  The extension worker takes both requests and wakes one of
    the threads; that thread enqueues one request.  The worker takes this one, wakes
    nobody, and goes to sleep: the other thread is left waiting although the buffer is
    empty. *)
Definition e_cfg : tcfg := mkCfg 20 0 KFifo KFifo 1 1 (-100) 100.
Definition e_evs : list xev := [x_ins 1 7; x_ins 2 7; x_ins 3 7; x_ins 4 7; x_ins 5 7; XMutate [] [1]; XMutate [] [2]; XMutate [] [3]; XMutate [] [4];
  XExt 0; XResume 7; XExt 0; XExt 0; XExt 0; XExt 0].
Definition e_run := xscript e_cfg false 2 (fun _ => prio_b) e_evs.
Theorem C64_refuted :
  cfg_ok e_cfg /\ buffer_size 20 = 2%nat /\ x_trace (fun _ e _ => x_prio e_cfg e) false 2 (x_new (new_table e_cfg)) e_run.1 e_run.2 /\
  x_pos e_run.2 = XSleep false /\ x_buf e_run.2 = [] /\ (fun x => (xt_id x, xt_sig x)) <$> x_ws e_run.2 = [(8%nat, false)].
Proof.
  pose proof (fun (w : xw) (e : xev) (w' : xw) => prio_b_ok e_cfg e eq_refl eq_refl) as HP.
  split; [by repeat constructor|]. split; [done|]. split.
  - apply (xscript_trace (fun _ e _ => x_prio e_cfg e) e_cfg false 2 (fun _ => prio_b) e_evs); [exact HP|xevs_ok|by vm_compute].
  - by vm_compute.
Qed.

(** One thread waits, is woken and returns. *)
Definition f_evs : list xev := [x_ins 1 7; x_ins 2 7; XMutate [] [1]; XMutate [] [2]; XExt 0; XResume 3; XExt 0; XExt 0; XExt 0; XExt 0].
Definition f_run := xscript a_cfg false 1 (fun _ => prio_b) f_evs.
Example C64_example :
  x_trace (fun _ _ _ => True) false 1 (x_new (new_table a_cfg)) f_run.1 f_run.2 /\ x_pos f_run.2 = XSleep false /\ x_ws f_run.2 = [] /\ size (t_data (x_t f_run.2)) = 0%nat /\
  let r := xscript a_cfg false 1 (fun _ => prio_b) (take 5 f_evs) in (fun x => (xt_id x, xt_sig x)) <$> x_ws r.2 = [(3%nat, true)].
Proof.
  split; [|by vm_compute]. apply (xscript_trace (fun _ _ _ => True) a_cfg false 1 (fun _ => prio_b) f_evs); [done|xevs_ok|by vm_compute].
Qed.

Print Assumptions C27_atomic_partial.
Print Assumptions C27_no_crash.
Print Assumptions C27_refuted.
Print Assumptions C64_small_buffer_partial.
Print Assumptions C64_one_thread_partial.
Print Assumptions C64_refuted.
Print Assumptions C65_told_in_order_partial.
Print Assumptions C65_view_partial.
