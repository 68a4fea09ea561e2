(** C100: the with statement of a TrajectoryWriter. *)
From Verif Require Import Base Trajectory Tensor TrajUtil ChunkerOptions Sample Stream Reactor PropTraj PropSample PropStream PropInsertStream
  Chunker PropChunker TrajWriter TrajWriterProofs PropTrajWriter WithBlock.

(** ** Specification *)

(** The keys of the items that create_item made and of those that the server has
    confirmed are [created_in] and [confirmed_in] of C41. *)

(** The item that the stream worker is about to send or has just sent. *)
Definition in_hand (w : tw) : option Z :=
  match w_pos w with
  | WChunks it _ _ _ | WCheck it _ _ | WWait it _ _ _ | WSend it _ _ | WPop it _ => Some (wi_key it)
  | _ => None
  end.
(** The items that the server got over the stream. *)
Definition written (w : tw) : list Z := confirmable (w_wire w).

Section With.
Context (o : copts) (sigs : option (gmap Z (option (list tspec)))) (ep : Z) (Ho : validate_options o = Ok).

(** ** Proofs *)

Lemma ystep_tw y e y' l : yenabled y e -> ystep y e = Some (y', l) ->
  (l = [] /\ y_tw y' = y_tw y) \/ exists e' r, l = [(e', r)] /\ tw_enabled (y_tw y) e' /\ tw_step (y_tw y) e' = TNext (y_tw y') r.
Proof.
  intros He H. destruct e as [e|x nk|e|nk newep|]; cbn [ystep yenabled] in *.
  - destruct (y_phase y); [|done..]. destruct (y_gone y); [done|].
    destruct (tw_step (y_tw y) e) as [| |w r] eqn:E; try done. injection H as <- <-. right. by exists e, r.
  - destruct (y_phase y); [|done..]. destruct (y_gone y); [done|]. destruct (w_user (y_tw y)) eqn:Eu; [|done..].
    destruct (exit_flushes x); [|injection H as <- <-; by left].
    destruct (tw_step (y_tw y) (EFlush 0 nk)) as [| |w [st|]] eqn:E; try done; injection H as <- <-; right; eexists _, _; (split; [done|]); by split.
  - destruct (user_event e); [done|]. destruct (tw_step (y_tw y) e) as [| |w r] eqn:E; try done. injection H as <- <-. right. by exists e, r.
  - destruct (y_phase y); [done| |done].
    destruct (tw_step (y_tw y) (EDone false nk newep)) as [| |w [st|]] eqn:E; try done; injection H as <- <-; right; eexists _, _; (split; [done|]); by split.
  - assert (G : match tw_step (y_tw y) EClose with
      | TNext w r => Some (mkPyw w (y_phase y) true, [(EClose, r)]) | _ => None end = Some (y', l)).
    { destruct (y_phase y); [|done|]; (destruct (y_gone y); [done|]); by destruct (w_user (y_tw y)). }
    cbn [tw_step] in G. injection G as <- <-. right. exists EClose, None. split; [done|]. split; [exact I|done].
Qed.

Lemma ytrace_tw tr y : ytrace (pyw_new o sigs ep) tr y -> tw_trace (tw_new o sigs ep) tr (y_tw y).
Proof.
  induction 1 as [|tr y e y' l H IH He E]; [constructor|].
  destruct (ystep_tw _ _ _ _ He E) as [[-> Ew]|(e' & r & -> & He' & E')]; [rewrite app_nil_r, Ew; done|].
  by eapply tt_snoc.
Qed.

(** While __exit__ waits, the last flush is its own. *)
Lemma exit_shape tr y x : ytrace (pyw_new o sigs ep) tr y -> y_phase y = PExit x ->
  exists tr1 nk tr2, tr = tr1 ++ (EFlush 0 nk, None) :: tr2 /\ Forall (fun z => ~ flush_event z.1) tr2 /\ exit_flushes x = true.
Proof.
  intros H. revert x. induction H as [|tr y e y' l H IH He E]; intros x Hx; [done|].
  destruct e as [e|x0 nk|e|nk newep|]; cbn [ystep] in E.
  - destruct (y_phase y) eqn:Ep; [|done..]. destruct (y_gone y); [done|].
    destruct (tw_step (y_tw y) e) as [| |w r]; try done. injection E as <- <-. cbn in Hx. congruence.
  - destruct (y_phase y); [|done..]. destruct (y_gone y); [done|]. destruct (w_user (y_tw y)); [|done..].
    destruct (exit_flushes x0) eqn:Ef; [|injection E as <- <-; done].
    destruct (tw_step (y_tw y) (EFlush 0 nk)) as [| |w [st|]]; try done; injection E as <- <-; [done|].
    cbn in Hx. injection Hx as <-. exists tr, nk, []. split; [done|]. by split.
  - destruct (user_event e) eqn:Eu; [done|]. destruct (tw_step (y_tw y) e) as [| |w r]; try done. injection E as <- <-. cbn in Hx.
    destruct (IH x Hx) as (tr1 & nk & tr2 & -> & HF & Hf). exists tr1, nk, (tr2 ++ [(e, r)]). split; [by rewrite <- app_assoc|].
    split; [|done]. apply Forall_app. split; [done|]. apply Forall_cons. split; [|constructor]. destruct e; first [discriminate Eu | intros []].
  - destruct (y_phase y); [done| |done].
    destruct (tw_step (y_tw y) (EDone false nk newep)) as [| |w [st|]]; try done; injection E as <- <-; done.
  - destruct (y_phase y) eqn:Ep; [|done|]; (destruct (y_gone y); [done|]); (destruct (w_user (y_tw y)); [|done..]);
      injection E as <- <-; cbn in Hx; congruence.
Qed.

Lemma no_create e r : user_event e = false -> created_in [(e, r)] = [].
Proof. intros H. destruct e; first [discriminate H | reflexivity]. Qed.

(** The with statement ended without an exception, or with an exception of its body that is
    not one of Reverb: all items are confirmed, at this moment and whatever happens later. *)
Theorem C100_left tr y : ytrace (pyw_new o sigs ep) tr y ->
  y_phase y = PLeft WNormal \/ y_phase y = PLeft (WBody XOther) ->
  forall key, key ∈ created_in tr -> key ∈ confirmed_in tr.
Proof.
  induction 1 as [|tr y e y' l H IH He E]; intros Hx key Hk; [by apply elem_of_nil in Hk|].
  assert (KEEP : created_in l = [] -> (y_phase y = PLeft WNormal \/ y_phase y = PLeft (WBody XOther)) -> key ∈ confirmed_in (tr ++ l)).
  { intros El Hp. rewrite created_in_app, El, app_nil_r in Hk. rewrite confirmed_in_app. apply elem_of_app. left. by apply IH. }
  pose proof E as E0. destruct e as [e|x0 nk|e|nk newep|]; cbn [ystep] in E.
  - destruct (y_phase y) eqn:Ep; [|done..]. destruct (y_gone y); [done|].
    destruct (tw_step (y_tw y) e) as [| |w r]; try done. injection E as <- <-. cbn in Hx. rewrite Ep in Hx. by destruct Hx.
  - destruct (y_phase y); [|done..]. destruct (y_gone y); [done|]. destruct (w_user (y_tw y)) eqn:Eu; [|done..].
    destruct (exit_flushes x0) eqn:Ef.
    + destruct (tw_step (y_tw y) (EFlush 0 nk)) as [| |w [st|]] eqn:Es; try done; injection E as <- <-; cbn in Hx; [|by destruct Hx].
      exfalso. assert (st = Ok) as ->.
      { unfold after_flush in Hx. destruct (decide (st = Ok)) as [|Hne]; [done|]. rewrite bool_decide_eq_false_2 in Hx by done. by destruct Hx. }
      cbn [tw_step] in Es. rewrite Eu in Es. unfold flush_begin in Es. destruct (force_flush _ _ _) as [[st w1]|]; [|done].
      destruct (decide (st = Ok)) as [->|Hne]; [rewrite bool_decide_eq_true_2 in Es by done|rewrite bool_decide_eq_false_2 in Es by done];
        [done|]. injection Es as _ ->. done.
    + injection E as <- <-. cbn in Hx. destruct x0 as [[]|]; [|done..]. cbn in Hx. by destruct Hx.
  - destruct (user_event e) eqn:Eu; [done|]. destruct (tw_step (y_tw y) e) as [| |w r]; try done. injection E as <- <-. cbn in Hx.
    apply KEEP; [by apply no_create|done].
  - destruct (y_phase y) as [|x|] eqn:Ep; [done| |done].
    destruct (exit_shape _ _ _ H Ep) as (tr1 & nk1 & tr2 & Etr & HF & _).
    destruct (tw_step (y_tw y) (EDone false nk newep)) as [| |w [st|]] eqn:Es; try done; injection E as <- <-. cbn in Hx.
    assert (st = Ok) as ->.
    { unfold after_flush in Hx. destruct (decide (st = Ok)) as [|Hne]; [done|]. rewrite bool_decide_eq_false_2 in Hx by done. by destruct Hx. }
    assert (HT : tw_trace (tw_new o sigs ep) (tr ++ [(EDone false nk newep, Some Ok)]) w).
    { eapply tt_snoc; [by apply ytrace_tw|exact He|exact Es]. }
    rewrite Etr in HT. rewrite <- app_assoc in HT. cbn [app] in HT.
    rewrite created_in_app in Hk. cbn in Hk. rewrite app_nil_r in Hk. rewrite confirmed_in_app. apply elem_of_app. left.
    rewrite Etr in Hk |- *. eapply C41_trajectory_all; [exact Ho|exact HT| |exact HF|exact Hk]. left. by eexists.
  - destruct (y_phase y) eqn:Ep; [|done|]; (destruct (y_gone y); [done|]); (destruct (w_user (y_tw y)); [|done..]);
      injection E as <- <-; cbn in Hx; [by destruct Hx|]. by apply KEEP.
Qed.

(** How the statement ends, if its body ended with [x]. *)
Definition fits (x : option pexc) (r : wres) : Prop :=
  match r with WFailed st => st <> Ok | WNormal => x = None | WBody x' => x = Some x' end.
Lemma after_flush_fits x st : fits x (after_flush x st).
Proof.
  unfold after_flush. destruct (decide (st = Ok)) as [->|Hne]; [rewrite bool_decide_eq_true_2 by done|by rewrite bool_decide_eq_false_2].
  by destruct x.
Qed.
Lemma leaving_step x y e y' l : ystep y e = Some (y', l) -> y_phase y = PExit x \/ (exists r, y_phase y = PLeft r /\ fits x r) ->
  y_phase y' = PExit x \/ (exists r, y_phase y' = PLeft r /\ fits x r).
Proof.
  intros H Hx. destruct e as [e|x0 nk|e|nk newep|]; cbn [ystep] in H.
  - destruct Hx as [Hx|(r & Hx & _)]; by rewrite Hx in H.
  - destruct Hx as [Hx|(r & Hx & _)]; by rewrite Hx in H.
  - destruct (user_event e); [done|]. destruct (tw_step (y_tw y) e) as [| |w q]; try done. by injection H as <- <-.
  - destruct Hx as [Hx|(r & Hx & _)]; rewrite Hx in H; [|done].
    destruct (tw_step (y_tw y) (EDone false nk newep)) as [| |w [st|]]; try done. injection H as <- <-. right. eexists. split; [done|]. apply after_flush_fits.
  - destruct Hx as [Hx|(r & Hx & Hf)]; rewrite Hx in H; [done|]. destruct (y_gone y); [done|]. destruct (w_user (y_tw y)); [|done..].
    cbn [tw_step] in H. injection H as <- <-. right. by exists r.
Qed.

(** The statement ends with an exception of flush only if flush has failed, otherwise with
    the exception of the body, if there is one. *)
Theorem C100_result y x nk y1 l tr2 y2 r : ystep y (YLeave x nk) = Some (y1, l) -> ytrace y1 tr2 y2 -> y_phase y2 = PLeft r ->
  match r with
  | WFailed st => st <> Ok
  | WNormal => x = None
  | WBody x' => x = Some x'
  end.
Proof.
  intros H T Hr. assert (K : y_phase y2 = PExit x \/ (exists r, y_phase y2 = PLeft r /\ fits x r)).
  { clear Hr. induction T as [|tr2 y3 e y4 l3 T IH He E]; [|eapply leaving_step; [exact E|]].
    - cbn [ystep] in H. destruct (y_phase y); [|done..]. destruct (y_gone y); [done|]. destruct (w_user (y_tw y)); [|done..].
      destruct (exit_flushes x) eqn:Ef.
      + destruct (tw_step (y_tw y) (EFlush 0 nk)) as [| |w [st|]]; try done; injection H as <- <-; [|by left].
        right. eexists. split; [done|]. apply after_flush_fits.
      + injection H as <- <-. right. eexists. split; [done|]. by destruct x.
    - by apply IH. }
  destruct K as [K|(r' & K & F)]; [congruence|]. assert (r' = r) as -> by congruence. exact F.
Qed.

(** ** After __del__ *)

Definition sealed (S : Z -> Prop) (w : tw) : Prop :=
  w_closed w = true /\ (forall k, k ∈ written w -> S k) /\ (forall k, in_hand w = Some k -> S k).

Lemma in_hand_pos w p : in_hand (set_pos w p) = match p with
  | WChunks it _ _ _ | WCheck it _ _ | WWait it _ _ _ | WSend it _ _ | WPop it _ => Some (wi_key it) | _ => None end.
Proof. done. Qed.

Lemma confirmable_app a b : confirmable (a ++ b) = confirmable a ++ confirmable b.
Proof. unfold confirmable. by rewrite omap_app. Qed.

Lemma sealed_back S w e w' r : sealed S w -> user_event e = false -> tw_step w e = TNext w' r -> sealed S w'.
Proof.
  intros (C & W & P) Hu E. destruct e; try done; cbn [tw_step] in E.
  - destruct (w_pos w) eqn:Ep; try done. rewrite C in E. destruct (negb _); injection E as <- <-; unfold worker_return; rewrite C; by repeat split.
  - destruct (w_pos w) eqn:Ep; try done. rewrite C in E. injection E as <- <-. by repeat split.
  - unfold in_hand in P. destruct (w_pos w) as [| |it [|r0 rest] s q| | | | | |] eqn:Ep; try done.
    + injection E as <- <-. by repeat split.
    + destruct (w_cell w r0) as [c|]; [|done]. destruct (ce_chunk c) as [ch|]; [|injection E as <- <-; by repeat split].
      destruct (bool_decide _); [injection E as <- <-; by repeat split|]. destruct big; [|injection E as <- <-; by repeat split].
      injection E as <- <-. unfold send. split; [by destruct (delivered _)|]. split.
      * destruct (delivered _); [|exact W]. unfold written. cbn. rewrite confirmable_app. cbn. rewrite app_nil_r. exact W.
      * rewrite in_hand_pos. by destruct (write_ok _).
  - unfold in_hand in P. destruct (w_pos w) eqn:Ep; try done. destruct (forallb _ _); [injection E as <- <-; by repeat split|].
    destruct (forallb _ _); injection E as <- <-; by repeat split.
  - destruct (w_pos w) eqn:Ep; try done. injection E as <- <-. by repeat split.
  - unfold in_hand in P. destruct (w_pos w) as [| | | | |it s q| | |] eqn:Ep; try done.
    assert (W2 : forall k, k ∈ confirmable (w_wire w ++ [item_message it q s]) -> S k).
    { intros k Hk. rewrite confirmable_app in Hk. apply elem_of_app in Hk as [Hk|Hk]; [by apply W|]. cbn in Hk.
      apply elem_of_list_singleton in Hk as ->. by apply P. }
    unfold send in E. destruct (write_ok _), (delivered _); injection E as <- <-; by repeat split.
  - unfold in_hand in P. destruct (w_pos w) eqn:Ep; try done. injection E as <- <-. by repeat split.
  - destruct (w_pos w) eqn:Ep; try done. injection E as <- <-. unfold worker_return. rewrite C. by repeat split.
  - assert (G : (if forallb (fun k => bool_decide (k ∈ confirmable (w_wire w))) keys then
        TNext (set_acked (set_flight w (w_flight w ∖ list_to_set keys)) (list_to_set keys ∪ w_acked w)) None else TBlocked) = TNext w' r) by (by destruct (w_pos w)).
    destruct (forallb _ keys) eqn:Ef; [|done]. injection G as <- <-. by repeat split.
  - unfold in_hand in P. destruct (w_pos w) eqn:Ep; try done. destruct (col_step w c (KTune a)) as [w1|] eqn:Ec; [|done].
    destruct (col_step_frame _ _ _ _ Ec) as [m ->]. injection E as <- <-.
    split; [done|]. split; [done|]. unfold in_hand. cbn. by rewrite Ep.
Qed.
Lemma sealed_confirm S w keys w' r : sealed S w -> tw_step w (EConfirm keys) = TNext w' r -> forall k, k ∈ keys -> S k.
Proof.
  intros (C & W & P) E k Hk. cbn [tw_step] in E.
  assert (G : (if forallb (fun k => bool_decide (k ∈ confirmable (w_wire w))) keys then
      TNext (set_acked (set_flight w (w_flight w ∖ list_to_set keys)) (list_to_set keys ∪ w_acked w)) None else TBlocked) = TNext w' r) by (by destruct (w_pos w)).
  destruct (forallb _ keys) eqn:Ef; [|done]. rewrite forallb_forall in Ef. apply elem_of_list_In, Ef, bool_decide_eq_true_1 in Hk. by apply W.
Qed.

Definition dead (y : pyw) : Prop := y_gone y = true /\ forall x, y_phase y <> PExit x.
Lemma dead_step S y e y' l : dead y -> sealed S (y_tw y) -> ystep y e = Some (y', l) ->
  dead y' /\ sealed S (y_tw y') /\ created_in l = [] /\ forall k, k ∈ confirmed_in l -> S k.
Proof.
  intros [G D] HS H. destruct e as [e|x nk|e|nk newep|]; cbn [ystep] in H; rewrite ?G in H.
  - by destruct (y_phase y).
  - by destruct (y_phase y).
  - destruct (user_event e) eqn:Eu; [done|]. destruct (tw_step (y_tw y) e) as [| |w r] eqn:E; try done. injection H as <- <-.
    split; [done|]. split; [by eapply sealed_back|]. split; [by apply no_create|]. intros k Hk.
    destruct e; try (by apply elem_of_nil in Hk). unfold confirmed_in in Hk. cbn in Hk. rewrite app_nil_r in Hk. by eapply sealed_confirm.
  - destruct (y_phase y) eqn:Ep; [done| |done]. exfalso. by eapply D.
  - destruct (y_phase y); done.
Qed.

(** After __del__ the writer makes no item and the server confirms none but those that it had
    got over the stream before, and at most one more, which the stream worker was about to
    send. *)
Theorem C100_deleted y y1 l tr2 y2 : ystep y YDel = Some (y1, l) -> ytrace y1 tr2 y2 ->
  created_in (l ++ tr2) = [] /\
  forall key, key ∈ confirmed_in (l ++ tr2) -> key ∈ written (y_tw y) \/ in_hand (y_tw y) = Some key.
Proof.
  intros H1 H2. pose (S := fun key => key ∈ written (y_tw y) \/ in_hand (y_tw y) = Some key).
  assert (B : dead y1 /\ sealed S (y_tw y1) /\ l = [(EClose, None)]).
  { assert (Hp : forall x, y_phase y <> PExit x) by (intros x Hx; cbn [ystep] in H1; by rewrite Hx in H1).
    assert (G : y1 = mkPyw (close (y_tw y)) (y_phase y) true /\ l = [(EClose, None)]).
    { cbn [ystep] in H1. destruct (y_phase y); [|done|]; (destruct (y_gone y); [done|]); (destruct (w_user (y_tw y)); [|done..]); by injection H1 as <- <-. }
    destruct G as [-> ->]. split; [by split|]. split; [|done].
    assert (C : w_closed (close (y_tw y)) = true /\ w_wire (close (y_tw y)) = w_wire (y_tw y) /\ in_hand (close (y_tw y)) = in_hand (y_tw y)).
    { unfold close. destruct (w_closed (y_tw y)) eqn:Ec; [done|]. unfold signal, in_hand. cbn. destruct (w_pos (y_tw y)) eqn:Ep; cbn; by rewrite ?Ep. }
    destruct C as (C1 & C2 & C3). cbn [y_tw]. split; [done|]. unfold written. rewrite C2, C3. split; intros k Hk; [by left|by right]. }
  destruct B as (D & HS & ->).
  assert (K : dead y2 /\ sealed S (y_tw y2) /\ created_in tr2 = [] /\ forall key, key ∈ confirmed_in tr2 -> S key).
  { induction H2 as [|tr2 y3 e y4 l3 H IH He E]; [split; [done|]; split; [done|]; split; [done|]; intros k Hk; by apply elem_of_nil in Hk|].
    destruct IH as (D' & S' & C' & K'). destruct (dead_step S _ _ _ _ D' S' E) as (D2 & S2 & C2 & K2).
    split; [done|]. split; [done|]. rewrite created_in_app, confirmed_in_app, C', C2. split; [done|].
    intros k [Hk|Hk]%elem_of_app; [by apply K'|by apply K2]. }
  destruct K as (_ & _ & K1 & K2). rewrite created_in_app, confirmed_in_app, K1. split; [done|]. intros key Hk.
  apply elem_of_app in Hk as [Hk|Hk]; [by apply elem_of_nil in Hk|by apply K2].
Qed.
End With.

(** ** Examples *)

Inductive wsev := WB (s : sev) | WK (e : tev) | WL (x : option pexc) (b : Z) | WR (b newep : Z) | WD.
Definition wsev_event (s : wsev) : yev :=
  match s with WB s => YBody (sev_event s) | WK e => YBack e | WL x b => YLeave x (nkf b) | WR b newep => YReturn (nkf b) newep | WD => YDel end.
Definition yenabled_b (y : pyw) (s : wsev) : bool :=
  match s with
  | WB s => tw_enabled_b (y_tw y) s
  | WK e => tw_enabled_b (y_tw y) (SEv e)
  | WL _ b => tw_enabled_b (y_tw y) (SFlush 0 b)
  | WR b newep => tw_enabled_b (y_tw y) (SDone false b newep)
  | WD => true
  end.
Fixpoint yscript (y : pyw) (es : list wsev) : option (pyw * list (tev * option status)) :=
  match es with
  | [] => Some (y, [])
  | s :: es =>
    if yenabled_b y s then
      match ystep y (wsev_event s) with
      | Some (y1, l) => match yscript y1 es with Some (y2, l2) => Some (y2, l ++ l2) | None => None end
      | None => None
      end
    else None
  end.
Lemma yenabled_sound y s : yenabled_b y s = true -> yenabled y (wsev_event s).
Proof.
  destruct s as [s|e|x b|b newep|]; intros H; cbn [yenabled wsev_event yenabled_b] in *.
  - by apply tw_enabled_sound.
  - exact (tw_enabled_sound _ (SEv e) H).
  - exact (tw_enabled_sound _ (SFlush 0 b) H).
  - exact (tw_enabled_sound _ (SDone false b newep) H).
  - exact I.
Qed.
Lemma yscript_trace y0 es : forall tr y y' l, ytrace y0 tr y -> yscript y es = Some (y', l) -> ytrace y0 (tr ++ l) y'.
Proof.
  induction es as [|s es IH]; intros tr y y' l H; cbn [yscript]; [intros [= <- <-]; by rewrite app_nil_r|].
  destruct (yenabled_b y s) eqn:Hb; [|discriminate]. destruct (ystep y (wsev_event s)) as [[y1 l1]|] eqn:E; [|discriminate].
  destruct (yscript y1 es) as [[y2 l2]|] eqn:E2; [|discriminate]. intros [= <- <-]. rewrite app_assoc.
  eapply IH; [|exact E2]. eapply yt_snoc; [exact H|by apply yenabled_sound|exact E].
Qed.

(** Two steps and an item of both. *)
Definition ex_body : list wsev :=
  WB <$> (append1 1 100 ++ append1 2 110 ++ [SEv (ECreate 5 (Fin 1) [([(0, 0); (0, 1)]%nat, false); ([(0, 1)]%nat, true)] 41)]).
(** The worker sends the item. *)
Definition ex_worker : list tev :=
  [EStart; ENext; EChunk false OutOk; EChunk false OutOk; EChunk false OutOk; EChunk false OutOk; ECheck; ESend OutOk; EPop; EConfirm [41]].
Definition ex_with (x : option pexc) : list wsev := ex_body ++ [WL x 200] ++ (WK <$> ex_worker) ++ [WR 300 8].
Definition outcome (es : list wsev) : option (phase * bool * list Z * list Z) :=
  match yscript (pyw_new ex_opts ex_sigs 7) es with
  | Some (y, l) => Some (y_phase y, y_gone y, created_in l, confirmed_in l)
  | None => None
  end.

Example C100_example :
  outcome (ex_with None) = Some (PLeft WNormal, false, [41], [41]) /\
  outcome (ex_with (Some XOther) ++ [WD]) = Some (PLeft (WBody XOther), true, [41], [41]) /\
  outcome (ex_body ++ [WL (Some XReverb) 200; WD]) = Some (PLeft (WBody XReverb), true, [41], []).
Proof. vm_compute. done. Qed.


(** The hypotheses of the theorems are met: the traces of the example. *)
Example C100_example_trace :
  (exists tr y, ytrace (pyw_new ex_opts ex_sigs 7) tr y /\ y_phase y = PLeft WNormal /\ created_in tr = [41]) /\
  (exists tr y, ytrace (pyw_new ex_opts ex_sigs 7) tr y /\ y_phase y = PLeft (WBody XOther) /\ created_in tr = [41]).
Proof.
  assert (K : forall x, exists tr y, ytrace (pyw_new ex_opts ex_sigs 7) tr y /\ y_phase y = PLeft (body_result x) /\ created_in tr = [41]
    \/ exit_flushes x = false).
  { intros x. destruct x as [[]|]; [exists [], (pyw_new ex_opts ex_sigs 7); by right|..];
      [set (es := ex_with (Some XOther)); assert (V : outcome es = Some (PLeft (WBody XOther), false, [41], [41])) by (vm_compute; reflexivity)
      |set (es := ex_with None); assert (V : outcome es = Some (PLeft WNormal, false, [41], [41])) by (vm_compute; reflexivity)];
      (destruct (yscript (pyw_new ex_opts ex_sigs 7) es) as [[y l]|] eqn:E; [|vm_compute in E; discriminate]);
      assert (O : outcome es = Some (y_phase y, y_gone y, created_in l, confirmed_in l)) by (unfold outcome; by rewrite E);
      (rewrite V in O; injection O as O1 _ O3 _; exists l, y); left; (split; [eapply (yscript_trace _ _ []); [constructor|exact E]|by split]). }
  split; [destruct (K None) as (tr & y & [H|H])|destruct (K (Some XOther)) as (tr & y & [H|H])]; try discriminate H; by exists tr, y.
Qed.

(** Not all items that were made reach the server: those made before an exception of Reverb,
    or by a writer that is dropped without a flush, are lost whatever happens later. *)
Theorem C100_lost_refuted : exists tr y1 tr',
  ytrace (pyw_new ex_opts ex_sigs 7) tr y1 /\ ytrace (pyw_new ex_opts ex_sigs 7) tr' (mkPyw (y_tw y1) PBody true) /\
  y_phase y1 = PLeft (WBody XReverb) /\
  41 ∈ created_in tr /\ 41 ∈ created_in tr' /\
  (forall tr2 y2, ytrace y1 tr2 y2 -> 41 ∉ confirmed_in (tr ++ tr2)) /\
  (forall tr2 y2, ytrace (mkPyw (y_tw y1) PBody true) tr2 y2 -> 41 ∉ confirmed_in (tr' ++ tr2)).
Proof.
  destruct (yscript (pyw_new ex_opts ex_sigs 7) ex_body) as [[y l]|] eqn:E; [|vm_compute in E; discriminate].
  assert (O : outcome ex_body = Some (y_phase y, y_gone y, created_in l, confirmed_in l)) by (unfold outcome; by rewrite E).
  assert (V : outcome ex_body = Some (PBody, false, [41], [])) by (vm_compute; reflexivity).
  rewrite V in O. clear V. injection O as O1 O2 O3 O4.
  assert (T : ytrace (pyw_new ex_opts ex_sigs 7) l y) by (eapply (yscript_trace _ _ []); [constructor|exact E]).
  assert (Y : match yscript (pyw_new ex_opts ex_sigs 7) ex_body with
    | Some (y, _) => (match w_user (y_tw y) with UIdle => true | _ => false end, written (y_tw y), in_hand (y_tw y), fresh_from_b (y_tw y) 200) | None => (false, [], None, false) end = (true, [], None, true))
    by (vm_compute; reflexivity).
  rewrite E in Y. injection Y as Y1 Y2 Y3 Y4.
  destruct (w_user (y_tw y)) eqn:Eu; [|discriminate..].
  clear E. destruct y as [w ph g]. cbn [y_tw y_phase y_gone] in *. subst ph g.
  pose (yl := mkPyw w (PLeft (WBody XReverb)) false).
  assert (L : ystep (mkPyw w PBody false) (YLeave (Some XReverb) (nkf 200)) = Some (yl, [])) by (cbn; by rewrite Eu).
  assert (TL : ytrace (pyw_new ex_opts ex_sigs 7) (l ++ []) yl).
  { eapply yt_snoc; [exact T| |exact L]. exact (tw_enabled_sound w (SFlush 0 200) Y4). }
  assert (D1 : ystep yl YDel = Some (mkPyw (close w) (PLeft (WBody XReverb)) true, [(EClose, None)])) by (cbn; by rewrite Eu).
  assert (D2 : ystep (mkPyw w PBody false) YDel = Some (mkPyw (close w) PBody true, [(EClose, None)])) by (cbn; by rewrite Eu).
  exists ((l ++ []) ++ [(EClose, None)]), (mkPyw (close w) (PLeft (WBody XReverb)) true), (l ++ [(EClose, None)]).
  split; [eapply yt_snoc; [exact TL| |exact D1]; exact I|]. split; [eapply yt_snoc; [exact T| |exact D2]; exact I|]. split; [done|].
  rewrite app_nil_r in *. rewrite !created_in_app, <- O3. split; [by left|]. split; [by left|].
  assert (N : 41 ∉ confirmed_in l).
  { rewrite <- O4. intros Hk. by apply elem_of_nil in Hk. }
  split; intros tr2 y2 H Hk; rewrite <- app_assoc, confirmed_in_app in Hk; apply elem_of_app in Hk as [Hk|Hk]; [done| |done|].
  - destruct (C100_deleted _ _ _ _ _ D1 H) as [_ K]. destruct (K _ Hk) as [K1|K1]; cbn [y_tw yl] in K1; [rewrite Y2 in K1; by apply elem_of_nil in K1|congruence].
  - destruct (C100_deleted _ _ _ _ _ D2 H) as [_ K]. destruct (K _ Hk) as [K1|K1]; cbn [y_tw] in K1; [rewrite Y2 in K1; by apply elem_of_nil in K1|congruence].
Qed.

(** A body that calls close itself: flush fails, after a body without an exception. *)
Theorem C100_close_refuted : outcome (ex_body ++ [WB (SEv EStart); WB (SEv EClose); WK ENext; WL None 200; WK (EFinish Cancelled); WR 300 8]) =
  Some (PLeft (WFailed Cancelled), false, [41], []).
Proof. vm_compute. done. Qed.

Print Assumptions C100_left.
Print Assumptions C100_result.
Print Assumptions C100_deleted.
Print Assumptions C100_lost_refuted.
Print Assumptions C100_close_refuted.
Print Assumptions C100_example.
Print Assumptions C100_example_trace.
