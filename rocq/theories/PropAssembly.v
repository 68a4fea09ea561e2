(** C97: the tables of a process are independent of each other. *)
From Verif Require Import Base RateLimiter Selector Trajectory Table EventLog TableProofs TableLog
  SelSpec PropSelectors TableSpec LogFacts PropTable Assembly.

Section WithFP.
Context {fp : FP} {laws : FPLaws fp}.

(** ** Specification *)

(** The selectors, limiters and tables that a program makes, in order. *)
Definition kinds (es : list pev) : list sel_kind :=
  omap (fun e => match e with PSel k => Some k | _ => None end) es.
Definition limits (es : list pev) : list (Q * Z * Q * Q) :=
  omap (fun e => match e with PLim s m lo hi => Some (s, m, lo, hi) | _ => None end) es.
Definition tables (es : list pev) : list targs :=
  omap (fun e => match e with PTable a => Some a | _ => None end) es.
(** The calls on table [i] and their results. *)
Definition calls (i : nat) (es : list pev) : list op :=
  omap (fun e => match e with PCall j o => if decide (j = i) then Some o else None | _ => None end) es.
Definition results (i : nat) (rs : list (nat * result)) : list result :=
  omap (fun r => if decide (r.1 = i) then Some r.2 else None) rs.
(** What the table given the arguments [a] should be like. *)
Definition meant (es : list pev) (a : targs) (c : tcfg) : Prop :=
  exists ks kr s m lo hi, kinds es !! a_s a = Some ks /\ kinds es !! a_r a = Some kr /\
    limits es !! a_l a = Some (s, m, lo, hi) /\
    c = mkCfg (a_max_size a) (a_max_times a) ks kr s m lo hi.
(** The two tables have no selector and no limiter in common. *)
Definition apart (a b : targs) : Prop :=
  a_s a <> a_s b /\ a_s a <> a_r b /\ a_r a <> a_s b /\ a_r a <> a_r b /\ a_l a <> a_l b.
(** A table that exists, as an object. *)
Definition alive (w : world) (i : nat) (ob : tobj) : Prop := w_tab w !! i = Some (Some ob).

(** ** Registration *)

Lemma register_length i xs : forall es es', register_exts i xs es = Some es' -> length es' = length es.
Proof.
  induction xs as [|x xs IH]; intros es es' E; cbn in E; [by injection E as <-|].
  destruct (es !! x) as [e|]; [|done]. destruct (xo_reg e); [done|]. rewrite (IH _ _ E). apply insert_length.
Qed.
Lemma register_spec i xs : forall es,
  (forall x, x ∈ xs -> exists e, es !! x = Some e) ->
  match register_exts i xs es with
  | Some es' => NoDup xs /\ (forall x, x ∈ xs -> exists e, es !! x = Some e /\ xo_reg e = None /\ es' !! x = Some (mkXobj (Some i) (xo_seen e))) /\
      (forall y, y ∉ xs -> es' !! y = es !! y)
  | None => ~ NoDup xs \/ exists x e, x ∈ xs /\ es !! x = Some e /\ xo_reg e <> None
  end.
Proof.
  induction xs as [|x xs IH]; intros es Hin; cbn.
  - split; [constructor|]. split; [|done]. intros x Hx. by apply elem_of_nil in Hx.
  - destruct (Hin x ltac:(left)) as [e He]. rewrite He. destruct (xo_reg e) eqn:Hr.
    { right. exists x, e. split; [left|]. split; [done|]. by rewrite Hr. }
    assert (Hlt : (x < length es)%nat) by (by apply lookup_lt_Some in He).
    set (es1 := <[x := mkXobj (Some i) (xo_seen e)]> es).
    assert (Hin1 : forall y, y ∈ xs -> exists e', es1 !! y = Some e').
    { intros y Hy. unfold es1. destruct (decide (y = x)) as [->|Hne].
      - rewrite list_lookup_insert by done. eauto.
      - rewrite list_lookup_insert_ne by done. apply Hin. by right. }
    specialize (IH es1 Hin1). destruct (register_exts i xs es1) as [es'|].
    + destruct IH as (Hn & Hx & Hy).
      assert (Hxn : x ∉ xs).
      { intros Hc. destruct (Hx x Hc) as (e' & He' & Hr' & _). unfold es1 in He'.
        rewrite list_lookup_insert in He' by done. injection He' as <-. done. }
      split; [by constructor|]. split.
      * intros y Hy'. apply elem_of_cons in Hy' as [->|Hy'].
        { exists e. split; [done|]. split; [done|]. rewrite Hy by done. unfold es1. by rewrite list_lookup_insert. }
        destruct (Hx y Hy') as (e' & He' & Hr' & Hs'). exists e'. split; [|done]. unfold es1 in He'.
        rewrite list_lookup_insert_ne in He'; [done|]. intros ->. done.
      * intros y Hy'. apply not_elem_of_cons in Hy' as [Hne Hy']. rewrite (Hy y Hy'). unfold es1. by rewrite list_lookup_insert_ne.
    + destruct IH as [Hn|(y & e' & Hy & He' & Hr')].
      * left. intros Hc. apply NoDup_cons in Hc as [_ Hc]. done.
      * destruct (decide (y = x)) as [->|Hne].
        { left. intros Hc. apply NoDup_cons in Hc as [Hc _]. done. }
        right. exists y, e'. split; [by right|]. split; [|done]. unfold es1 in He'. by rewrite list_lookup_insert_ne in He'.
Qed.

Lemma unregister_length i xs : forall es es', unregister_exts i xs es = Some es' -> length es' = length es.
Proof.
  induction xs as [|x xs IH]; intros es es' E; cbn in E; [by injection E as <-|].
  destruct (es !! x) as [e|]; [|done]. case_decide; [|done]. rewrite (IH _ _ E). apply insert_length.
Qed.
Lemma unregister_spec i xs : forall es, NoDup xs ->
  (forall x, x ∈ xs -> exists e, es !! x = Some e /\ xo_reg e = Some i) ->
  exists es', unregister_exts i xs es = Some es' /\
    (forall x e, x ∈ xs -> es !! x = Some e -> es' !! x = Some (mkXobj None (xo_seen e))) /\
    (forall y, y ∉ xs -> es' !! y = es !! y).
Proof.
  induction xs as [|x xs IH]; intros es Hn Hin; cbn.
  - exists es. split; [done|]. split; [|done]. intros x e Hx. by apply elem_of_nil in Hx.
  - apply NoDup_cons in Hn as [Hx Hn]. destruct (Hin x ltac:(left)) as (e & He & Hr). rewrite He, decide_True by done.
    assert (Hlt : (x < length es)%nat) by (by apply lookup_lt_Some in He).
    destruct (IH (<[x := mkXobj None (xo_seen e)]> es) Hn) as (es' & -> & A & B).
    { intros y Hy. rewrite list_lookup_insert_ne by (intros ->; done). apply Hin. by right. }
    exists es'. split; [done|]. split.
    + intros y e' Hy He'. apply elem_of_cons in Hy as [->|Hy].
      * rewrite B by done. rewrite list_lookup_insert by done. congruence.
      * apply A; [done|]. rewrite list_lookup_insert_ne by (intros ->; done). done.
    + intros y Hy. apply not_elem_of_cons in Hy as [Hne Hy]. rewrite B by done. by rewrite list_lookup_insert_ne.
Qed.

Lemma notify_length i evs xs : forall es, length (notify i evs xs es) = length es.
Proof. induction xs as [|x xs IH]; intros es; cbn; [done|]. by rewrite IH, alter_length. Qed.
Lemma notify_lookup i evs xs : forall es y, NoDup xs ->
  notify i evs xs es !! y = if decide (y ∈ xs) then (fun e => mkXobj (xo_reg e) (xo_seen e ++ (pair i <$> evs))) <$> es !! y else es !! y.
Proof.
  induction xs as [|x xs IH]; intros es y Hn; cbn.
  - rewrite decide_False; [done|]. apply not_elem_of_nil.
  - apply NoDup_cons in Hn as [Hx Hn]. rewrite IH by done. destruct (decide (y = x)) as [->|Hne].
    + rewrite decide_False by done. rewrite decide_True by left. by rewrite list_lookup_alter.
    + rewrite list_lookup_alter_ne by done. destruct (decide (y ∈ xs)) as [H|H].
      * rewrite decide_True by (by right). done.
      * rewrite decide_False; [done|]. rewrite elem_of_cons. naive_solver.
Qed.

(** Who is registered where. *)
Record reg_inv (w : world) : Prop := {
  ri_lim : forall i ob, alive w i ob -> exists l, w_lim w !! o_l ob = Some l /\ lo_reg l = Some i;
  ri_lim' : forall n l i, w_lim w !! n = Some l -> lo_reg l = Some i -> exists ob, alive w i ob /\ o_l ob = n;
  ri_ext : forall i ob, alive w i ob -> NoDup (o_x ob) /\
     forall x, x ∈ o_x ob -> exists e, w_ext w !! x = Some e /\ xo_reg e = Some i;
  ri_ext' : forall x e i, w_ext w !! x = Some e -> xo_reg e = Some i -> exists ob, alive w i ob /\ x ∈ o_x ob;
  ri_sel : forall i ob, alive w i ob -> is_Some (w_sel w !! o_s ob) /\ is_Some (w_sel w !! o_r ob) }.

(** All extensions that a program names exist: it cannot name others. *)
Definition names_ok (w : world) (e : pev) : Prop :=
  match e with
  | PTable a => forall x, x ∈ a_x a -> (x < length (w_ext w))%nat
  | _ => True
  end.

Lemma reg_inv_new : reg_inv new_world.
Proof. split; unfold alive; cbn; intros *; done. Qed.

Lemma alive_lt w i ob : alive w i ob -> (i < length (w_tab w))%nat.
Proof. apply lookup_lt_Some. Qed.

Lemma alive_snoc w w' x i ob : w_tab w' = w_tab w ++ [x] -> alive w' i ob ->
  alive w i ob \/ (i = length (w_tab w) /\ x = Some ob).
Proof.
  unfold alive. intros -> H. apply lookup_app_Some in H as [H|[Hl H]]; [by left|right].
  apply list_lookup_singleton_Some in H as [H1 H2]. split; [lia|done].
Qed.
Lemma alive_snoc' w w' x i ob : w_tab w' = w_tab w ++ [x] -> alive w i ob -> alive w' i ob.
Proof. unfold alive. intros -> H. by apply lookup_app_l_Some. Qed.

Lemma reg_make w a w' : reg_inv w -> make_table w a = Some w' -> reg_inv w'.
Proof.
  intros [R1 R2 R3 R4 R5] E. unfold make_table in E.
  assert (Hnone : reg_inv (mkWorld (w_sel w) (w_lim w) (w_ext w) (w_tab w ++ [None]))).
  { split; cbn; intros *.
    - intros H. apply (alive_snoc w _ None) in H as [H|[_ H]]; [|done|done]. by apply R1.
    - intros H Hr. destruct (R2 _ _ _ H Hr) as (ob & Ha & Hl). exists ob. split; [|done]. by apply (alive_snoc' w _ None).
    - intros H. apply (alive_snoc w _ None) in H as [H|[_ H]]; [|done|done]. by apply R3.
    - intros H Hr. destruct (R4 _ _ _ H Hr) as (ob & Ha & Hl). exists ob. split; [|done]. by apply (alive_snoc' w _ None).
    - intros H. apply (alive_snoc w _ None) in H as [H|[_ H]]; [|done|done]. by apply (R5 i). }
  destruct (w_sel w !! a_s a) as [s|] eqn:Hs; [|by injection E as <-].
  destruct (w_sel w !! a_r a) as [r|] eqn:Hr; [|by injection E as <-].
  destruct (w_lim w !! a_l a) as [l|] eqn:Hl; [|by injection E as <-].
  destruct (lo_reg l) eqn:Hreg; [done|].
  destruct (register_exts _ _ _) as [es|] eqn:Hx; [|done]. injection E as <-.
  assert (Hin : forall x, x ∈ a_x a -> exists e, w_ext w !! x = Some e).
  { clear - Hx. revert Hx. generalize (w_ext w) as es0. induction (a_x a) as [|y ys IH]; intros es0 Hx x Hin.
    - by apply elem_of_nil in Hin.
    - cbn in Hx. destruct (es0 !! y) as [e|] eqn:He; [|done]. destruct (xo_reg e); [done|].
      apply elem_of_cons in Hin as [->|Hin]; [eauto|]. destruct (IH _ Hx x Hin) as [e' He'].
      destruct (decide (x = y)) as [->|Hne]; [eauto|]. rewrite list_lookup_insert_ne in He' by done. eauto. }
  pose proof (register_spec (length (w_tab w)) (a_x a) (w_ext w) Hin) as Sp. rewrite Hx in Sp.
  destruct Sp as (Sn & Sx & Sy).
  assert (Hll : (a_l a < length (w_lim w))%nat) by (by apply lookup_lt_Some in Hl).
  set (ob0 := mkTobj _ _ _ _ _).
  split; cbn; intros *.
  - intros H. apply (alive_snoc w _ (Some ob0)) in H as [H|[-> [= <-]]]; [| |done].
    + destruct (R1 _ _ H) as (l' & Hl' & Hr'). destruct (decide (o_l ob = a_l a)) as [Ee|Hne].
      * rewrite Ee in *. exists l'. split; [|done]. congruence.
      * rewrite list_lookup_insert_ne by done. eauto.
    + unfold ob0. cbn. rewrite list_lookup_insert by done. eauto.
  - intros H Hr'. destruct (decide (n = a_l a)) as [->|Hne].
    + rewrite list_lookup_insert in H by done. injection H as <-. cbn in Hr'. injection Hr' as <-.
      exists ob0. split; [|done]. unfold alive. cbn. by apply list_lookup_middle.
    + rewrite list_lookup_insert_ne in H by done. destruct (R2 _ _ _ H Hr') as (ob & Ha & Hl').
      exists ob. split; [|done]. by apply (alive_snoc' w _ (Some ob0)).
  - intros H. apply (alive_snoc w _ (Some ob0)) in H as [H|[-> [= <-]]]; [| |done].
    + destruct (R3 _ _ H) as [Hn He]. split; [done|]. intros x Hin'. destruct (He x Hin') as (e & He1 & He2).
      destruct (decide (x ∈ a_x a)) as [Hxa|Hxa].
      * exfalso. destruct (Sx x Hxa) as (e' & He' & Hno & _). congruence.
      * rewrite Sy by done. eauto.
    + split; [done|]. intros x Hxa. destruct (Sx x Hxa) as (e' & He' & Hno & Hs'). eauto.
  - intros H Hr'. destruct (decide (x ∈ a_x a)) as [Hxa|Hxa].
    + destruct (Sx x Hxa) as (e' & He' & Hno & Hs'). assert (e = mkXobj (Some (length (w_tab w))) (xo_seen e')) as -> by congruence.
      cbn in Hr'. injection Hr' as <-. exists ob0. split; [|done]. unfold alive. cbn. by apply list_lookup_middle.
    + rewrite Sy in H by done. destruct (R4 _ _ _ H Hr') as (ob & Ha & Hl'). exists ob. split; [|done]. by apply (alive_snoc' w _ (Some ob0)).
  - intros H. apply (alive_snoc w _ (Some ob0)) in H as [H|[-> [= <-]]]; [|cbn; eauto|done]. by apply (R5 i).
Qed.

Lemma alive_insert w w' i x j ob : (i < length (w_tab w))%nat -> w_tab w' = <[i := x]> (w_tab w) ->
  alive w' j ob <-> (j <> i /\ alive w j ob) \/ (j = i /\ x = Some ob).
Proof.
  intros Hi E. unfold alive. rewrite E. destruct (decide (j = i)) as [->|Hne].
  - rewrite list_lookup_insert by done. split; [intros [= ->]; by right|]. intros [[? _]|[_ ->]]; done.
  - rewrite list_lookup_insert_ne by done. split; [by left|]. intros [[_ ?]|[? _]]; done.
Qed.

Lemma reg_put w i ob t : reg_inv w -> alive w i ob -> reg_inv (put w i ob t).
Proof.
  intros [R1 R2 R3 R4 R5] Ha. pose proof (alive_lt _ _ _ Ha) as Hlt. destruct (R3 _ _ Ha) as [Hn0 _].
  set (ob' := mkTobj (o_s ob) (o_r ob) (o_l ob) (o_x ob) t).
  assert (Hal : forall j o, alive (put w i ob t) j o <-> (j <> i /\ alive w j o) \/ (j = i /\ Some ob' = Some o)) by (intros; by apply alive_insert).
  assert (Hold : forall j o, alive (put w i ob t) j o -> exists o0, alive w j o0 /\ o_s o = o_s o0 /\ o_r o = o_r o0 /\ o_l o = o_l o0 /\ o_x o = o_x o0).
  { intros j o H. apply Hal in H as [[_ H]|[-> [= <-]]]; [exists o; done|]. exists ob. done. }
  assert (Hnew : forall j o0, alive w j o0 -> exists o, alive (put w i ob t) j o /\ o_l o = o_l o0 /\ o_x o = o_x o0).
  { intros j o0 H. destruct (decide (j = i)) as [->|Hne].
    - exists ob'. assert (o0 = ob) as -> by (unfold alive in *; congruence). split; [|done]. apply Hal. by right.
    - exists o0. split; [|done]. apply Hal. by left. }
  split; cbn; intros *.
  - intros H. destruct (Hold _ _ H) as (o0 & H0 & _ & _ & -> & _). destruct (R1 _ _ H0) as (l & Hl & Hr).
    destruct (decide (o_l o0 = o_l ob)) as [Ee|Hne].
    + rewrite Ee in *. rewrite list_lookup_alter, Hl. eexists. split; [done|]. done.
    + rewrite list_lookup_alter_ne by done. eauto.
  - intros H Hr. assert (exists l0, w_lim w !! n = Some l0 /\ lo_reg l0 = Some i0) as (l0 & Hl0 & Hr0).
    { destruct (decide (n = o_l ob)) as [->|Hne].
      - rewrite list_lookup_alter in H. destruct (w_lim w !! o_l ob) as [l0|]; [|done]. injection H as <-. eauto.
      - rewrite list_lookup_alter_ne in H by done. eauto. }
    destruct (R2 _ _ _ Hl0 Hr0) as (o0 & H0 & E0). destruct (Hnew _ _ H0) as (o & Ho & El & _). exists o. split; [done|]. congruence.
  - intros H. destruct (Hold _ _ H) as (o0 & H0 & _ & _ & _ & ->). destruct (R3 _ _ H0) as [Hn He]. split; [done|].
    intros x Hx. destruct (He x Hx) as (e & He1 & He2). rewrite notify_lookup by done.
    case_decide; rewrite He1; cbn; eauto.
  - intros H Hr. assert (exists e0, w_ext w !! x = Some e0 /\ xo_reg e0 = Some i0) as (e0 & He0 & Hr0).
    { rewrite notify_lookup in H by done. case_decide; [|eauto]. destruct (w_ext w !! x) as [e0|]; [|done]. injection H as <-. eauto. }
    destruct (R4 _ _ _ He0 Hr0) as (o0 & H0 & E0). destruct (Hnew _ _ H0) as (o & Ho & _ & El). exists o. split; [done|]. by rewrite El.
  - intros H. destruct (Hold _ _ H) as (o0 & H0 & -> & -> & _). destruct (R5 _ _ H0) as [S1 S2].
    rewrite !lookup_lt_is_Some, !insert_length in *. done.
Qed.

Lemma reg_drop w i ob : reg_inv w -> alive w i ob -> exists w', drop_table w i ob = Some w' /\ reg_inv w'.
Proof.
  intros [R1 R2 R3 R4 R5] Ha. pose proof (alive_lt _ _ _ Ha) as Hlt.
  destruct (R1 _ _ Ha) as (l & Hl & Hr). destruct (R3 _ _ Ha) as [Hn He].
  destruct (unregister_spec i (o_x ob) (w_ext w) Hn He) as (es & Eu & A & B).
  unfold drop_table. rewrite Hl, decide_True by done. rewrite Eu. eexists. split; [done|].
  assert (Hll : (o_l ob < length (w_lim w))%nat) by (by apply lookup_lt_Some in Hl).
  match goal with |- reg_inv ?x => set (w' := x) end.
  assert (Hal : forall j o, alive w' j o <-> j <> i /\ alive w j o).
  { intros j o. unfold w'. rewrite (alive_insert w _ i None) by done. naive_solver. }
  split.
  - intros j o H. apply Hal in H as [Hne H]. destruct (R1 _ _ H) as (l' & Hl' & Hr'). unfold w'. cbn.
    rewrite list_lookup_insert_ne; [eauto|]. intros Ee. rewrite Ee in Hl. congruence.
  - intros n l' j. unfold w'. cbn. intros H Hr'. destruct (decide (n = o_l ob)) as [->|Hne].
    { rewrite list_lookup_insert in H by done. by injection H as <-. }
    rewrite list_lookup_insert_ne in H by done. destruct (R2 _ _ _ H Hr') as (o & Ho & E). exists o. split; [|done].
    apply Hal. split; [|done]. intros ->. unfold alive in *. congruence.
  - intros j o H. apply Hal in H as [Hne H]. destruct (R3 _ _ H) as [Hn' He']. split; [done|]. intros x Hx.
    destruct (He' x Hx) as (e & He1 & He2). exists e. split; [|done]. unfold w'. cbn. rewrite B; [done|].
    intros Hc. destruct (He x Hc) as (e' & He1' & He2'). congruence.
  - intros x e j. unfold w'. cbn. intros H Hr'. destruct (decide (x ∈ o_x ob)) as [Hx|Hx].
    { destruct (He x Hx) as (e0 & He0 & _). rewrite (A x e0 Hx He0) in H. by injection H as <-. }
    rewrite B in H by done. destruct (R4 _ _ _ H Hr') as (o & Ho & E). exists o. split; [|done].
    apply Hal. split; [|done]. intros ->. unfold alive in *. assert (o = ob) as -> by congruence. done.
  - intros j o H. apply Hal in H as [_ H]. by apply (R5 j).
Qed.

Lemma reg_step w e rs w' : reg_inv w -> pstep w e = Some (rs, w') -> reg_inv w'.
Proof.
  intros R E. destruct e as [k|s m lo hi| |a|i o|i]; cbn in E.
  - injection E as <- <-. destruct R as [R1 R2 R3 R4 R5]. split; try done. cbn. intros i ob H. destruct (R5 i ob H) as [S1 S2].
    split; rewrite lookup_lt_is_Some in *; rewrite app_length; lia.
  - injection E as <- <-. destruct R as [R1 R2 R3 R4 R5]. split; try done; cbn.
    + intros i ob H. destruct (R1 i ob H) as (l & Hl & Hr). exists l. split; [by apply lookup_app_l_Some|done].
    + intros n l i H Hr. apply lookup_app_Some in H as [H|[_ H]]; [by apply (R2 n l)|].
      apply list_lookup_singleton_Some in H as [_ <-]. done.
  - injection E as <- <-. destruct R as [R1 R2 R3 R4 R5]. split; try done; cbn.
    + intros i ob H. destruct (R3 i ob H) as [Hn He]. split; [done|]. intros x Hx. destruct (He x Hx) as (e & He1 & He2).
      exists e. split; [by apply lookup_app_l_Some|done].
    + intros x e i H Hr. apply lookup_app_Some in H as [H|[_ H]]; [by apply (R4 x e)|].
      apply list_lookup_singleton_Some in H as [_ <-]. done.
  - destruct (make_table w a) as [w1|] eqn:Em; [|done]. injection E as <- <-. by eapply reg_make.
  - destruct (w_tab w !! i) as [[ob|]|] eqn:Ha; try (by injection E as <- <-).
    case_decide; [by injection E as <- <-|]. destruct (view w ob) as [t|]; [|done].
    destruct (step t o) as [[r t']|]; [|done]. injection E as <- <-. by apply reg_put.
  - destruct (w_tab w !! i) as [[ob|]|] eqn:Ha; try (by injection E as <- <-).
    destruct (reg_drop w i ob R Ha) as (w1 & Ed & R1). rewrite Ed in E. injection E as <- <-. done.
Qed.

Lemma reg_run es : forall w rs w', reg_inv w -> prun w es = Some (rs, w') -> reg_inv w'.
Proof.
  induction es as [|e es IH]; intros w rs w' R E; cbn in E; [by injection E as <- <-|].
  destruct (pstep w e) as [[rs1 w1]|] eqn:E1; [|done]. destruct (prun w1 es) as [[rs2 w2]|] eqn:E2; [|done].
  injection E as <- <-. apply (IH w1 rs2); [|done]. by eapply reg_step.
Qed.

(** ** C97: construction and destruction *)

(** Making a table ends the process exactly when its limiter or one of its extensions
    belongs to a table that exists, or when an extension is given twice. *)
Theorem C97_construct es rs w a : prun new_world es = Some (rs, w) ->
  (a_s a < length (w_sel w))%nat -> (a_r a < length (w_sel w))%nat -> (a_l a < length (w_lim w))%nat ->
  (forall x, x ∈ a_x a -> (x < length (w_ext w))%nat) ->
  pstep w (PTable a) = None <->
    (exists j ob, alive w j ob /\ o_l ob = a_l a) \/
    (exists j ob x, alive w j ob /\ x ∈ o_x ob /\ x ∈ a_x a) \/ ~ NoDup (a_x a).
Proof.
  intros E Hs Hr Hl Hx. pose proof (reg_run es _ _ _ reg_inv_new E) as [R1 R2 R3 R4 R5].
  apply lookup_lt_is_Some in Hs as [s Hs]. apply lookup_lt_is_Some in Hr as [r Hr]. apply lookup_lt_is_Some in Hl as [l Hl].
  cbn. unfold make_table. rewrite Hs, Hr, Hl.
  assert (Hin : forall x, x ∈ a_x a -> exists e, w_ext w !! x = Some e).
  { intros x Hx'. apply lookup_lt_is_Some. by apply Hx. }
  pose proof (register_spec (length (w_tab w)) (a_x a) (w_ext w) Hin) as Sp.
  destruct (lo_reg l) as [i|] eqn:Hreg.
  - split; [|done]. intros _. left. destruct (R2 _ _ _ Hl Hreg) as (ob & Ho & El). eauto.
  - destruct (register_exts _ _ _) as [es'|].
    + split; [done|]. intros [(j & ob & Ha & Eo)|[(j & ob & x & Ha & Hxo & Hxa)|Hnd]]; exfalso.
      * destruct (R1 _ _ Ha) as (l' & Hl' & Hr'). congruence.
      * destruct Sp as (_ & Sx & _). destruct (Sx x Hxa) as (e & He & Hno & _). destruct (R3 _ _ Ha) as [_ Hex].
        destruct (Hex x Hxo) as (e' & He' & Hr'). congruence.
      * by apply Hnd, Sp.
    + split; [|done]. intros _. right. destruct Sp as [Hnd|(x & e & Hxa & He & Hr')]; [by right|left].
      destruct (xo_reg e) as [j|] eqn:Hj; [|done]. destruct (R4 _ _ _ He Hj) as (ob & Ho & Hxo). eauto 6.
Qed.

(** Destroying a table never fails. *)
Theorem C97_drop es rs w i : prun new_world es = Some (rs, w) -> pstep w (PDrop i) <> None.
Proof.
  intros E. pose proof (reg_run es _ _ _ reg_inv_new E) as R. cbn.
  destruct (w_tab w !! i) as [[ob|]|] eqn:Ha; try done. by destruct (reg_drop w i ob R Ha) as (w1 & -> & _).
Qed.

(** ** Proofs: independence *)

Lemma prun_app w es1 es2 : prun w (es1 ++ es2) =
  match prun w es1 with
  | None => None
  | Some (rs1, w1) => match prun w1 es2 with None => None | Some (rs2, w2) => Some (rs1 ++ rs2, w2) end
  end.
Proof.
  revert w. induction es1 as [|e es1 IH]; intros w; cbn.
  - destruct (prun w es2) as [[rs2 w2]|]; done.
  - destruct (pstep w e) as [[rs w1]|]; [|done]. rewrite IH. destruct (prun w1 es1) as [[rs1 w2]|]; [|done].
    destruct (prun w2 es2) as [[rs2 w3]|]; [|done]. by rewrite app_assoc.
Qed.

Definition fits (ob : tobj) (b : targs) : Prop :=
  o_s ob = a_s b /\ o_r ob = a_r b /\ o_l ob = a_l b /\ o_x ob = a_x b.

Record winv (es : list pev) (w : world) : Prop := {
  wi_ntab : length (w_tab w) = length (tables es);
  wi_tab : forall j ob, alive w j ob -> exists b, tables es !! j = Some b /\ fits ob b;
  wi_nsel : length (w_sel w) = length (kinds es);
  wi_sel : forall n k, kinds es !! n = Some k -> (forall b, b ∈ tables es -> n <> a_s b /\ n <> a_r b) ->
     w_sel w !! n = Some (sel_new k);
  wi_nlim : length (w_lim w) = length (limits es);
  wi_lim : forall n s m lo hi, limits es !! n = Some (s, m, lo, hi) -> (forall b, b ∈ tables es -> n <> a_l b) ->
     w_lim w !! n = Some (mkLobj (new_limiter s m lo hi) None) }.

Lemma snoc_omap {A B} (f : A -> option B) l x : omap f (l ++ [x]) = omap f l ++ match f x with Some y => [y] | None => [] end.
Proof. by rewrite omap_app. Qed.

Lemma fits_put w i ob t j o (ts : list targs) : (forall j ob, alive w j ob -> exists b, ts !! j = Some b /\ fits ob b) ->
  alive w i ob -> alive (put w i ob t) j o -> exists b, ts !! j = Some b /\ fits o b.
Proof.
  intros H Ha Hj. apply (alive_insert w _ i (Some (mkTobj (o_s ob) (o_r ob) (o_l ob) (o_x ob) t))) in Hj;
    [|by eapply alive_lt|done]. destruct Hj as [[_ Hj]|[-> [= <-]]]; [by apply H|]. destruct (H _ _ Ha) as (b & Hb & F). by exists b.
Qed.

Lemma winv_step es w e rs w' : winv es w -> pstep w e = Some (rs, w') -> winv (es ++ [e]) w'.
Proof.
  intros [N1 N2 N3 N4 N5 N6] E.
  assert (K : kinds (es ++ [e]) = kinds es ++ match e with PSel k => [k] | _ => [] end) by (unfold kinds; rewrite snoc_omap; by destruct e).
  assert (L : limits (es ++ [e]) = limits es ++ match e with PLim s m lo hi => [(s, m, lo, hi)] | _ => [] end) by (unfold limits; rewrite snoc_omap; by destruct e).
  assert (T : tables (es ++ [e]) = tables es ++ match e with PTable a => [a] | _ => [] end) by (unfold tables; rewrite snoc_omap; by destruct e).
  destruct e as [k|s m lo hi| |a|i o|i]; cbn in E; cbn in K, L, T; rewrite ?app_nil_r in K; rewrite ?app_nil_r in L; rewrite ?app_nil_r in T.
  - injection E as <- <-. split; rewrite ?K, ?L, ?T; cbn; try done.
    + rewrite !app_length. cbn. lia.
    + intros n k' Hk Hb. destruct (decide (n < length (kinds es))%nat) as [Hl|Hl].
      * rewrite lookup_app_l in Hk by done. rewrite lookup_app_l by lia. by apply N4.
      * rewrite lookup_app_r in Hk by lia. apply list_lookup_singleton_Some in Hk as [Hn ->].
        rewrite lookup_app_r by lia. rewrite N3, Hn. done.
  - injection E as <- <-. split; rewrite ?K, ?L, ?T; cbn; try done.
    + rewrite !app_length. cbn. lia.
    + intros n s' m' lo' hi' Hk Hb. destruct (decide (n < length (limits es))%nat) as [Hl|Hl].
      * rewrite lookup_app_l in Hk by done. rewrite lookup_app_l by lia. by apply N6.
      * rewrite lookup_app_r in Hk by lia. apply list_lookup_singleton_Some in Hk as [Hn [= -> -> -> ->]].
        rewrite lookup_app_r by lia. rewrite N5, Hn. done.
  - injection E as <- <-. split; rewrite ?K, ?L, ?T; done.
  - destruct (make_table w a) as [w1|] eqn:Em; [|done]. injection E as <- <-. unfold make_table in Em.
    assert (Hw : (exists ox, w_tab w1 = w_tab w ++ [ox] /\ forall ob, ox = Some ob -> fits ob a) /\ w_sel w1 = w_sel w /\
       length (w_lim w1) = length (w_lim w) /\ forall n, n <> a_l a -> w_lim w1 !! n = w_lim w !! n).
    { destruct (w_sel w !! a_s a); [|injection Em as <-; split; [by exists None|done]].
      destruct (w_sel w !! a_r a); [|injection Em as <-; split; [by exists None|done]].
      destruct (w_lim w !! a_l a) as [l|]; [|injection Em as <-; split; [by exists None|done]].
      destruct (lo_reg l); [done|]. destruct (register_exts _ _ _); [|done]. injection Em as <-. cbn. split.
      { eexists. split; [done|]. intros ob [= <-]. done. }
      split; [done|]. split; [apply insert_length|]. intros n Hn. by rewrite list_lookup_insert_ne. }
    destruct Hw as ((ox & Ht & Hf) & Hs & Hll & Hl). split; rewrite ?K, ?L, ?T; rewrite ?Hs; try done.
    + rewrite Ht, !app_length. cbn. lia.
    + intros j ob Hj. apply (alive_snoc w w1 ox) in Hj as [Hj|[-> Hox]]; [| |done].
      * destruct (N2 _ _ Hj) as (b & Hb & F). exists b. split; [by apply lookup_app_l_Some|done].
      * exists a. split; [rewrite N1; by apply list_lookup_middle|by apply Hf].
    + intros n k Hk Hb. apply N4; [done|]. intros b Hb'. apply Hb. apply elem_of_app. by left.
    + lia.
    + intros n s m lo hi Hk Hb. rewrite Hl; [apply N6; [done|]; intros b Hb'; apply Hb; apply elem_of_app; by left|].
      apply Hb. apply elem_of_app. right. left.
  - assert (Hsame : winv es w -> winv (es ++ [PCall i o]) w) by (intros []; split; rewrite ?K, ?L, ?T; done).
    destruct (w_tab w !! i) as [[ob|]|] eqn:Ha; try (injection E as <- <-; by apply Hsame).
    case_decide; [injection E as <- <-; by apply Hsame|]. destruct (view w ob) as [t|]; [|done].
    destruct (step t o) as [[r t']|]; [|done]. injection E as <- <-.
    destruct (N2 _ _ Ha) as (b & Hb & (F1 & F2 & F3 & F4)). pose proof (elem_of_list_lookup_2 _ _ _ Hb) as Hb'.
    split; rewrite ?K, ?L, ?T; try done.
    + cbn. by rewrite insert_length.
    + intros j o' Hj. by apply (fits_put w i ob t' j o' (tables es) N2 Ha).
    + cbn. by rewrite !insert_length.
    + intros n k Hk Hn. destruct (Hn b Hb') as [G1 G2]. cbn. rewrite !list_lookup_insert_ne by congruence. by apply N4.
    + cbn. by rewrite alter_length.
    + intros n s m lo hi Hk Hn. cbn. rewrite list_lookup_alter_ne by (rewrite F3; intros Ee; by apply (Hn b Hb')). by apply N6.
  - assert (Hsame : winv es w -> winv (es ++ [PDrop i]) w) by (intros []; split; rewrite ?K, ?L, ?T; done).
    destruct (w_tab w !! i) as [[ob|]|] eqn:Ha; try (injection E as <- <-; by apply Hsame).
    destruct (drop_table w i ob) as [w1|] eqn:Ed; [|done]. injection E as <- <-. unfold drop_table in Ed.
    destruct (w_lim w !! o_l ob) as [l|] eqn:Hl; [|done]. case_decide; [|done].
    destruct (unregister_exts _ _ _) as [es'|]; [|done]. injection Ed as <-.
    destruct (N2 _ _ Ha) as (b & Hb & (F1 & F2 & F3 & F4)). pose proof (elem_of_list_lookup_2 _ _ _ Hb) as Hb'.
    split; rewrite ?K, ?L, ?T; try done.
    + cbn. by rewrite insert_length.
    + intros j o' Hj. apply (alive_insert w _ i None) in Hj; [|by eapply alive_lt|done]. destruct Hj as [[_ Hj]|[_ ?]]; [by apply N2|done].
    + cbn. by rewrite insert_length.
    + intros n s m lo hi Hk Hn. cbn. rewrite list_lookup_insert_ne by (rewrite F3; intros Ee; by apply (Hn b Hb')). by apply N6.
Qed.

Lemma winv_run es rs w : prun new_world es = Some (rs, w) -> winv es w.
Proof.
  revert rs w. induction es as [|e es IH] using rev_ind; intros rs w E.
  - injection E as <- <-. split; try done.
  - rewrite prun_app in E. destruct (prun new_world es) as [[rs1 w1]|]; [|done]. cbn in E.
    destruct (pstep w1 e) as [[rs2 w2]|] eqn:E2; [|done]. injection E as <- <-. apply (winv_step es w1 e rs2); [|done]. by apply (IH rs1).
Qed.

(** The objects of a table and what it sees. *)
Definition at_home (w : world) (i : nat) (a : targs) (t : table) : Prop :=
  exists ob, alive w i ob /\ fits ob a /\ view w ob = Some t.

Lemma view_ext w w' ob : w_sel w' !! o_s ob = w_sel w !! o_s ob -> w_sel w' !! o_r ob = w_sel w !! o_r ob ->
  lo_lim <$> w_lim w' !! o_l ob = lo_lim <$> w_lim w !! o_l ob -> view w' ob = view w ob.
Proof.
  intros H1 H2 H3. unfold view. rewrite H1, H2. destruct (w_sel w !! o_s ob); [|done]. destruct (w_sel w !! o_r ob); [|done].
  destruct (w_lim w' !! o_l ob), (w_lim w !! o_l ob); try done. injection H3 as ->. done.
Qed.

(** What happens elsewhere does not matter. *)
Lemma home_other w i a t e rs w' : at_home w i a t -> pstep w e = Some (rs, w') ->
  (forall o, e <> PCall i o) -> e <> PDrop i ->
  (forall j ob b, alive w j ob -> j <> i -> fits ob b -> apart a b) ->
  at_home w' i a t /\ results i rs = [].
Proof.
  intros (ob & Ha & F & V) E Hc Hd Hap. pose proof F as (F1 & F2 & F3 & F4).
  assert (Hs : forall n, is_Some (w_sel w !! n) -> (n < length (w_sel w))%nat) by (intros n ?; by apply lookup_lt_is_Some).
  assert (is_Some (w_sel w !! o_s ob) /\ is_Some (w_sel w !! o_r ob) /\ is_Some (w_lim w !! o_l ob)) as (S1 & S2 & S3).
  { unfold view in V. destruct (w_sel w !! o_s ob); [|done]. destruct (w_sel w !! o_r ob); [|done]. destruct (w_lim w !! o_l ob); [eauto|done]. }
  destruct e as [k|s m lo hi| |b|j o|j]; cbn in E.
  - injection E as <- <-. split; [|done]. exists ob. split; [done|]. split; [done|]. rewrite <- V. apply view_ext; cbn; [| |done];
      rewrite lookup_app_l; try done; by apply Hs.
  - injection E as <- <-. split; [|done]. exists ob. split; [done|]. split; [done|]. rewrite <- V. apply view_ext; cbn; [done|done|].
    rewrite lookup_app_l; [done|]. by apply lookup_lt_is_Some.
  - injection E as <- <-. split; [|done]. exists ob. done.
  - destruct (make_table w b) as [w1|] eqn:Em; [|done]. injection E as <- <-. split; [|done]. unfold make_table in Em.
    assert (Hnone : at_home (mkWorld (w_sel w) (w_lim w) (w_ext w) (w_tab w ++ [None])) i a t).
    { exists ob. split; [by apply (alive_snoc' w _ None)|done]. }
    destruct (w_sel w !! a_s b) as [s|]; [|by injection Em as <-].
    destruct (w_sel w !! a_r b) as [r|]; [|by injection Em as <-].
    destruct (w_lim w !! a_l b) as [l|] eqn:Hl; [|by injection Em as <-].
    destruct (lo_reg l); [done|]. destruct (register_exts _ _ _); [|done]. injection Em as <-.
    exists ob. split; [by eapply (alive_snoc' w)|]. split; [done|]. rewrite <- V. apply view_ext; cbn; [done|done|].
    destruct (decide (a_l b = o_l ob)) as [Ee|Hne].
    + rewrite Ee in *. rewrite list_lookup_insert by (by apply lookup_lt_is_Some). by rewrite Hl.
    + by rewrite list_lookup_insert_ne.
  - assert (Hji : j <> i) by (intros ->; by apply (Hc o)).
    assert (Hsame : at_home w i a t) by (by exists ob).
    destruct (w_tab w !! j) as [[ob'|]|] eqn:Hj; try (injection E as <- <-; done).
    case_decide; [by injection E as <- <-|]. destruct (view w ob') as [t0|]; [|done].
    destruct (step t0 o) as [[r t']|]; [|done]. injection E as <- <-.
    split; [|cbn; by rewrite decide_False].
    assert (F' : fits ob' (mkTargs 0 0 (o_s ob') (o_r ob') (o_l ob') (o_x ob'))) by done.
    destruct (Hap j ob' _ Hj Hji F') as (A1 & A2 & A3 & A4 & A5). cbn in A1, A2, A3, A4, A5.
    exists ob. split; [|split; [done|]].
    + apply (alive_insert w _ j (Some (mkTobj (o_s ob') (o_r ob') (o_l ob') (o_x ob') t'))); [by apply (alive_lt w j ob')|done|]. left. done.
    + rewrite <- V. apply view_ext; cbn; [rewrite !list_lookup_insert_ne by congruence; done..|].
      rewrite list_lookup_alter_ne by congruence. done.
  - assert (Hji : j <> i) by congruence. assert (Hsame : at_home w i a t) by (by exists ob).
    destruct (w_tab w !! j) as [[ob'|]|] eqn:Hj; try (injection E as <- <-; done).
    destruct (drop_table w j ob') as [w1|] eqn:Ed; [|done]. injection E as <- <-. split; [|done]. unfold drop_table in Ed.
    destruct (w_lim w !! o_l ob') as [l|] eqn:Hl; [|done]. case_decide; [|done].
    destruct (unregister_exts _ _ _) as [es'|]; [|done]. injection Ed as <-.
    assert (F' : fits ob' (mkTargs 0 0 (o_s ob') (o_r ob') (o_l ob') (o_x ob'))) by done.
    destruct (Hap j ob' _ Hj Hji F') as (A1 & A2 & A3 & A4 & A5). cbn in A1, A2, A3, A4, A5.
    exists ob. split; [|split; [done|]].
    + apply (alive_insert w _ j None); [by apply (alive_lt w j ob')|done|]. left. done.
    + rewrite <- V. apply view_ext; cbn; [done|done|]. rewrite list_lookup_insert_ne by congruence. done.
Qed.

Lemma home_call w i a t o rs w' : at_home w i a t -> a_s a <> a_r a -> pstep w (PCall i o) = Some (rs, w') ->
  exists r t', step t o = Some (r, t') /\ rs = [(i, r)] /\ at_home w' i a t'.
Proof.
  intros (ob & Ha & F & V) Hsr E. pose proof F as (F1 & F2 & F3 & F4). cbn in E. unfold alive in Ha. rewrite Ha in E.
  rewrite decide_False in E by congruence. rewrite V in E. destruct (step t o) as [[r t']|] eqn:Es; [|done].
  injection E as <- <-. exists r, t'. split; [done|]. split; [done|].
  exists (mkTobj (o_s ob) (o_r ob) (o_l ob) (o_x ob) t'). split; [|split; [done|]].
  - apply (alive_insert w _ i (Some (mkTobj (o_s ob) (o_r ob) (o_l ob) (o_x ob) t'))); [by apply (alive_lt w i ob)|done|by right].
  - unfold view in *. cbn [o_s o_r o_l o_tab put w_sel w_lim].
    destruct (w_sel w !! o_s ob) as [s|] eqn:E1; [|done]. destruct (w_sel w !! o_r ob) as [r'|] eqn:E2; [|done].
    destruct (w_lim w !! o_l ob) as [l|] eqn:E3; [|done].
    assert (L1 : (o_s ob < length (w_sel w))%nat) by (by apply lookup_lt_Some in E1).
    assert (L2 : (o_r ob < length (w_sel w))%nat) by (by apply lookup_lt_Some in E2).
    rewrite list_lookup_insert_ne by congruence. rewrite list_lookup_insert by done.
    rewrite list_lookup_insert by (by rewrite insert_length). rewrite list_lookup_alter, E3. cbn. by destruct t'.
Qed.

Lemma home_run es1 a es2 : forall rs1 w1 rs2 w2 t0,
  prun new_world (es1 ++ [PTable a]) = Some (rs1, w1) -> prun w1 es2 = Some (rs2, w2) ->
  forall i, i = length (tables es1) -> at_home w1 i a t0 -> a_s a <> a_r a ->
  (forall b, b ∈ tables es1 ++ tables es2 -> apart a b) -> PDrop i ∉ es2 ->
  exists t, run t0 (calls i es2) = Some (results i rs2, t) /\ at_home w2 i a t.
Proof.
  induction es2 as [|e es2 IH] using rev_ind; intros rs1 w1 rs2 w2 t0 E1 E2 i Hi H Hsr Hap Hd.
  - cbn in E2. injection E2 as <- <-. exists t0. done.
  - rewrite prun_app in E2. destruct (prun w1 es2) as [[rs3 w3]|] eqn:E3; [|done]. cbn in E2.
    destruct (pstep w3 e) as [[rs4 w4]|] eqn:E4; [|done]. injection E2 as <- <-.
    assert (Hap' : forall b, b ∈ tables es1 ++ tables es2 -> apart a b).
    { intros b Hb. apply Hap. unfold tables in *. rewrite omap_app. apply elem_of_app in Hb as [Hb|Hb]; apply elem_of_app; [by left|right].
      apply elem_of_app. by left. }
    assert (Hd' : PDrop i ∉ es2) by (intros Hc; apply Hd, elem_of_app; by left).
    destruct (IH rs1 w1 rs3 w3 t0 E1 E3 i Hi H Hsr Hap' Hd') as (t & R & H3). clear IH.
    rewrite app_nil_r. unfold calls, results in *. rewrite snoc_omap, omap_app.
    assert (Hcase : (exists o, e = PCall i o) \/ forall o, e <> PCall i o).
    { destruct e as [| | | |j o|]; try (right; intros ?; done). destruct (decide (j = i)) as [->|Hne]; [eauto|right; congruence]. }
    destruct Hcase as [[o ->]|Hno].
    + destruct (home_call w3 i a t o rs4 w4 H3 Hsr E4) as (r & t' & Es & -> & H4). exists t'. split; [|done].
      rewrite decide_True by done. rewrite run_app, R. cbn [run]. rewrite Es. cbn. by rewrite decide_True.
    + assert (He : e <> PDrop i) by (intros ->; apply Hd, elem_of_app; right; left).
      assert (W3 : prun new_world ((es1 ++ [PTable a]) ++ es2) = Some (rs1 ++ rs3, w3)) by (by rewrite prun_app, E1, E3).
      pose proof (winv_run _ _ _ W3) as W.
      destruct (home_other w3 i a t e rs4 w4 H3 E4 Hno He) as [H4 Hr4].
      { intros j ob b Hj Hji Fb. destruct (wi_tab _ _ W _ _ Hj) as (b' & Hb' & Fb').
        assert (Hin : b' ∈ tables es1 ++ tables es2).
        { unfold tables in Hb'. rewrite !omap_app in Hb'. change (omap _ [PTable a]) with [a] in Hb'. fold (tables es1) (tables es2) in Hb'.
          apply lookup_app_Some in Hb' as [Hb'|[Hl Hb']]; [apply lookup_app_Some in Hb' as [Hb'|[Hl Hb']]|].
          - apply elem_of_app. left. by eapply elem_of_list_lookup_2.
          - apply list_lookup_singleton_Some in Hb' as [Hl' _]. subst i. lia.
          - apply elem_of_app. right. by eapply elem_of_list_lookup_2. }
        pose proof (Hap' b' Hin) as A. destruct Fb as (B1 & B2 & B3 & _), Fb' as (C1 & C2 & C3 & _).
        unfold apart in *. rewrite <- B1, <- B2, <- B3, C1, C2, C3. done. }
      exists t. split; [|done]. unfold results in Hr4. rewrite Hr4, app_nil_r.
      assert (match e with PCall j o => if decide (j = i) then Some o else None | _ => None end = @None op) as ->.
      { destruct e as [| | | |j o|]; try done. rewrite decide_False; [done|]. intros ->. by apply (Hno o). }
      by rewrite app_nil_r.
Qed.

(** ** C97: independence *)

(** A table whose selectors and limiter are given to no other table does what a
    table does that is alone in the world: the results of its calls and its
    state are those of [Table.run].  What the other tables do, also among each other,
    does not matter. *)
Theorem C97_independent_partial es1 a es2 rs1 w1 rs2 w2 c :
  prun new_world (es1 ++ [PTable a]) = Some (rs1, w1) -> prun w1 es2 = Some (rs2, w2) ->
  let i := length (tables es1) in
  meant es1 a c -> a_s a <> a_r a ->
  (forall b, b ∈ tables es1 ++ tables es2 -> apart a b) -> PDrop i ∉ es2 ->
  exists t ob, run (new_table c) (calls i es2) = Some (results i rs2, t) /\
    alive w2 i ob /\ view w2 ob = Some t.
Proof.
  intros E1 E2 i (ks & kr & s & m & lo & hi & Hks & Hkr & Hl & ->) Hsr Hap Hd.
  pose proof E1 as E1'. rewrite prun_app in E1'. destruct (prun new_world es1) as [[rs0 w0]|] eqn:E0; [|done].
  cbn in E1'. destruct (make_table w0 a) as [w1'|] eqn:Em; [|done]. injection E1' as _ <-.
  pose proof (winv_run _ _ _ E0) as W.
  assert (Hn : forall b, b ∈ tables es1 -> apart a b) by (intros b Hb; apply Hap, elem_of_app; by left).
  assert (H1 : w_sel w0 !! a_s a = Some (sel_new ks)) by (apply (wi_sel _ _ W _ _ Hks); intros b Hb; destruct (Hn b Hb) as (? & ? & _); done).
  assert (H2 : w_sel w0 !! a_r a = Some (sel_new kr)) by (apply (wi_sel _ _ W _ _ Hkr); intros b Hb; destruct (Hn b Hb) as (_ & _ & ? & ? & _); done).
  assert (H3 : w_lim w0 !! a_l a = Some (mkLobj (new_limiter s m lo hi) None)).
  { apply (wi_lim _ _ W _ _ _ _ _ Hl). intros b Hb. by destruct (Hn b Hb) as (_ & _ & _ & _ & ?). }
  unfold make_table in Em. rewrite H1, H2, H3 in Em. cbn [lo_reg] in Em.
  destruct (register_exts _ _ _) as [es'|]; [|done]. injection Em as <-.
  match type of E2 with prun ?x _ = _ => set (w1 := x) in * end.
  assert (Hh : at_home w1 i a (new_table (mkCfg (a_max_size a) (a_max_times a) ks kr s m lo hi))).
  { eexists. split; [unfold alive, w1, i; cbn; rewrite <- (wi_ntab _ _ W); by apply list_lookup_middle|]. split; [done|].
    unfold view, w1. cbn. rewrite H1, H2, list_lookup_insert by (by apply lookup_lt_Some in H3). done. }
  destruct (home_run es1 a es2 _ _ _ _ _ E1 E2 i eq_refl Hh Hsr Hap Hd) as (t & R & (ob & Ho & _ & V)). exists t, ob. done.
Qed.

(** ** Extensions *)

(** The calls that an extension has received from table [i]. *)
Definition seen_from (i : nat) (e : xobj) : list event :=
  omap (fun p => if decide (p.1 = i) then Some p.2 else None) (xo_seen e).

Definition pre (t t' : table) : Prop := exists evs, t_log t' = t_log t ++ evs.
Lemma pre_refl t : pre t t.
Proof. exists []. by rewrite app_nil_r. Qed.
Lemma pre_trans t1 t2 t3 : pre t1 t2 -> pre t2 t3 -> pre t1 t3.
Proof. intros [e1 H1] [e2 H2]. exists (e1 ++ e2). by rewrite H2, H1, app_assoc. Qed.
Lemma pre_same t t' : t_log t' = t_log t -> pre t t'.
Proof. intros H. exists []. by rewrite app_nil_r. Qed.

Lemma pre_delete t k st t' : delete_item t k = Some (st, t') -> pre t t'.
Proof.
  unfold delete_item. destruct (t_data t !! k) as [it|]; [|intros [= <- <-]; apply pre_refl].
  repeat case_match; intros E; try done; simplify_eq; cbn; first [by apply pre_same | by eexists].
Qed.
Lemma pre_update t k p st t' : update_item t k p = (st, t') -> pre t t'.
Proof.
  unfold update_item. destruct (t_data t !! k) as [it|]; [|intros [= <- <-]; apply pre_refl].
  repeat case_match; intros E; try done; simplify_eq; cbn; first [by apply pre_same | by eexists].
Qed.
Lemma pre_insert t now d it st t' : insert_new t now d it = Some (st, t') -> pre t t'.
Proof.
  unfold insert_new. cbv zeta. cbn [t_sampler with_data]. destruct (sel_insert (t_sampler t) _ _) as [st1 s1].
  destruct (negb _); [intros [= <- <-]; by apply pre_same|].
  cbn [t_remover with_sampler with_data]. destruct (sel_insert (t_remover t) _ _) as [st2 s2].
  destruct (negb _); [intros [= <- <-]; by apply pre_same|].
  destruct (_ <? _).
  - destruct (sel_sample _ _) as [[v q]|]; [|done]. destruct (delete_item _ v) as [[st3 t3]|] eqn:Ed; [|done].
    apply pre_delete in Ed as [evs Ed]. cbn in Ed.
    destruct (negb _); intros [= <- <-]; cbn; eexists; cbn; rewrite Ed, <- app_assoc; done.
  - intros [= <- <-]. by eexists.
Qed.
Lemma pre_sample_one t d l st sm t' : sample_one t d l = Some (st, sm, t') -> pre t t'.
Proof.
  unfold sample_one. destruct (sel_sample _ _) as [[k q]|]; [|done]. destruct (t_data t !! k) as [it|]; [|done]. cbv zeta.
  match goal with |- (if _ then match delete_item ?tt _ with _ => _ end else _) = _ -> _ => set (t1 := tt) end.
  assert (H1 : pre t t1). { exists [EvSample (item_set_times it (it_times it + 1))]. unfold t1. cbn. by destruct (it_times it =? 0). }
  match goal with |- (if ?b then _ else _) = _ -> _ => destruct b end.
  - destruct (delete_item t1 _) as [[st3 t3]|] eqn:Ed; [|done]. intros [= <- <- <-]. eapply pre_trans; [exact H1|]. by eapply pre_delete.
  - by intros [= <- <- <-].
Qed.
Lemma pre_loop more : forall ds l t st sms t', sample_loop more ds l t = Some (st, sms, t') -> pre t t'.
Proof.
  induction more as [|more IH]; intros ds l t st sms t' E; cbn [sample_loop] in E;
    destruct (sample_one t (ds 0%nat) l) as [[[st1 sm] t1]|] eqn:E1; try done; apply pre_sample_one in E1;
    destruct (negb _); try (by injection E as <- <- <-).
  destruct (maybe_commit_sample _) as [li|]; [|by injection E as <- <- <-].
  destruct (sample_loop more _ l _) as [[[st2 sms2] t2]|] eqn:E2; [|done]. injection E as <- <- <-.
  apply IH in E2. eapply pre_trans; [exact E1|]. destruct E2 as [evs E2]. by exists evs.
Qed.
Lemma pre_run_sample t b ds l r t' : sample_run t b ds l = Some (r, t') -> pre t t'.
Proof.
  unfold sample_run. destruct (sample_loop _ _ _ _) as [[[st sms] t1]|] eqn:E; [|done]. intros [= <- <-]. by eapply pre_loop.
Qed.
Lemma pre_resume t b ds r t' : sample_resume t b ds = Some (r, t') -> pre t t'.
Proof.
  unfold sample_resume. destruct (await_sample _); [|intros [= <- <-]; apply pre_refl..].
  intros E. apply pre_run_sample in E as [evs E]. by exists evs.
Qed.
Lemma pre_insert_resume t now d it r t' : insert_resume t now d it = Some (r, t') -> pre t t'.
Proof.
  unfold insert_resume. destruct (await_can_insert _); [|intros [= <- <-]; apply pre_refl..].
  destruct (t_data t !! _).
  - destruct (update_item _ _ _) as [st t1] eqn:E. intros [= <- <-]. by eapply pre_update.
  - destruct (insert_new _ _ _ _) as [[st t1]|] eqn:E; [|done]. intros [= <- <-]. by eapply pre_insert.
Qed.
Lemma pre_deletes ks : forall t st t', delete_items t ks = Some (st, t') -> pre t t'.
Proof.
  induction ks as [|k ks IH]; intros t st t' E; cbn in E; [injection E as <- <-; apply pre_refl|].
  destruct (delete_item t k) as [[st1 t1]|] eqn:E1; [|done]. apply pre_delete in E1.
  case_bool_decide; [|by injection E as <- <-]. eapply pre_trans; [exact E1|]. by eapply IH.
Qed.
Lemma pre_updates us : forall t st t', update_items t us = (st, t') -> pre t t'.
Proof.
  induction us as [|[k p] us IH]; intros t st t' E; cbn in E; [injection E as <- <-; apply pre_refl|].
  destruct (update_item t k p) as [st1 t1] eqn:E1. apply pre_update in E1.
  case_bool_decide; [|by injection E as <- <-]. eapply pre_trans; [exact E1|]. by eapply IH.
Qed.
Lemma pre_step t o r t' : step t o = Some (r, t') -> pre t t'.
Proof.
  destruct o as [now d it|now d it|b ds|b ds|us ks| |]; cbn [step]; intros E.
  - unfold insert_or_assign in E. destruct (negb _); [injection E as <- <-; apply pre_refl|].
    destruct (t_data t !! _); [|by eapply pre_insert_resume].
    destruct (update_item _ _ _) as [st t1] eqn:E1. injection E as <- <-. by eapply pre_update.
  - by eapply pre_insert_resume.
  - unfold sample_batch in E. destruct (maybe_commit_sample _); [|by eapply pre_resume].
    apply pre_run_sample in E as [evs E]. by exists evs.
  - by eapply pre_resume.
  - unfold mutate_items in E. destruct (delete_items t ks) as [[st t1]|] eqn:E1; [|done]. apply pre_deletes in E1.
    case_bool_decide; [|by injection E as <- <-]. destruct (update_items t1 us) as [st2 t2] eqn:E2. apply pre_updates in E2.
    injection E as <- <-. by eapply pre_trans.
  - injection E as <- <-. by eexists.
  - injection E as <- <-. by apply pre_same.
Qed.

Record xinv (w : world) : Prop := {
  xi_lt : forall x e p, w_ext w !! x = Some e -> p ∈ xo_seen e -> (p.1 < length (w_tab w))%nat;
  xi_log : forall i ob x e, alive w i ob -> x ∈ o_x ob -> w_ext w !! x = Some e -> seen_from i e = t_log (o_tab ob) }.

Lemma seen_none i e : (forall p, p ∈ xo_seen e -> p.1 <> i) -> seen_from i e = [].
Proof.
  unfold seen_from. induction (xo_seen e) as [|p l IH]; intros H; [done|]. cbn. rewrite decide_False by (apply H; left).
  apply IH. intros q Hq. apply H. by right.
Qed.
Lemma view_log w ob t : view w ob = Some t -> t_log t = t_log (o_tab ob).
Proof.
  unfold view. destruct (w_sel w !! o_s ob); [|done]. destruct (w_sel w !! o_r ob); [|done]. destruct (w_lim w !! o_l ob); [|done].
  by intros [= <-].
Qed.

Lemma xinv_step w e rs w' : reg_inv w -> xinv w -> pstep w e = Some (rs, w') -> xinv w'.
Proof.
  intros R [X1 X2] E. destruct e as [k|s m lo hi| |a|i o|i]; cbn in E.
  - by injection E as <- <-.
  - by injection E as <- <-.
  - injection E as <- <-. split; cbn.
    + intros x e p H Hp. apply lookup_app_Some in H as [H|[_ H]]; [by eapply X1|].
      apply list_lookup_singleton_Some in H as [_ <-]. by apply elem_of_nil in Hp.
    + intros i ob x e Ha Hx H. destruct (ri_ext _ R i ob Ha) as [_ Hex]. destruct (Hex x Hx) as (e' & He' & _).
      rewrite (lookup_app_l_Some _ _ _ _ He') in H. injection H as <-. by apply (X2 i ob x).
  - destruct (make_table w a) as [w1|] eqn:Em; [|done]. injection E as <- <-. unfold make_table in Em.
    assert (Hnone : xinv (mkWorld (w_sel w) (w_lim w) (w_ext w) (w_tab w ++ [None]))).
    { split; cbn.
      - intros x e p H Hp. rewrite app_length. specialize (X1 x e p H Hp). lia.
      - intros i ob x e Ha. apply (alive_snoc w _ None) in Ha as [Ha|[_ ?]]; [by apply X2|done|done]. }
    destruct (w_sel w !! a_s a) as [s|]; [|by injection Em as <-].
    destruct (w_sel w !! a_r a) as [r|]; [|by injection Em as <-].
    destruct (w_lim w !! a_l a) as [l|]; [|by injection Em as <-].
    destruct (lo_reg l); [done|]. destruct (register_exts _ _ _) as [es|] eqn:Hx; [|done]. injection Em as <-.
    assert (Hseen : forall x e, es !! x = Some e -> exists e0, w_ext w !! x = Some e0 /\ xo_seen e = xo_seen e0).
    { clear - Hx. revert Hx. generalize (w_ext w) as es0. induction (a_x a) as [|y ys IH]; intros es0 Hx x e He; cbn in Hx.
      - injection Hx as <-. eauto.
      - destruct (es0 !! y) as [ey|] eqn:Hy; [|done]. destruct (xo_reg ey); [done|].
        destruct (IH _ Hx x e He) as (e1 & He1 & Hs). destruct (decide (x = y)) as [->|Hne].
        + rewrite list_lookup_insert in He1 by (by apply lookup_lt_Some in Hy). injection He1 as <-. eauto.
        + rewrite list_lookup_insert_ne in He1 by done. eauto. }
    split; cbn.
    + intros x e p H Hp. destruct (Hseen x e H) as (e0 & He0 & Hs0). rewrite Hs0 in Hp. rewrite app_length. specialize (X1 _ _ _ He0 Hp). lia.
    + intros i ob x e Ha Hxo H. destruct (Hseen x e H) as (e0 & He0 & Hs0).
      assert (Hsf : seen_from i e = seen_from i e0) by (unfold seen_from; by rewrite Hs0). rewrite Hsf.
      eapply alive_snoc in Ha; [|cbn; reflexivity]. destruct Ha as [Ha|[-> [= <-]]]; [by apply (X2 i ob x)|]. cbn.
      apply seen_none. intros p Hp. specialize (X1 _ _ _ He0 Hp). lia.
  - destruct (w_tab w !! i) as [[ob|]|] eqn:Ha; try (by injection E as <- <-).
    case_decide; [by injection E as <- <-|]. destruct (view w ob) as [t|] eqn:V; [|done].
    destruct (step t o) as [[r t']|] eqn:Es; [|done]. injection E as <- <-.
    destruct (pre_step _ _ _ _ Es) as [evs Hl]. rewrite (view_log _ _ _ V) in Hl.
    destruct (ri_ext _ R i ob Ha) as [Hn Hex].
    assert (Hdrop : drop (length (t_log (o_tab ob))) (t_log t') = evs) by (rewrite Hl; apply drop_app).
    split.
    + intros x e p Hn' Hp. unfold put in *. cbn in Hn' |- *. rewrite Hdrop, notify_lookup in Hn' by done. rewrite insert_length.
      case_decide; [|by eapply X1]. destruct (w_ext w !! x) as [e0|] eqn:He0; [|done]. injection Hn' as <-. cbn in Hp.
      apply elem_of_app in Hp as [Hp|Hp]; [by eapply X1|]. apply elem_of_list_fmap in Hp as (ev & -> & _). cbn. by apply (alive_lt w i ob).
    + intros j ob' x e Hj Hx Hq. unfold put in Hq. cbn in Hq. rewrite Hdrop, notify_lookup in Hq by done.
      apply (alive_insert w _ i (Some (mkTobj (o_s ob) (o_r ob) (o_l ob) (o_x ob) t'))) in Hj; [|by apply (alive_lt w i ob)|done].
      destruct Hj as [[Hne Hj]|[-> [= <-]]].
      * destruct (ri_ext _ R j ob' Hj) as [_ Hex']. destruct (Hex' x Hx) as (e0 & He0 & Hr0).
        case_decide as Hd.
        { destruct (Hex x Hd) as (e1 & He1 & Hr1). congruence. }
        rewrite Hq in He0. by apply (X2 j ob' x).
      * cbn [o_x o_tab] in *. rewrite decide_True in Hq by done. destruct (w_ext w !! x) as [e0|] eqn:He0; [|done]. injection Hq as <-.
        unfold seen_from. cbn [xo_seen]. rewrite omap_app, Hl. f_equal; [by apply (X2 i ob x)|].
        clear. induction evs as [|ev evs IH]; [done|]. cbn. rewrite decide_True by done. by f_equal.
  - destruct (w_tab w !! i) as [[ob|]|] eqn:Ha; try (by injection E as <- <-).
    destruct (drop_table w i ob) as [w1|] eqn:Ed; [|done]. injection E as <- <-. unfold drop_table in Ed.
    destruct (w_lim w !! o_l ob) as [l|] eqn:Hl; [|done]. case_decide; [|done].
    destruct (unregister_exts _ _ _) as [es|] eqn:Hx; [|done]. injection Ed as <-.
    assert (Hseen : forall x e, es !! x = Some e -> exists e0, w_ext w !! x = Some e0 /\ xo_seen e = xo_seen e0).
    { clear - Hx. revert Hx. generalize (w_ext w) as es0. induction (o_x ob) as [|y ys IH]; intros es0 Hx x e He; cbn in Hx.
      - injection Hx as <-. eauto.
      - destruct (es0 !! y) as [ey|] eqn:Hy; [|done]. case_decide; [|done].
        destruct (IH _ Hx x e He) as (e1 & He1 & Hs). destruct (decide (x = y)) as [->|Hne].
        + rewrite list_lookup_insert in He1 by (by apply lookup_lt_Some in Hy). injection He1 as <-. eauto.
        + rewrite list_lookup_insert_ne in He1 by done. eauto. }
    split; cbn.
    + intros x e p H' Hp. destruct (Hseen x e H') as (e0 & He0 & Hs0). rewrite Hs0 in Hp. rewrite insert_length. by apply (X1 _ _ _ He0).
    + intros j ob' x e Hj Hxo H'. destruct (Hseen x e H') as (e0 & He0 & Hs0).
      assert (Hsf : seen_from j e = seen_from j e0) by (unfold seen_from; by rewrite Hs0). rewrite Hsf.
      apply (alive_insert w _ i None) in Hj; [|by apply (alive_lt w i ob)|done]. destruct Hj as [[_ Hj]|[_ ?]]; [|done]. by apply (X2 j ob' x).
Qed.

Lemma xinv_run es : forall w rs w', reg_inv w -> xinv w -> prun w es = Some (rs, w') -> xinv w'.
Proof.
  induction es as [|e es IH]; intros w rs w' R X E; cbn in E; [by injection E as <- <-|].
  destruct (pstep w e) as [[rs1 w1]|] eqn:E1; [|done]. destruct (prun w1 es) as [[rs2 w2]|] eqn:E2; [|done].
  injection E as <- <-. apply (IH w1 rs2); [by eapply reg_step|by eapply xinv_step|done].
Qed.

(** An extension has received from its table exactly the events of that table, in
    order (that these tell the truth is C20), and belongs to no other table. *)
Theorem C97_extension es rs w i ob t x e : prun new_world es = Some (rs, w) ->
  alive w i ob -> x ∈ o_x ob -> view w ob = Some t -> w_ext w !! x = Some e ->
  seen_from i e = t_log t /\ forall j ob', alive w j ob' -> x ∈ o_x ob' -> j = i.
Proof.
  intros E Ha Hx V He. pose proof (reg_run es _ _ _ reg_inv_new E) as R. split.
  - rewrite (view_log _ _ _ V). assert (X : xinv w); [|by apply (xi_log _ X i ob x)].
    apply (xinv_run es new_world rs); [apply reg_inv_new| |done]. split; unfold alive; cbn; intros *; done.
  - intros j ob' Hj Hx'. destruct (ri_ext _ R i ob Ha) as [_ H1], (ri_ext _ R j ob' Hj) as [_ H2].
    destruct (H1 x Hx) as (e1 & He1 & Hr1), (H2 x Hx') as (e2 & He2 & Hr2). congruence.
Qed.

(** ** Programs whose tables have their own objects *)

(** How many extensions the program makes. *)
Definition nexts (es : list pev) : nat :=
  length (omap (fun e => match e with PExt => Some tt | _ => None end) es).

(** Every table is made of objects that exist and that no other table is ever given,
    with a valid configuration, and the calls on it are valid. *)
Record own_objects (es : list pev) : Prop := {
  own_apart : forall i j a b, tables es !! i = Some a -> tables es !! j = Some b -> i <> j ->
    apart a b /\ forall x, x ∈ a_x a -> x ∉ a_x b;
  own_self : forall a, a ∈ tables es -> a_s a <> a_r a /\ NoDup (a_x a);
  own_ok : forall es1 a es2, es = es1 ++ PTable a :: es2 ->
    (forall x, x ∈ a_x a -> (x < nexts es1)%nat) /\
    exists c, meant es1 a c /\ cfg_ok c /\ Forall (op_ok c) (calls (length (tables es1)) es2) }.

Lemma own_prefix es e : own_objects (es ++ [e]) -> own_objects es.
Proof.
  intros [A S O]. unfold tables in A, S. rewrite omap_app in A, S. split.
  - intros i j a b Hi Hj. apply A; by apply lookup_app_l_Some.
  - intros a Ha. apply S, elem_of_app. by left.
  - intros es1 a es2 ->. destruct (O es1 a (es2 ++ [e])) as (Hx & c & Hm & Hc & Ho); [by rewrite <- app_assoc|].
    split; [done|]. exists c. split; [done|]. split; [done|]. unfold calls in Ho. rewrite omap_app in Ho. by apply Forall_app in Ho as [Ho _].
Qed.

Lemma gone_step w e rs w' j : pstep w e = Some (rs, w') -> w_tab w !! j = Some None -> w_tab w' !! j = Some None.
Proof.
  intros E Hj. destruct e as [k|s m lo hi| |a|i o|i]; cbn in E; try (by injection E as <- <-).
  - destruct (make_table w a) as [w1|] eqn:Em; [|done]. injection E as <- <-. unfold make_table in Em.
    repeat case_match; simplify_eq; cbn; by apply lookup_app_l_Some.
  - destruct (w_tab w !! i) as [[ob|]|] eqn:Ha; try (by injection E as <- <-).
    case_decide; [by injection E as <- <-|]. destruct (view w ob) as [t|] eqn:V; [|done].
    destruct (step t o) as [[r t']|] eqn:Es; [|done]. injection E as <- <-. unfold put. cbn.
    rewrite list_lookup_insert_ne by congruence. done.
  - destruct (w_tab w !! i) as [[ob|]|] eqn:Ha; try (by injection E as <- <-).
    destruct (drop_table w i ob) as [w1|] eqn:Ed; [|done]. injection E as <- <-. unfold drop_table in Ed.
    repeat case_match; simplify_eq; cbn. rewrite list_lookup_insert_ne by congruence. done.
Qed.
Lemma ntab_step w e rs w' : pstep w e = Some (rs, w') -> (length (w_tab w) <= length (w_tab w'))%nat.
Proof.
  intros E. destruct e as [k|s m lo hi| |a|i o|i]; cbn in E; try (by injection E as <- <-).
  - destruct (make_table w a) as [w1|] eqn:Em; [|done]. injection E as <- <-. unfold make_table in Em.
    repeat case_match; simplify_eq; cbn; rewrite app_length; lia.
  - destruct (w_tab w !! i) as [[ob|]|] eqn:Ha; try (by injection E as <- <-).
    case_decide; [by injection E as <- <-|]. destruct (view w ob) as [t|] eqn:V; [|done].
    destruct (step t o) as [[r t']|] eqn:Es; [|done]. injection E as <- <-. unfold put. cbn. by rewrite insert_length.
  - destruct (w_tab w !! i) as [[ob|]|] eqn:Ha; try (by injection E as <- <-).
    destruct (drop_table w i ob) as [w1|] eqn:Ed; [|done]. injection E as <- <-. unfold drop_table in Ed.
    repeat case_match; simplify_eq; cbn. by rewrite insert_length.
Qed.
Lemma gone_run es : forall w rs w' j, prun w es = Some (rs, w') -> w_tab w !! j = Some None -> w_tab w' !! j = Some None.
Proof.
  induction es as [|e es IH]; intros w rs w' j E Hj; cbn in E; [by injection E as <- <-|].
  destruct (pstep w e) as [[rs1 w1]|] eqn:E1; [|done]. destruct (prun w1 es) as [[rs2 w2]|] eqn:E2; [|done].
  injection E as <- <-. eapply IH; [done|]. by eapply gone_step.
Qed.
Lemma dropped_run es : forall w rs w' j, prun w es = Some (rs, w') -> (j < length (w_tab w))%nat -> PDrop j ∈ es ->
  w_tab w' !! j = Some None.
Proof.
  induction es as [|e es IH]; intros w rs w' j E Hj Hd; cbn in E; [by apply elem_of_nil in Hd|].
  destruct (pstep w e) as [[rs1 w1]|] eqn:E1; [|done]. destruct (prun w1 es) as [[rs2 w2]|] eqn:E2; [|done].
  injection E as <- <-. apply elem_of_cons in Hd as [<-|Hd].
  - eapply gone_run; [done|]. cbn in E1. apply lookup_lt_is_Some in Hj as [[ob|] Ho]; rewrite Ho in E1.
    + destruct (drop_table w j ob) as [w3|] eqn:Ed; [|done]. injection E1 as <- <-. unfold drop_table in Ed.
      repeat case_match; simplify_eq; cbn. rewrite list_lookup_insert; [done|]. by apply lookup_lt_Some in Ho.
    + by injection E1 as <- <-.
  - eapply IH; [done| |done]. pose proof (ntab_step _ _ _ _ E1). lia.
Qed.

Lemma tables_split es : forall i a, tables es !! i = Some a ->
  exists es1 es2, es = es1 ++ PTable a :: es2 /\ length (tables es1) = i.
Proof.
  induction es as [|e es IH]; intros i a H; [done|].
  destruct e as [k|s m lo hi| |b|j o|j]; cbn in H; try (destruct (IH _ _ H) as (es1 & es2 & -> & Hl); eexists (_ :: es1), es2; by split).
  destruct i as [|i]; cbn in H.
  - injection H as ->. by exists [], es.
  - destruct (IH _ _ H) as (es1 & es2 & -> & Hl). exists (PTable b :: es1), es2. split; [done|]. by rewrite <- Hl.
Qed.

Lemma next_run es rs w : prun new_world es = Some (rs, w) -> length (w_ext w) = nexts es.
Proof.
  revert rs w. induction es as [|e es IH] using List.rev_ind; intros rs w E; [by injection E as <- <-|].
  rewrite prun_app in E. destruct (prun new_world es) as [[rs0 w0]|] eqn:E0; [|done]. specialize (IH _ _ eq_refl).
  unfold nexts in *. rewrite omap_app, app_length, <- IH. cbn in E.
  destruct e as [k|s m lo hi| |a|i o|i]; cbn in E |- *; try (by injection E as <- <-; cbn; rewrite ?app_length; cbn; lia).
  - destruct (make_table w0 a) as [w1|] eqn:Em; [|done]. injection E as <- <-. unfold make_table in Em.
    repeat case_match; simplify_eq; cbn; try lia.
    match goal with H : register_exts _ _ _ = Some _ |- _ => apply register_length in H; rewrite H; lia end.
  - destruct (w_tab w0 !! i) as [[ob|]|] eqn:Ha; try (by injection E as <- <-; lia).
    case_decide; [by injection E as <- <-; lia|]. destruct (view w0 ob) as [t|] eqn:V; [|done].
    destruct (step t o) as [[r t']|] eqn:Es; [|done]. injection E as <- <-. unfold put. cbn. rewrite notify_length. lia.
  - destruct (w_tab w0 !! i) as [[ob|]|] eqn:Ha; try (by injection E as <- <-; lia).
    destruct (drop_table w0 i ob) as [w1|] eqn:Ed; [|done]. injection E as <- <-. unfold drop_table in Ed.
    repeat case_match; simplify_eq; cbn.
    match goal with H : unregister_exts _ _ _ = Some _ |- _ => apply unregister_length in H; rewrite H; lia end.
Qed.

(** Such a program never kills the process. *)
Theorem C97_alive es : own_objects es -> is_Some (prun new_world es).
Proof.
  induction es as [|e es IH] using List.rev_ind; intros O; [by eexists|].
  destruct (IH (own_prefix _ _ O)) as [[rs w] E]. rewrite prun_app, E. cbn.
  assert (Hs : is_Some (pstep w e)).
  2:{ destruct Hs as [[rs1 w1] ->]. by eexists. }
  destruct O as [A S O]. pose proof (winv_run _ _ _ E) as W. pose proof (reg_run es _ _ _ reg_inv_new E) as R.
  destruct e as [k|s m lo hi| |a|i o|i]; try (by eexists).
  - destruct (pstep w (PTable a)) as [[rs1 w1]|] eqn:Es; [by eexists|exfalso].
    destruct (O es a []) as (Hx & c & (ks & kr & s & m & lo & hi & Hks & Hkr & Hl & _) & _ & _); [done|].
    assert (Hnew : tables (es ++ [PTable a]) = tables es ++ [a]) by (unfold tables; by rewrite snoc_omap).
    apply (C97_construct es rs w a E) in Es as [(j & ob & Ha & El)|[(j & ob & x & Ha & Hxo & Hxa)|Hnd]].
    + destruct (wi_tab _ _ W j ob Ha) as (b & Hb & Hf). destruct (A j (length (tables es)) b a) as [Hap _].
      * rewrite Hnew. by apply lookup_app_l_Some.
      * rewrite Hnew. by apply list_lookup_middle.
      * apply lookup_lt_Some in Hb. lia.
      * unfold apart in Hap. unfold fits in Hf. naive_solver congruence.
    + destruct (wi_tab _ _ W j ob Ha) as (b & Hb & Hf). destruct (A j (length (tables es)) b a) as [_ Hap].
      * rewrite Hnew. by apply lookup_app_l_Some.
      * rewrite Hnew. by apply list_lookup_middle.
      * apply lookup_lt_Some in Hb. lia.
      * apply (Hap x); [|done]. unfold fits in Hf. destruct_and?. congruence.
    + apply Hnd. apply (S a). rewrite Hnew. apply elem_of_app. right. by apply elem_of_list_singleton.
    + rewrite (wi_nsel _ _ W). by apply lookup_lt_Some in Hks.
    + rewrite (wi_nsel _ _ W). by apply lookup_lt_Some in Hkr.
    + rewrite (wi_nlim _ _ W). by apply lookup_lt_Some in Hl.
    + rewrite (next_run _ _ _ E). done.
  - cbn. destruct (w_tab w !! i) as [[ob|]|] eqn:Ha; try (by eexists). case_decide as Hsr; [by eexists|].
    destruct (wi_tab _ _ W i ob Ha) as (a & Hta & Hf).
    destruct (tables_split _ _ _ Hta) as (es1 & es2 & -> & Hi).
    destruct (O es1 a (es2 ++ [PCall i o])) as (_ & c & Hm & Hc & Ho); [by rewrite <- app_assoc|].
    rewrite (app_assoc es1 [PTable a] es2 : es1 ++ PTable a :: es2 = (es1 ++ [PTable a]) ++ es2) in E.
    rewrite prun_app in E. destruct (prun new_world (es1 ++ [PTable a])) as [[rs1 w1]|] eqn:E1; [|done].
    destruct (prun w1 es2) as [[rs2 w2]|] eqn:E2; [|done]. injection E as _ ->.
    assert (Htabs : tables ((es1 ++ PTable a :: es2) ++ [PCall i o]) = tables es1 ++ a :: tables es2).
    { unfold tables. rewrite !omap_app. cbn. by rewrite app_nil_r. }
    destruct (C97_independent_partial es1 a es2 rs1 w1 rs2 w c E1 E2 Hm) as (t & ob' & Hrun & Ha' & Hv).
    + apply S. rewrite Htabs. apply elem_of_app. right. by left.
    + intros b Hb. apply elem_of_app in Hb as [Hb|Hb]; apply elem_of_list_lookup in Hb as [j Hj].
      * apply (A (length (tables es1)) j a b); rewrite ?Htabs.
        -- by apply list_lookup_middle.
        -- by apply lookup_app_l_Some.
        -- apply lookup_lt_Some in Hj. lia.
      * apply (A (length (tables es1)) (length (tables es1) + Datatypes.S j)%nat a b); rewrite ?Htabs.
        -- by apply list_lookup_middle.
        -- rewrite lookup_app_r by lia. by replace (length (tables es1) + Datatypes.S j - length (tables es1))%nat with (Datatypes.S j) by lia.
        -- lia.
    + intros Hd. rewrite Hi in Hd. apply (dropped_run _ _ _ _ _ E2) in Hd; [unfold alive in *; congruence|].
      pose proof (winv_run _ _ _ E1) as W1. rewrite (wi_ntab _ _ W1). unfold tables. rewrite omap_app, app_length. cbn.
      unfold tables in Hi. lia.
    + rewrite Hi in Ha', Hrun. unfold alive in Ha'. rewrite Ha in Ha'. injection Ha' as <-. rewrite Hv.
      unfold calls in Ho. rewrite omap_app, Hi in Ho. cbn in Ho. rewrite decide_True in Ho by done. fold (calls i es2) in Ho.
      destruct (C02_no_crash c _ Hc Ho) as (rs3 & t3 & H3). rewrite run_app, Hrun in H3. cbn in H3.
      destruct (step t o) as [[r t']|]; [by eexists|done].
  - destruct (pstep w (PDrop i)) as [p|] eqn:Ep; [by eexists|]. by apply C97_drop with (i := i) in E.
Qed.

End WithFP.

(** The same object given as sampler and as remover: every insertion is refused, for
    every kind of selector, content, key and priority. *)
Theorem C97_same_selector {fp : FP} {laws : FPLaws fp} s k p : sel_wf s -> (insert_same s k p).1 = InvalidArgument.
Proof.
  intros W. unfold insert_same. destruct (sel_insert_spec s k p W) as (W1 & K1 & Hno & Hdup & Hnew).
  destruct (sel_insert s k p) as [st s1] eqn:E1. cbn [fst snd] in *.
  destruct (accepts (sel_kind_of s) p) eqn:Ea.
  - destruct (decide (k ∈ sel_dom s)) as [Hk|Hk].
    + destruct (Hdup eq_refl Hk) as [-> _]. by rewrite bool_decide_eq_false_2.
    + destruct (Hnew eq_refl Hk) as [-> D]. rewrite bool_decide_eq_true_2 by done. cbn [negb].
      destruct (sel_insert_spec s1 k p W1) as (_ & _ & _ & Hdup1 & _). rewrite K1 in Hdup1.
      apply Hdup1; [done|]. rewrite D. set_solver.
  - specialize (Hno eq_refl). injection Hno as -> ->. by rewrite bool_decide_eq_false_2.
Qed.

(** ** Cases *)

Local Existing Instance fp_exact.
Local Existing Instance fp_exact_laws.

Definition ins (k : Z) : op := OInsert (0, 0) d0 (mk_item k 1 1 0).
Definition smp : op := OSample 1 ds0.
(** A limiter that lets everything pass, as soon as there is an item. *)
Definition free : pev := PLim 1 1 (-100) 100.

(** Two tables with one Fifo as sampler: each with its own remover and limiter.  The
    construction is accepted, one insertion into each table succeeds, and then
    sampling from the second table selects the item of the first, which is not there:
    the CHECK kills the server. *)
Definition shared_sampler : list pev :=
  [PSel KFifo; PSel KFifo; PSel KFifo; free; free;
   PTable (mkTargs 10 0 0 1 0 []); PTable (mkTargs 10 0 0 2 1 []); PCall 0 (ins 1); PCall 1 (ins 2)].
Theorem C97_shared_selector_refuted :
  match prun new_world shared_sampler with
  | Some (rs, w) => rs = [(0%nat, RStatus Ok); (1%nat, RStatus Ok)] /\ prun w [PCall 1 smp] = None
  | None => False
  end.
Proof. vm_compute. split; reflexivity. Qed.

(** With one object as remover: the table that is full looks for an item to remove,
    and removes none, since it is not one of its own; it becomes larger than its max_size. *)
Definition shared_remover : list pev :=
  [PSel KFifo; PSel KFifo; PSel KFifo; free; free;
   PTable (mkTargs 1 0 0 2 0 []); PTable (mkTargs 1 0 1 2 1 []);
   PCall 0 (ins 1); PCall 1 (ins 2); PCall 1 (ins 3)].
Theorem C97_shared_remover_refuted :
  match prun new_world shared_remover with
  | Some (rs, w) =>
    rs = [(0%nat, RStatus Ok); (1%nat, RStatus Ok); (1%nat, RStatus Ok)] /\
    exists ob t, alive w 1 ob /\ view w ob = Some t /\ t_max_size t = 1 /\ size (t_data t) = 2%nat
  | None => False
  end.
Proof. vm_compute. split; [reflexivity|]. do 2 eexists. split; [reflexivity|]. split; [reflexivity|]. split; reflexivity. Qed.

(** The objects of a table that is gone: the sampler still has its items, and the
    limiter stays cancelled, although its counters were reset. *)
Definition reused_sampler : list pev :=
  [PSel KFifo; PSel KFifo; PSel KFifo; free; free;
   PTable (mkTargs 10 0 0 1 0 []); PCall 0 (ins 1); PDrop 0; PTable (mkTargs 10 0 0 2 1 []); PCall 1 (ins 2)].
Definition reused_limiter : list pev :=
  [PSel KFifo; PSel KFifo; PSel KFifo; PSel KFifo; free;
   PTable (mkTargs 10 0 0 1 0 []); PCall 0 (ins 1); PDrop 0; PTable (mkTargs 10 0 2 3 0 []); PCall 1 (ins 2)].
Theorem C97_reused_refuted :
  (match prun new_world reused_sampler with
   | Some (rs, w) => rs = [(0%nat, RStatus Ok); (1%nat, RStatus Ok)] /\ prun w [PCall 1 smp] = None
   | None => False
   end) /\
  (match prun new_world reused_limiter with
   | Some (rs, w) => rs = [(0%nat, RStatus Ok); (1%nat, RStatus Cancelled)]
   | None => False
   end).
Proof. split; vm_compute; [split|]; reflexivity. Qed.

(** A limiter in use, an extension in use, an extension given twice: the process dies
    in the constructor. *)
Example C97_construct_example :
  prun new_world [PSel KFifo; PSel KFifo; PSel KFifo; PSel KFifo; free;
    PTable (mkTargs 10 0 0 1 0 []); PTable (mkTargs 10 0 2 3 0 [])] = None /\
  prun new_world [PSel KFifo; PSel KFifo; PSel KFifo; PSel KFifo; free; free; PExt;
    PTable (mkTargs 10 0 0 1 0 [0%nat]); PTable (mkTargs 10 0 2 3 1 [0%nat])] = None /\
  prun new_world [PSel KFifo; PSel KFifo; free; PExt; PTable (mkTargs 10 0 0 1 0 [0%nat; 0%nat])] = None /\
  is_Some (prun new_world [PSel KFifo; PSel KFifo; PSel KFifo; PSel KFifo; free; PExt;
    PTable (mkTargs 10 0 0 1 0 [0%nat]); PDrop 0; PTable (mkTargs 10 0 2 3 0 [0%nat])]).
Proof. repeat split; vm_compute; eauto. Qed.

(** Two tables with their own objects, whose calls are interleaved, and a third one that
    comes and goes: the first table behaves as if it were alone. *)
Definition two_before : list pev := [PSel KFifo; PSel KFifo; PSel KUniform; PSel KLifo; PSel KFifo; PSel KFifo; free; free; free; PExt; PExt;
  PTable (mkTargs 3 0 2 3 1 [1%nat]); PCall 0 (ins 7)].
Definition two_args : targs := mkTargs 2 1 0 1 0 [0%nat].
Definition two_after : list pev :=
  [PCall 0 (ins 8); PCall 1 (ins 1); PTable (mkTargs 3 0 4 5 2 []); PCall 2 (ins 1); PCall 1 (ins 2);
   PCall 0 (OMutate [] [7]); PCall 1 smp; PDrop 2; PCall 1 (ins 3)].
Example C97_example :
  match prun new_world (two_before ++ [PTable two_args]) with
  | Some (rs1, w1) =>
    match prun w1 two_after with
    | Some (rs2, w2) =>
      length (tables two_before) = 1%nat /\
      meant two_before two_args (mkCfg 2 1 KFifo KFifo 1 1 (-100) 100) /\ a_s two_args <> a_r two_args /\
      (forall b, b ∈ tables two_before ++ tables two_after -> apart two_args b) /\ PDrop 1 ∉ two_after /\
      calls 1 two_after = [ins 1; ins 2; smp; ins 3] /\
      (exists ob t e, alive w2 1 ob /\ view w2 ob = Some t /\ map fst (map_to_list (t_data t)) ≡ₚ [2; 3] /\
         o_x ob = [0%nat] /\ w_ext w2 !! 0%nat = Some e /\ length (seen_from 1 e) = 5%nat)
    | None => False
    end
  | None => False
  end.
Proof.
  assert (Ha : forall b, b ∈ tables two_before ++ tables two_after -> apart two_args b).
  { intros b Hb. cbn in Hb. rewrite !elem_of_cons, elem_of_nil in Hb. destruct Hb as [->|[->|[]]]; cbv; repeat split; discriminate. }
  assert (Hd : PDrop 1 ∉ two_after).
  { intros H. unfold two_after in H. rewrite !elem_of_cons, elem_of_nil in H. naive_solver. }
  assert (Hm : meant two_before two_args (mkCfg 2 1 KFifo KFifo 1 1 (-100) 100)).
  { do 6 eexists. repeat (split; [reflexivity|]). reflexivity. }
  vm_compute. split; [reflexivity|]. split; [exact Hm|]. split; [discriminate|]. split; [exact Ha|]. split; [exact Hd|].
  split; [reflexivity|]. do 3 eexists. split; [reflexivity|]. split; [reflexivity|].
  split; [change ([2; 3] ≡ₚ [2; 3]); reflexivity|].
  split; [reflexivity|]. split; reflexivity.
Qed.

(** This program is one whose tables have their own objects. *)
Example C97_own_example : own_objects (two_before ++ PTable two_args :: two_after).
Proof.
  split.
  - intros i j a b Hi Hj Hne.
    repeat (destruct i as [|i]; cbn in Hi; [injection Hi as <-|]); try done;
    repeat (destruct j as [|j]; cbn in Hj; [injection Hj as <-|]); try done;
    (split; [cbv; repeat split; discriminate|]; cbn; intros x; rewrite ?elem_of_cons, ?elem_of_nil; lia).
  - intros a Ha. cbn in Ha. rewrite !elem_of_cons, elem_of_nil in Ha. destruct Ha as [->|[->|[->|[]]]]; cbn; (split; [discriminate|]);
      apply (bool_decide_eq_true_1 _); vm_compute; reflexivity.
  - intros es1 a es2 E. unfold two_before, two_after in E. cbn in E.
    repeat (destruct es1 as [|? es1]; [try (discriminate E)|injection E as <- E]); try (by destruct es1);
    (injection E as <- <-; split; [cbn; intros x; rewrite ?elem_of_cons, ?elem_of_nil; cbn; lia|];
     eexists; split; [do 6 eexists; repeat (split; [reflexivity|]); reflexivity|]; split; [by repeat split; vm_compute|]; cbn; ops_ok).
Qed.

Print Assumptions C97_construct.
Print Assumptions C97_alive.
Print Assumptions C97_drop.
Print Assumptions C97_independent_partial.
Print Assumptions C97_extension.
Print Assumptions C97_same_selector.
Print Assumptions C97_shared_selector_refuted.
Print Assumptions C97_shared_remover_refuted.
Print Assumptions C97_reused_refuted.
