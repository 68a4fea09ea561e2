(** Reference semantics of item selectors and the proof that every selector
    implements it, for arbitrary histories of calls. *)
From Verif Require Import Base SelList SelUniform SelHeap SelHeapProofs SelPrio SelPrioProofs SelPrioExact Selector.

(** ** Specification *)

(** Calls on an ItemSelector (selectors/interface.h).  [SSkip] does nothing. *)
Inductive sop := SIns (k : Z) (p : dbl) | SUpd (k : Z) (p : dbl) | SDel (k : Z) | SClr | SSkip.

(** What is remembered about a key: its current priority, when it was inserted
    and when its priority was last set (call numbers, starting at 1). *)
Record entry := mkEntry { en_prio : dbl; en_ins : nat; en_touch : nat }.

(** The effect of the [n]-th call; rejected calls do nothing. *)
Definition ref_op (kind : sel_kind) (n : nat) (m : gmap Z entry) (o : sop) : gmap Z entry :=
  match o with
  | SIns k p =>
    match m !! k with
    | None => if accepts kind p then <[k := mkEntry p n n]> m else m
    | Some _ => m
    end
  | SUpd k p =>
    match m !! k with
    | None => m
    | Some e => if accepts kind p then <[k := mkEntry p (en_ins e) n]> m else m
    end
  | SDel k => delete k m
  | SClr => ∅
  | SSkip => m
  end.

Definition ref_step (kind : sel_kind) (s : nat * gmap Z entry) (o : sop) : nat * gmap Z entry :=
  (S s.1, ref_op kind (S s.1) s.2 o).
Definition ref_run (kind : sel_kind) (os : list sop) : nat * gmap Z entry :=
  fold_left (ref_step kind) os (0%nat, ∅).
(** What should be in the selector after the calls [os]. *)
Definition ref_hist (kind : sel_kind) (os : list sop) : gmap Z entry := (ref_run kind os).2.

(** Priorities without NaN. *)
Definition sop_finite (o : sop) : Prop :=
  match o with SIns _ p | SUpd _ p => p <> NaN | _ => True end.

Section WithFP.
Context {fp : FP}.

(** The modelled selector after the same calls. *)
Definition sel_op (s : selector) (o : sop) : status * selector :=
  match o with
  | SIns k p => sel_insert s k p
  | SUpd k p => sel_update s k p
  | SDel k => sel_delete s k
  | SClr => (Ok, sel_clear s)
  | SSkip => (Ok, s)
  end.
Definition sel_hist (kind : sel_kind) (os : list sop) : selector :=
  fold_left (fun s o => (sel_op s o).2) os (sel_new kind).

(** Does a call succeed? *)
Definition ref_status (kind : sel_kind) (m : gmap Z entry) (o : sop) : status :=
  match o with
  | SIns k p => if accepts kind p then
                  match m !! k with None => Ok | Some _ => InvalidArgument end
                else InvalidArgument
  | SUpd k p => if accepts kind p then
                  match m !! k with Some _ => Ok | None => InvalidArgument end
                else InvalidArgument
  | SDel k => match m !! k with Some _ => Ok | None => InvalidArgument end
  | SClr | SSkip => Ok
  end.

Context {laws : FPLaws fp}.

(** ** Invariant *)

Definition ins_of (m : gmap Z entry) (k : Z) : nat := default 0%nat (en_ins <$> m !! k).

(** Time stamps are in the past and distinct. *)
Record stamps (n : nat) (m : gmap Z entry) : Prop := {
  sp_ins : forall k e, m !! k = Some e -> (en_ins e <= n)%nat;
  sp_touch : forall k e, m !! k = Some e -> (en_touch e <= n)%nat;
  sp_ins_inj : forall k1 k2 e1 e2, m !! k1 = Some e1 -> m !! k2 = Some e2 ->
     en_ins e1 = en_ins e2 -> k1 = k2;
  sp_touch_inj : forall k1 k2 e1 e2, m !! k1 = Some e1 -> m !! k2 = Some e2 ->
     en_touch e1 = en_touch e2 -> k1 = k2 }.

Lemma ref_op_stamps kind n m o : stamps n m -> stamps (S n) (ref_op kind (S n) m o).
Proof.
  intros [A B C D].
  assert (Hw : stamps (S n) m).
  { split; try done; intros k e Hk; [apply A in Hk|apply B in Hk]; lia. }
  destruct o as [k p|k p|k| |]; cbn [ref_op]; try done.
  - destruct (m !! k) eqn:Hk; [done|]. destruct (accepts kind p); [|done].
    split.
    + intros x e. rewrite lookup_insert_Some. intros [[_ <-]|[_ Hx]]; [done|]. apply A in Hx. lia.
    + intros x e. rewrite lookup_insert_Some. intros [[_ <-]|[_ Hx]]; [done|]. apply B in Hx. lia.
    + intros k1 k2 e1 e2. rewrite !lookup_insert_Some.
      intros [[<- <-]|[_ H1]] [[<- <-]|[_ H2]]; cbn; try done; intros E.
      * apply A in H2. lia. * apply A in H1. lia. * by eapply C.
    + intros k1 k2 e1 e2. rewrite !lookup_insert_Some.
      intros [[<- <-]|[_ H1]] [[<- <-]|[_ H2]]; cbn; try done; intros E.
      * apply B in H2. lia. * apply B in H1. lia. * by eapply D.
  - destruct (m !! k) as [e0|] eqn:Hk; [|done]. destruct (accepts kind p); [|done].
    split.
    + intros x e. rewrite lookup_insert_Some. intros [[_ <-]|[_ Hx]]; cbn; [apply A in Hk|apply A in Hx]; lia.
    + intros x e. rewrite lookup_insert_Some. intros [[_ <-]|[_ Hx]]; [done|]. apply B in Hx. lia.
    + intros k1 k2 e1 e2. rewrite !lookup_insert_Some.
      intros [[<- <-]|[_ H1]] [[<- <-]|[_ H2]]; cbn; try done; intros E; by eapply C.
    + intros k1 k2 e1 e2. rewrite !lookup_insert_Some.
      intros [[<- <-]|[_ H1]] [[<- <-]|[_ H2]]; cbn; try done; intros E.
      * apply B in H2. lia. * apply B in H1. lia. * by eapply D.
  - destruct Hw as [A' B' _ _]. split; intros *; rewrite ?lookup_delete_Some; naive_solver.
Qed.

(** Kind specific part. *)
Definition rel_kind (s : selector) (m : gmap Z entry) : Prop :=
  match s with
  | SFifo l => StronglySorted (fun a b => (ins_of m a < ins_of m b)%nat) l
  | SLifo l => StronglySorted (fun a b => (ins_of m b < ins_of m a)%nat) l
  | SHeap h =>
    (forall k e, m !! k = Some e -> exists u, rank (hp_nodes h) k = Some (dsign (hp_neg h) (en_prio e), u)) /\
    (forall k1 k2 e1 e2 p1 p2 u1 u2, m !! k1 = Some e1 -> m !! k2 = Some e2 ->
       rank (hp_nodes h) k1 = Some (p1, u1) -> rank (hp_nodes h) k2 = Some (p2, u2) ->
       (en_touch e1 < en_touch e2)%nat -> u1 < u2)
  | SUniform _ => True
  | SPrio q => forall k e, m !! k = Some e ->
      exists x, en_prio e = Fin x /\ (0 <= x)%Q /\ weight q k = Some (power x (p_exp q))
  end.

Record sel_rel (kind : sel_kind) (s : selector) (n : nat) (m : gmap Z entry) : Prop := {
  sr_wf : sel_wf s;
  sr_kind : sel_kind_of s = kind;
  sr_dom : sel_dom s = dom m;
  sr_stamps : stamps n m;
  sr_rel : rel_kind s m }.

Lemma ss_impl (R R' : Z -> Z -> Prop) l : StronglySorted R l ->
  (forall a b, a ∈ l -> b ∈ l -> R a b -> R' a b) -> StronglySorted R' l.
Proof.
  induction 1 as [|a l H IH F]; intros HR; constructor.
  - apply IH. intros x y Hx Hy. apply HR; by right.
  - apply Forall_forall. intros b Hb. rewrite Forall_forall in F. apply HR; [left|by right|by apply F].
Qed.
Lemma ss_filter (R : Z -> Z -> Prop) k l : StronglySorted R l -> StronglySorted R (remove_key k l).
Proof.
  unfold remove_key. induction 1 as [|a l H IH F]; [constructor|].
  rewrite filter_cons. case_decide; [|done]. constructor; [done|].
  apply Forall_forall. intros b Hb. apply elem_of_list_filter in Hb as [_ Hb].
  rewrite Forall_forall in F. by apply F.
Qed.
Lemma ss_snoc (R : Z -> Z -> Prop) k l : StronglySorted R l -> (forall x, x ∈ l -> R x k) ->
  StronglySorted R (l ++ [k]).
Proof.
  induction 1 as [|a l H IH F]; intros HR; [by repeat constructor|]. simpl. constructor.
  - apply IH. intros x Hx. apply HR. by right.
  - apply Forall_app. split; [done|]. constructor; [|done]. apply HR. left.
Qed.

Lemma ins_of_insert m k e x : ins_of (<[k := e]> m) x = if decide (x = k) then en_ins e else ins_of m x.
Proof.
  unfold ins_of. case_decide; [subst; by rewrite lookup_insert|by rewrite lookup_insert_ne].
Qed.
Lemma ins_of_delete m k x : x <> k -> ins_of (delete k m) x = ins_of m x.
Proof. intros. unfold ins_of. by rewrite lookup_delete_ne. Qed.
Lemma ins_of_le n m k : stamps n m -> (ins_of m k <= n)%nat.
Proof.
  intros H. unfold ins_of. destruct (m !! k) as [e|] eqn:E; simpl; [|lia]. by eapply sp_ins.
Qed.

Lemma insert_rel kind s n m k p : sel_rel kind s n m ->
  sel_rel kind (sel_insert s k p).2 (S n) (ref_op kind (S n) m (SIns k p)) /\
  (sel_insert s k p).1 = ref_status kind m (SIns k p).
Proof.
  intros [W K D St R]. pose proof (ref_op_stamps kind n m (SIns k p) St) as St'.
  destruct (sel_insert_spec s k p W) as (W' & K' & F1 & F2 & F3). rewrite K, D in *.
  rewrite elem_of_dom in F2. rewrite not_elem_of_dom in F3. cbn [ref_op ref_status] in *.
  destruct (accepts kind p) eqn:Ha.
  2:{ specialize (F1 eq_refl). rewrite F1 in *. cbn [fst snd]. split; [|done].
      destruct (m !! k); split; done. }
  destruct (m !! k) as [e0|] eqn:Hk.
  - destruct (F2 eq_refl ltac:(eauto)) as [S2 D2]. split; [|done]. split; try done.
    clear F1 F2 F3. destruct s as [l|l|h|u|q]; cbn [sel_insert] in *.
    + unfold fifo_insert in *. assert (k ∈ l) by (apply (elem_of_list_to_set (C := gset Z)); cbn in D; rewrite D; apply elem_of_dom; eauto).
      by rewrite decide_True in *.
    + unfold lifo_insert in *. assert (k ∈ l) by (apply (elem_of_list_to_set (C := gset Z)); cbn in D; rewrite D; apply elem_of_dom; eauto).
      by rewrite decide_True in *.
    + destruct (heap_insert_spec h k p W) as (_ & _ & Hd & _). rewrite Hd; [done|].
      apply heap_elem; [done|]. cbn in D. rewrite D. apply elem_of_dom. eauto.
    + unfold uniform_insert in *. destruct (u_index u !! k); done.
    + destruct (prio_insert_spec q k p W) as (_ & Ne & Hp).
      assert (Hi : is_Some (p_index q !! k)) by (apply elem_of_dom; cbn in D; rewrite D; apply elem_of_dom; eauto).
      destruct (prio_insert q k p) as [st q'] eqn:E. cbn in *.
      destruct (check_valid_priority p) as [x|] eqn:Ec.
      * destruct Hp as [Hp _]. destruct (Hp Hi) as (_ & E1 & E2). intros k' e' Hk'.
        destruct (R k' e' Hk') as (y & H1 & H2 & H3). exists y. split; [done|]. split; [done|].
        unfold weight in *. by rewrite E1, E2, Ne.
      * injection Hp as -> ->. done.
  - destruct (F3 eq_refl eq_refl) as [S3 D3]. split; [|done].
    split; try done. { rewrite D3, dom_insert_L. done. }
    clear F1 F2 F3 S3. destruct s as [l|l|h|u|q]; cbn [sel_insert] in *.
    + assert (Hkl : k ∉ l).
      { intros H. apply (elem_of_list_to_set (C := gset Z)) in H. cbn in D. rewrite D in H. apply elem_of_dom in H. rewrite Hk in H. by destruct H. }
      unfold fifo_insert in *. rewrite decide_False by done. cbn. apply ss_snoc.
      * eapply ss_impl; [exact R|]. intros a b Hx Hy. cbn. rewrite !ins_of_insert.
        rewrite !decide_False; [done| |]; intros ->; done.
      * intros x Hx. rewrite !ins_of_insert, (decide_True (P := k = k)) by done.
        rewrite decide_False by (intros ->; done). cbn. pose proof (ins_of_le n m x St). lia.
    + assert (Hkl : k ∉ l).
      { intros H. apply (elem_of_list_to_set (C := gset Z)) in H. cbn in D. rewrite D in H. apply elem_of_dom in H. rewrite Hk in H. by destruct H. }
      unfold lifo_insert in *. rewrite decide_False by done. cbn. constructor.
      * eapply ss_impl; [exact R|]. intros a b Hx Hy. cbn. rewrite !ins_of_insert.
        rewrite !decide_False; [done| |]; intros ->; done.
      * apply Forall_forall. intros x Hx. rewrite !ins_of_insert, (decide_True (P := k = k)) by done.
        rewrite decide_False by (intros ->; done). cbn. pose proof (ins_of_le n m x St). lia.
    + destruct (heap_insert_spec h k p W) as (_ & Hneg & _ & Ha' & _).
      destruct Ha' as (_ & Hr & _).
      { intros H. apply heap_elem in H; [|done]. cbn in D. rewrite D in H. apply elem_of_dom in H. rewrite Hk in H. by destruct H. }
      destruct (heap_insert h k p) as [st h'] eqn:E. cbn [fst snd rel_kind] in *. destruct R as [R1 R2].
      pose proof (hw_fresh _ W) as Hfr. split.
      * intros x e. rewrite Hr, Hneg, lookup_insert_Some. intros [[<- <-]|[Hne Hx]].
        -- rewrite decide_True by done. cbn. eauto.
        -- rewrite decide_False by done. by apply R1.
      * intros k1 k2 e1 e2 p1 p2 u1 u2. rewrite !Hr, !lookup_insert_Some.
        intros [[<- <-]|[N1 H1]] [[<- <-]|[N2 H2]]; repeat case_decide; try done; intros Q1 Q2 Hlt; cbn in *.
        -- lia.
        -- apply (sp_touch _ _ St) in H2. lia.
        -- injection Q2 as <- <-. unfold rank in Q1. destruct (hp_nodes h !! k1) as [nd|] eqn:En; [|done].
           simpl in Q1. injection Q1 as <- <-. by eapply Hfr.
        -- exact (R2 _ _ _ _ _ _ _ _ H1 H2 Q1 Q2 Hlt).
    + unfold uniform_insert. destruct (u_index u !! k); done.
    + destruct (prio_insert_spec q k p W) as (_ & Ne & Hp).
      assert (Hi : p_index q !! k = None) by (apply not_elem_of_dom; cbn in D; rewrite D; by apply not_elem_of_dom).
      destruct (prio_insert q k p) as [st q'] eqn:E. cbn [fst snd rel_kind sel_kind_of] in *.
      destruct (check_valid_priority p) as [x|] eqn:Ec.
      * destruct Hp as [_ Hp]. destruct (Hp Hi) as (_ & _ & Hw). intros k' e'.
        rewrite lookup_insert_Some, Hw, Ne. intros [[<- <-]|[Hne Hx]].
        -- rewrite decide_True by done. apply check_valid_nonneg in Ec as [-> Hx]. exists x. done.
        -- rewrite decide_False by done. by apply R.
      * assert (Hs : is_Some (check_valid_priority p)); [|rewrite Ec in Hs; by destruct Hs].
        apply (accepts_check (p_exp q)). congruence.
Qed.

Lemma update_rel kind s n m k p : sel_rel kind s n m ->
  sel_rel kind (sel_update s k p).2 (S n) (ref_op kind (S n) m (SUpd k p)) /\
  (sel_update s k p).1 = ref_status kind m (SUpd k p).
Proof.
  intros [W K D St R]. pose proof (ref_op_stamps kind n m (SUpd k p) St) as St'.
  destruct (sel_update_spec s k p W) as (W' & K' & D' & F1 & F2 & F3). rewrite K, D in *.
  rewrite elem_of_dom in F3. rewrite not_elem_of_dom in F2. cbn [ref_op ref_status] in *.
  destruct (accepts kind p) eqn:Ha.
  2:{ specialize (F1 eq_refl). rewrite F1 in *. cbn [fst snd]. split; [|done].
      destruct (m !! k); split; done. }
  destruct (m !! k) as [e0|] eqn:Hk.
  2:{ specialize (F2 eq_refl eq_refl). rewrite F2 in *. cbn [fst snd]. split; [|done]. split; done. }
  specialize (F3 eq_refl ltac:(eauto)). split; [|done]. split; try done.
  { rewrite D', dom_insert_L. assert (k ∈ dom m) by (apply elem_of_dom; eauto). set_solver. }
  assert (Hins : forall x, ins_of (<[k:=mkEntry p (en_ins e0) (S n)]> m) x = ins_of m x).
  { intros x. rewrite ins_of_insert. case_decide; [|done]. subst. unfold ins_of. by rewrite Hk. }
  clear F1 F2 F3. destruct s as [l|l|h|u|q]; cbn [sel_update] in *.
  - unfold ls_update. case_decide; cbn; (eapply ss_impl; [exact R|]); intros a b _ _; cbn; by rewrite !Hins.
  - unfold ls_update. case_decide; cbn; (eapply ss_impl; [exact R|]); intros a b _ _; cbn; by rewrite !Hins.
  - destruct (heap_update_spec h k p W) as (_ & Hneg & _ & Ha' & _).
    destruct Ha' as (_ & Hr & _).
    { apply heap_elem; [done|]. cbn in D. rewrite D. apply elem_of_dom. eauto. }
    destruct (heap_update h k p) as [st h'] eqn:E. cbn [fst snd rel_kind] in *. destruct R as [R1 R2].
    pose proof (hw_fresh _ W) as Hfr. split.
    + intros x e. rewrite Hr, Hneg, lookup_insert_Some. intros [[<- <-]|[Hne Hx]].
      * rewrite decide_True by done. cbn. eauto.
      * rewrite decide_False by done. by apply R1.
    + intros k1 k2 e1 e2 p1 p2 u1 u2. rewrite !Hr, !lookup_insert_Some.
      intros [[<- <-]|[N1 H1]] [[<- <-]|[N2 H2]]; repeat case_decide; try done; intros Q1 Q2 Hlt; cbn in *.
      * lia.
      * apply (sp_touch _ _ St) in H2. lia.
      * injection Q2 as <- <-. unfold rank in Q1. destruct (hp_nodes h !! k1) as [nd|] eqn:En; [|done].
        simpl in Q1. injection Q1 as <- <-. by eapply Hfr.
      * exact (R2 _ _ _ _ _ _ _ _ H1 H2 Q1 Q2 Hlt).
  - unfold uniform_update. destruct (u_index u !! k); done.
  - destruct (prio_update_spec q k p W) as (_ & Ne & _ & Hp).
    assert (Hi : is_Some (p_index q !! k)) by (apply elem_of_dom; cbn in D; rewrite D; apply elem_of_dom; eauto).
    destruct (prio_update q k p) as [st q'] eqn:E. cbn [fst snd rel_kind sel_kind_of] in *.
    destruct (check_valid_priority p) as [x|] eqn:Ec.
    + destruct Hp as [_ Hp]. destruct (Hp Hi) as (_ & Hw). intros k' e'.
      rewrite lookup_insert_Some, Hw, Ne. intros [[<- <-]|[Hne Hx]].
      * rewrite decide_True by done. apply check_valid_nonneg in Ec as [-> Hx]. exists x. done.
      * rewrite decide_False by done. by apply R.
    + assert (Hs : is_Some (check_valid_priority p)); [|rewrite Ec in Hs; by destruct Hs].
      apply (accepts_check (p_exp q)). congruence.
Qed.

Lemma delete_rel kind s n m k : sel_rel kind s n m ->
  sel_rel kind (sel_delete s k).2 (S n) (ref_op kind (S n) m (SDel k)) /\
  (sel_delete s k).1 = ref_status kind m (SDel k).
Proof.
  intros [W K D St R]. pose proof (ref_op_stamps kind n m (SDel k) St) as St'.
  destruct (sel_delete_spec s k W) as (W' & K' & D' & F1 & F2). rewrite K, D in *.
  rewrite elem_of_dom in F2. rewrite not_elem_of_dom in F1. cbn [ref_op ref_status] in *.
  split; [|destruct (m !! k) eqn:Hk; [eauto|by rewrite F1]].
  split; try done. { by rewrite D', dom_delete_L. }
  destruct (m !! k) as [e0|] eqn:Hk.
  2:{ rewrite F1 by done. cbn. by rewrite delete_notin. }
  clear F1 F2. destruct s as [l|l|h|u|q]; cbn [sel_delete] in *.
  - unfold ls_delete. assert (k ∈ l) by (apply (elem_of_list_to_set (C := gset Z)); cbn in D; rewrite D; apply elem_of_dom; eauto).
    rewrite decide_True by done. cbn. apply (ss_filter _ k) in R. eapply ss_impl; [exact R|].
    intros a b Hx Hy. apply remove_key_elem in Hx as [_ Hx], Hy as [_ Hy]. cbn. by rewrite !ins_of_delete.
  - unfold ls_delete. assert (k ∈ l) by (apply (elem_of_list_to_set (C := gset Z)); cbn in D; rewrite D; apply elem_of_dom; eauto).
    rewrite decide_True by done. cbn. apply (ss_filter _ k) in R. eapply ss_impl; [exact R|].
    intros a b Hx Hy. apply remove_key_elem in Hx as [_ Hx], Hy as [_ Hy]. cbn. by rewrite !ins_of_delete.
  - destruct (heap_delete_spec h k W) as (_ & Hneg & _ & Ha' & _).
    destruct Ha' as (_ & Hr & _).
    { apply heap_elem; [done|]. cbn in D. rewrite D. apply elem_of_dom. eauto. }
    destruct (heap_delete h k) as [st h'] eqn:E. cbn [fst snd rel_kind] in *. destruct R as [R1 R2].
    split.
    + intros x e. rewrite lookup_delete_Some. intros [Hne Hx]. rewrite Hr, Hneg, decide_False by done.
      by apply R1.
    + intros k1 k2 e1 e2 p1 p2 u1 u2. rewrite !Hr, !lookup_delete_Some.
      intros [N1 H1] [N2 H2]. rewrite !decide_False by done. by apply R2.
  - unfold uniform_delete. destruct (u_index u !! k); [|done]. by case_decide.
  - destruct (prio_delete_spec q k W) as (_ & Ne & _ & Hp).
    assert (Hi : is_Some (p_index q !! k)) by (apply elem_of_dom; cbn in D; rewrite D; apply elem_of_dom; eauto).
    destruct (prio_delete q k) as [st q'] eqn:E. cbn [fst snd rel_kind sel_kind_of] in *.
    destruct (Hp Hi) as (_ & _ & Hw). intros k' e'. rewrite lookup_delete_Some, Hw, Ne. intros [Hne Hx].
    rewrite decide_False by done. by apply R.
Qed.

Lemma clear_rel kind s n m : sel_rel kind s n m -> sel_rel kind (sel_clear s) (S n) ∅.
Proof.
  intros [W K D St R]. pose proof (ref_op_stamps kind n m SClr St) as St'.
  destruct (sel_clear_spec s W) as (W' & D' & K').
  split; try done.
  - congruence.
  - by rewrite D', dom_empty_L.
  - destruct s; cbn; try done; try constructor; intros *; by rewrite lookup_empty.
Qed.

Lemma sel_op_rel kind s n m o : sel_rel kind s n m ->
  sel_rel kind (sel_op s o).2 (S n) (ref_op kind (S n) m o) /\ (sel_op s o).1 = ref_status kind m o.
Proof.
  intros H. destruct o as [k p|k p|k| |]; cbn [sel_op].
  - by apply insert_rel.
  - by apply update_rel.
  - by apply delete_rel.
  - split; [|done]. by eapply clear_rel.
  - split; [|done]. pose proof (ref_op_stamps kind n m SSkip (sr_stamps _ _ _ _ H)). destruct H. by split.
Qed.

Lemma new_rel kind : kind_ok kind -> sel_rel kind (sel_new kind) 0 ∅.
Proof.
  intros H. destruct (sel_new_spec kind H) as (W & D & K). split; try done.
  - by rewrite D, dom_empty_L.
  - destruct kind; cbn; try done; try constructor; intros *; by rewrite lookup_empty.
Qed.

Lemma sel_hist_snoc kind os o : sel_hist kind (os ++ [o]) = (sel_op (sel_hist kind os) o).2.
Proof. unfold sel_hist. by rewrite fold_left_app. Qed.
Lemma ref_run_snoc kind os o : ref_run kind (os ++ [o]) = ref_step kind (ref_run kind os) o.
Proof. unfold ref_run. by rewrite fold_left_app. Qed.
Lemma ref_run_length kind os : (ref_run kind os).1 = length os.
Proof.
  induction os as [|o os IH] using rev_ind; [done|]. rewrite ref_run_snoc, app_length. cbn. rewrite IH. lia.
Qed.

Lemma hist_rel kind os : kind_ok kind ->
  sel_rel kind (sel_hist kind os) (length os) (ref_hist kind os).
Proof.
  intros H. unfold ref_hist. rewrite <- (ref_run_length kind os).
  induction os as [|o os IH] using rev_ind; [by apply new_rel|].
  rewrite sel_hist_snoc, ref_run_snoc. cbn. by apply sel_op_rel.
Qed.

(** Heap order. *)
Lemma hist_heap_ordered mh os : Forall sop_finite os ->
  exists h, sel_hist (KHeap mh) os = SHeap h /\ heap_finite h /\ heap_ordered h.
Proof.
  induction os as [|o os IH] using rev_ind; intros HF.
  - exists (heap_empty mh). split; [done|]. split; [intros k n; cbn; by rewrite lookup_empty|].
    intros i x g. cbn. rewrite lookup_nil. done.
  - apply Forall_app in HF as [HF Ho]. apply Forall_cons in Ho as [Ho _].
    destruct (IH HF) as (h & E & Hf & Hor). pose proof (hist_rel (KHeap mh) os ltac:(done)) as Hr.
    rewrite E in Hr. pose proof (sr_wf _ _ _ _ Hr) as W. rewrite sel_hist_snoc, E.
    destruct o as [k p|k p|k| |]; cbn [sel_op sel_insert sel_update sel_delete sel_clear] in *.
    + destruct (heap_insert_spec h k p W) as (_ & _ & _ & _ & H).
      destruct (heap_insert h k p) as [st h']. exists h'. split; [done|]. by apply H.
    + destruct (heap_update_spec h k p W) as (_ & _ & _ & _ & H).
      destruct (heap_update h k p) as [st h']. exists h'. split; [done|]. by apply H.
    + destruct (heap_delete_spec h k W) as (_ & _ & _ & _ & H).
      destruct (heap_delete h k) as [st h']. exists h'. split; [done|]. by apply H.
    + exists (heap_clear h). split; [done|]. split; [intros k n; cbn; by rewrite lookup_empty|].
      intros i x g. cbn. rewrite lookup_nil. done.
    + exists h. done.
Qed.

(** Exact sums. *)
Lemma hist_prio_exact {exact : FPExact fp} e os : (0 <= e)%Q ->
  exists q, sel_hist (KPrio e) os = SPrio q /\ prio_exact q.
Proof.
  intros He. induction os as [|o os IH] using rev_ind.
  - exists (prio_empty e). split; [done|]. apply prio_empty_exact.
  - destruct IH as (q & E & Hx). pose proof (hist_rel (KPrio e) os He) as Hr.
    rewrite E in Hr. pose proof (sr_wf _ _ _ _ Hr) as W. rewrite sel_hist_snoc, E.
    destruct o as [k p|k p|k| |]; cbn [sel_op sel_insert sel_update sel_delete sel_clear] in *.
    + pose proof (prio_insert_exact q k p W Hx) as H.
      destruct (prio_insert q k p) as [st q']. exists q'. split; [done|]. by apply H.
    + pose proof (prio_update_exact q k p W Hx) as H.
      destruct (prio_update q k p) as [st q']. exists q'. split; [done|]. by apply H.
    + pose proof (prio_delete_exact q k W Hx) as H.
      destruct (prio_delete q k) as [st q']. exists q'. split; [done|]. by apply H.
    + exists (prio_clear q). split; [done|]. by apply prio_clear_exact.
    + exists q. done.
Qed.

End WithFP.
