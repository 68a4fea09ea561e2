(** The confirmations of the Writer. *)
From Verif Require Import Base Trajectory Tensor TrajUtil ChunkerOptions Sample Stream Reactor Chunker PropInsertStream PropTraj TrajWriter TrajWriterProofs Writer WriterProofs.
Local Open Scope Z_scope.

(** What matters of the position. *)
Inductive pkind := KPlain | KWrite | KDone | KFin | KClose.
Definition pk (x : lpos) : pkind :=
  match x with
  | LRun _ (PWrite _ _) => KWrite | LRun _ PDone => KDone | LRun _ PFinish => KFin | LRun _ PCloseFinish => KClose | _ => KPlain
  end.

(** The counter of items in flight against what was written and confirmed. *)
Record bcore (n : Z) (k : pkind) (stream half running : bool) (flight : Z) (wire : list ireq) (now acks : nat) (written : list Z) (confirmed : gset Z) : Prop := {
  b_now : (now <= length written)%nat;
  b_old : forall x, x ∈ take (length written - now) written -> x ∈ confirmed;
  b_acks : forall x, x ∈ take acks (confirmable wire) -> x ∈ confirmed;
  b_le : (acks <= length (confirmable wire))%nat;
  b_wire : stream = true -> exists extra, confirmable wire = drop (length written - now) written ++ extra /\ (half = false -> k <> KDone -> extra = []);
  b_flight : stream = true -> k <> KFin -> k <> KClose -> flight = Z.of_nat now - Z.of_nat acks;
  b_fin : k = KFin -> (now <= acks)%nat /\ flight = 0 /\ running = false;
  b_shut : stream = false -> flight = 0 /\ running = false /\ now = 0%nat;
  b_most : flight <= n;
  b_less : k = KWrite -> flight <= n - 1 }.
Definition binv (n : Z) (w : lw) : Prop :=
  l_closed w = false -> bcore n (pk (l_pos w)) (l_stream w) (l_half w) (l_running w) (l_flight w) (l_wire w) (l_now w) (l_acks w) (l_written w) (l_confirmed w).

(** Every item is somewhere. *)
Definition made_keys (w : lw) : list Z := (fun m => li_key (lm_item m)) <$> l_made w.
Definition minv (w : lw) : Prop := forall k, k ∈ made_keys w -> k ∈ l_written w \/ k ∈ li_key <$> l_pending w \/ k ∈ l_rejected w.

Lemma confirmable_app a b : confirmable (a ++ b) = confirmable a ++ confirmable b.
Proof. apply omap_app. Qed.

Lemma bcore_pos n k k' s h r f wire now acks wr co : bcore n k s h r f wire now acks wr co -> k = KPlain \/ k = KWrite -> k' = KPlain -> bcore n k' s h r f wire now acks wr co.
Proof. intros [] Hk ->. split; try done; [intros Hs; destruct (b_wire0 Hs) as (e & E1 & E2); exists e; split; [done|]; intros Hh _; apply E2; [done|destruct Hk; congruence]|]. intros Hs _ _. apply b_flight0; [done|destruct Hk; congruence..]. Qed.

Lemma bcore_done n k s h r f wire now acks wr co : bcore n k s h r f wire now acks wr co -> k = KPlain \/ k = KWrite -> bcore n KDone s h r f wire now acks wr co.
Proof. intros [] Hk. split; try done; [intros Hs; destruct (b_wire0 Hs) as (e & E1 & E2); by exists e|]. intros Hs _ _. apply b_flight0; [done|destruct Hk; congruence..]. Qed.

Lemma all_confirmed n k s h r f wire now acks wr co : bcore n k s h r f wire now acks wr co -> (s = true -> (now <= acks)%nat) -> forall x, x ∈ wr -> x ∈ co.
Proof.
  intros [] Hn x Hx. destruct s.
  - destruct (b_wire0 eq_refl) as (e & E & _). rewrite <- (take_drop (length wr - now) wr), elem_of_app in Hx. destruct Hx as [Hx|Hx]; [by apply b_old0|].
    apply b_acks0. rewrite E. specialize (Hn eq_refl). rewrite take_app_ge by (rewrite drop_length; lia). apply elem_of_app. by left.
  - destruct (b_shut0 eq_refl) as (_ & _ & ->). apply b_old0. by rewrite Nat.sub_0_r, firstn_all.
Qed.
Lemma all_but_flight n k s h r f wire now acks wr co : bcore n k s h r f wire now acks wr co -> k = KPlain -> 
  forall i x, wr !! i = Some x -> Z.of_nat i + f < Z.of_nat (length wr) -> x ∈ co.
Proof.
  intros [] -> i x Hx Hi. pose proof (lookup_lt_Some _ _ _ Hx) as Hl. destruct s.
  - destruct (b_wire0 eq_refl) as (e & E & _). specialize (b_flight0 eq_refl ltac:(done) ltac:(done)). destruct (decide (i < length wr - now)%nat) as [Hd|Hd].
    + apply b_old0. apply elem_of_list_lookup. exists i. by rewrite lookup_take.
    + apply b_acks0. rewrite E. apply elem_of_list_lookup. exists (i - (length wr - now))%nat. rewrite lookup_take by lia.
      rewrite lookup_app_l by (rewrite drop_length; lia). rewrite lookup_drop. rewrite <- Hx. f_equal. lia.
  - destruct (b_shut0 eq_refl) as (-> & _ & ->). apply b_old0. rewrite Nat.sub_0_r, firstn_all. by eapply elem_of_list_lookup_2.
Qed.

Section conf.
Context (p : lconf) (n : Z) (Hn : p_flight p = Some n) (Hn1 : 1 <= n).

Lemma write_begin_conf w c w' ret : binv n w -> l_closed w = false -> pk (l_pos w) = KPlain \/ l_stream w = false -> write_begin p w c = LNext w' ret -> binv n w'.
Proof.
  intros B Hc Hk. unfold write_begin. rewrite Hn. specialize (B Hc). destruct (l_stream w) eqn:Es.
  - intros [= <- <-] _. cbn. rewrite Es. destruct Hk as [Hk|]; [|done]. rewrite Hk in B. exact B.
  - destruct (_ || _); [done|]. intros [= <- <-] _. cbn. destruct B. destruct (b_shut0 eq_refl) as (-> & _ & E). rewrite E in *. rewrite Nat.sub_0_r in *.
    split; try done; try lia; rewrite ?Nat.sub_0_r; try done.
    + intros x Hx. by apply elem_of_nil in Hx.
    + intros _. exists []. rewrite drop_all. done.
Qed.
Lemma close_begin_conf w r w' ret : binv n w -> l_closed w = false -> pk (l_pos w) = KPlain \/ l_stream w = false -> close_begin w r = LNext w' ret -> binv n w'.
Proof.
  intros B Hc Hk. unfold close_begin. specialize (B Hc). destruct (l_stream w) eqn:Es; [destruct (l_half w); [done|]|]; intros [= <- <-]; [|done]. intros _. cbn. rewrite Es.
  destruct Hk as [Hk|]; [|done]. rewrite Hk in B. destruct B. split; try done. intros _. destruct (b_wire0 eq_refl) as (e & E & _). by exists e.
Qed.
Lemma bcore_idle w : bcore n (pk (l_pos w)) (l_stream w) (l_half w) (l_running w) (l_flight w) (l_wire w) (l_now w) (l_acks w) (l_written w) (l_confirmed w) ->
  pk (l_pos w) = KPlain \/ l_stream w = false -> bcore n KPlain (l_stream w) (l_half w) (l_running w) (l_flight w) (l_wire w) (l_now w) (l_acks w) (l_written w) (l_confirmed w).
Proof. intros B [Hk|Hk]; [by rewrite Hk in B|]. rewrite Hk in *. destruct B. by split. Qed.
Lemma call_failed_conf w c st w' ret : binv n w -> l_closed w = false -> pk (l_pos w) = KPlain \/ l_stream w = false -> call_failed p w c st = LNext w' ret -> binv n w'.
Proof.
  intros B Hc Hk. unfold call_failed. pose proof (bcore_idle w (B Hc) Hk) as B1.
  destruct c; [intros [= <- <-] _; exact B1..|]. destruct (_ || _); [intros [= <- <-] _; exact B1|by apply close_begin_conf].
Qed.
Lemma write_end_conf w c st nk w' ret : binv n w -> l_closed w = false -> pk (l_pos w) = KPlain \/ l_stream w = false -> write_end p w c st nk = LNext w' ret -> binv n w'.
Proof.
  intros B Hc Hk. pose proof (bcore_idle w (B Hc) Hk) as B1. unfold write_end. destruct c.
  2: { case_bool_decide; [intros [= <- <-] _; exact B1|by apply call_failed_conf]. }
  all: case_bool_decide; [|by apply call_failed_conf].
  1-2: intros [= <- <-] _; exact B1. by apply close_begin_conf.
Qed.
Lemma finish_begin_conf w c w' ret : binv n w -> l_closed w = false -> pk (l_pos w) = KPlain -> finish_begin p w c = LNext w' ret -> binv n w'.
Proof.
  intros B Hc Hk. unfold finish_begin. destruct (build_chunk _ _) as [[d|]|]; [|apply call_failed_conf; try done; by left|done].
  apply write_begin_conf; try done. by left.
Qed.

Lemma stop_conf w : binv n w -> l_closed w = false -> pk (l_pos w) = KPlain -> l_stream w = true -> forall st w1, stop_worker p w = (st, w1) ->
  (exists b f, w1 = ls_stop w b f) /\
  bcore n (if bool_decide (st = Ok) then KFin else KPlain) (l_stream w1) (l_half w1) (l_running w1) (l_flight w1) (l_wire w1) (l_now w1) (l_acks w1) (l_written w1) (l_confirmed w1).
Proof.
  intros B Hc Hk Hs st w1 H. split; [by eapply stop_worker_fields|]. revert H. unfold stop_worker. rewrite Hn. specialize (B Hc). rewrite Hk in B. destruct (0 <? l_flight w) eqn:E; intros [= <- <-].
  - rewrite bool_decide_false by done. cbn. destruct B. split; try done. intros H. congruence.
  - apply Z.ltb_ge in E. assert (l_now w <= l_acks w)%nat by (destruct B; rewrite b_flight0 in E; [lia|done..]).
    rewrite bool_decide_true by done. cbn. destruct B. split; try done; try lia; [|intros H2; congruence].
    intros _. destruct (b_wire0 Hs) as (e & E1 & E2). exists e. split; [done|]. intros Hh _. by apply E2.
Qed.

Lemma call_step_conf w c ph big o nk w' ret : pinv p w -> binv n w -> l_pos w = LRun c ph -> call_step p w c ph big o nk = LNext w' ret -> binv n w'.
Proof.
  intros I B Hpos. pose proof I as [_ Hcl HP]. rewrite Hpos in HP, Hcl.
  assert (Hc : l_closed w = false) by (destruct (l_closed w); [by specialize (Hcl eq_refl)|done]). pose proof (B Hc) as B1. rewrite Hpos in B1.
  assert (KP : pk (l_pos w) = pk (LRun c ph)) by (by rewrite Hpos).
  destruct ph as [rest req keep|req keep|req keep| | | | | | |]; cbn [call_step pk] in *.
  - destruct rest as [|ch rest]; [by intros [= <- <-] _|]. unfold chunk_scan. destruct (_ && _); [|by intros [= <- <-] _].
    destruct big; [|by intros [= <- <-] _]. destruct (l_half w) eqn:Hh; [done|].
    assert (BS : forall k, k = KPlain \/ k = KDone -> bcore n k (l_stream w) (l_half w) (l_running w) (l_flight w) (l_wire w ++ [mkIreq (req ++ [lc_wire ch]) None]) (l_now w) (l_acks w) (l_written w) (l_confirmed w)).
    { intros k Hk. destruct B1. split; rewrite ?confirmable_app; cbn; rewrite ?app_nil_r; try done; try (intros ->; by destruct Hk).
      - intros Hs. destruct (b_wire0 Hs) as (e & E1 & E2). exists e. split; [done|]. intros _ _. by apply E2.
      - intros Hs _ _. by apply b_flight0. }
    assert (BD : bcore n KDone (l_stream w) (l_half w) (l_running w) (l_flight w) (l_wire w) (l_now w) (l_acks w) (l_written w) (l_confirmed w)) by (apply (bcore_done _ KPlain); [by rewrite Hh|by left]).
    rewrite <- Hh in *. destruct o; intros [= <- <-] _; cbn; auto.
  - destruct (l_pending w) as [|it rest]; [apply write_end_conf; try done; by left|]. rewrite Hn. unfold confirm_items. destruct (_ || _) eqn:E; [|done].
    destruct (l_flight w <=? n - 1) eqn:E2; intros [= <- <-] _; cbn.
    + apply Z.leb_le in E2. destruct B1. split; try done; [|intros Hs _ _; by apply b_flight0]. intros Hs. destruct (b_wire0 Hs) as (e & E3 & E4). exists e. split; [done|]. intros Hh _. by apply E4.
    + apply (bcore_done _ KPlain); [exact B1|by left].
  - unfold item_write. destruct (l_pending w) as [|it rest]; [done|]. destruct (l_half w) eqn:Hh; [done|]. destruct HP as (_ & _ & Hs & _).
    assert (BD : bcore n KDone (l_stream w) (l_half w) (l_running w) (l_flight w) (l_wire w) (l_now w) (l_acks w) (l_written w) (l_confirmed w)) by (apply (bcore_done _ KWrite); [by rewrite Hh|by right]).
    assert (EC : confirmable [litem_message p it req keep] = [li_key it]) by (unfold litem_message; rewrite Hn; done).
    destruct B1. destruct (b_wire0 Hs) as (e & E1 & E2). specialize (E2 eq_refl ltac:(done)). rewrite E2, app_nil_r in E1. clear E2 e b_wire0.
    specialize (b_less0 eq_refl). specialize (b_flight0 Hs ltac:(done) ltac:(done)).
    assert (EL : length (confirmable (l_wire w)) = l_now w) by (rewrite E1, drop_length; lia).
    assert (BS : forall o, delivered o = true -> bcore n KDone (l_stream w) (l_half w) (l_running w) (l_flight w) (l_wire w ++ [litem_message p it req keep]) (l_now w) (l_acks w) (l_written w) (l_confirmed w)).
    { intros o' _. split; rewrite ?confirmable_app, ?EC; try done; try (rewrite ?app_length; lia).
      - intros x Hx. apply b_acks0. by rewrite take_app_le in Hx by lia.
      - intros _. exists [li_key it]. by rewrite E1. }
    destruct (write_ok o) eqn:Ho; [|unfold lsend; destruct (delivered o) eqn:Hd; intros [= <- <-] _; cbn; [by eapply BS|exact BD]].
    destruct o; try done. intros [= <- <-] _. cbn. rewrite Hn. split; rewrite ?confirmable_app, ?EC, ?app_length; cbn; try done; try lia; try (intros; congruence).
    + intros x Hx. apply b_old0. replace (length (l_written w) + 1 - S (l_now w))%nat with (length (l_written w) - l_now w)%nat in Hx by lia. by rewrite take_app_le in Hx by lia.
    + intros x Hx. apply b_acks0. by rewrite take_app_le in Hx by lia.
    + intros _. exists []. rewrite E1, app_nil_r. replace (length (l_written w) + 1 - S (l_now w))%nat with (length (l_written w) - l_now w)%nat by lia. rewrite drop_app_le by lia. done.
  - destruct (l_half w); [done|]. intros [= <- <-] _. cbn. destruct B1. split; try done; [|intros Hs _ _; by apply b_flight0]. intros Hs. destruct (b_wire0 Hs) as (e & E1 & E2). by exists e.
  - destruct HP as (_ & Hs & _). destruct (stop_worker p w) as [st w1] eqn:Es. apply stop_conf in Es as [(b & f & ->) Es]; try done. case_bool_decide; [by intros [= <- <-] _|].
    apply write_end_conf; try done; [|by left]. intros _. cbn. by rewrite KP.
  - done.
  - destruct (confirm_items w 0); [|done]. by intros [= <- <-] _.
  - destruct (confirm_items w 0); [|done]. by intros [= <- <-] _.
  - destruct HP as (_ & Hs & _). destruct (stop_worker p w) as [st w1] eqn:Es. apply stop_conf in Es as [(b & f & ->) Es]; try done.
    intros [= <- <-] _. cbn in *. destruct Es. split; try done. intros _. destruct (b_wire0 Hs) as (e & E1 & E2). exists e. split; [done|]. intros Hh _. apply E2; [done|by case_bool_decide].
  - done.
Qed.

Lemma lw_step_conf w e w' ret : pinv p w -> binv n w -> lw_step p w e = LNext w' ret -> binv n w'.
Proof.
  intros I B. pose proof I as [_ Hcl HP]. destruct e as [data|table m prio key| |r|big o nk|st nk|m|]; cbn [lw_step]; unfold idle.
  - destruct (l_pos w) eqn:E; [|done]. unfold append. destruct (l_closed w) eqn:Hc; [by intros [= <- <-]|].
    destruct (match l_buffer w with [] => _ | _ => _ end); [by intros [= <- <-]|]. destruct (l_ring w !! l_loc w) as [old|]; [|done]. cbn zeta.
    destruct (_ <? _)%nat; [by intros [= <- <-]|]. apply finish_begin_conf; try done. cbn. by rewrite E.
  - destruct (l_pos w) eqn:E; [|done]. unfold lw_create. destruct (l_closed w) eqn:Hc; [by intros [= <- <-]|].
    destruct (_ || _); [by intros [= <- <-]|]. destruct (_ <? _); [by intros [= <- <-]|]. destruct (check_signature _ _ _ _) as [st|]; [|done].
    destruct (negb _); [by intros [= <- <-]|]. match goal with |- context [match ?x with Some _ => _ | None => _ end] => destruct x as [tr|]; [|done] end. cbn zeta.
    set (w1 := ls_create w _ _). destruct (l_buffer w1); [|by intros [= <- <-]]. apply write_begin_conf; try done. left. cbn. by rewrite E.
  - destruct (l_pos w) eqn:E; [|done]. unfold lw_flush. destruct (l_closed w) eqn:Hc; [by intros [= <- <-]|]. destruct (l_pending w).
    + intros [= <- <-] _. cbn. specialize (B Hc). by rewrite E in B.
    + apply finish_begin_conf; try done. by rewrite E.
  - destruct (l_pos w) eqn:E; [|done]. unfold lw_close. destruct (l_closed w) eqn:Hc; [by intros [= <- <-]|]. destruct (l_pending w).
    + apply close_begin_conf; try done. rewrite E. by left.
    + apply finish_begin_conf; try done. by rewrite E.
  - destruct (l_pos w) eqn:E; [done|]. by eapply call_step_conf.
  - unfold stream_finish. destruct (l_pos w) as [|c ph] eqn:E; [done|].
    assert (Hc : l_closed w = false) by (destruct (l_closed w); [by specialize (Hcl eq_refl)|done]). specialize (B Hc). rewrite E in B.
    destruct ph; try done; [|by intros [= <- <-]].
    assert (BS : binv n (ls_shut w false false [] 0 0)).
    { intros _. cbn. rewrite E. cbn. pose proof (all_confirmed _ _ _ _ _ _ _ _ _ _ _ B) as A. destruct B. destruct (b_fin0 eq_refl) as (F1 & F2 & F3). split; try done; cbn; try lia.
      - intros x Hx. rewrite Nat.sub_0_r, firstn_all in Hx. by apply A.
      - intros x Hx. by apply elem_of_nil in Hx. }
    destruct (_ && _); [apply write_begin_conf|apply write_end_conf]; try done; by right.
  - destruct (_ && _) eqn:E; [|done]. intros [= <- <-] Hc. cbn in *. specialize (B Hc). apply andb_prop in E as [E E4]. apply andb_prop in E as [E E3]. apply andb_prop in E as [E1 E2].
    apply Nat.leb_le in E4. apply Z.ltb_lt in E2. assert (E5 : (0 < m)%nat) by (destruct m; [discriminate E3|lia]). destruct B. split; try done; try lia.
    + intros x Hx. apply elem_of_union. left. by apply b_old0.
    + intros x Hx. rewrite <- take_take_drop, elem_of_app in Hx. apply elem_of_union. destruct Hx as [Hx|Hx]; [left; by apply b_acks0|right; by apply elem_of_list_to_set].
    + intros Hs Hk1 Hk2. rewrite b_flight0 by done. lia.
    + intros Hk. destruct (b_fin0 Hk) as (_ & F & _). rewrite F in E2. lia.
    + intros Hs. destruct (b_shut0 Hs) as (F & _). rewrite F in E2. lia.
  - destruct (_ && _) eqn:E; [|done]. intros [= <- <-] Hc. cbn in *. specialize (B Hc). apply andb_prop in E as [E1 E2]. destruct B. split; try done.
    + intros Hk. destruct (b_fin0 Hk) as (? & ? & _). done.
    + intros Hk. destruct (b_shut0 Hk) as (? & ? & ?). done.
Qed.
Theorem lw_reach_conf key w : conf_ok p -> lw_reach p (lw_new p key) w -> binv n w.
Proof.
  intros Hcf. induction 1 as [|w e w' ret H IH He E].
  - intros _. cbn. split; try done; try lia; intros x Hx; by apply elem_of_nil in Hx.
  - eapply lw_step_conf; [by eapply lw_reach_inv|exact IH|exact E].
Qed.
End conf.

(** ** Every item that was made is written, pending or rejected *)

Lemma minv_same w w' : minv w -> l_made w' = l_made w -> l_written w' = l_written w -> l_pending w' = l_pending w -> l_rejected w' = l_rejected w -> minv w'.
Proof. unfold minv, made_keys. by intros H -> -> -> ->. Qed.

Lemma write_begin_same p w c w' ret : write_begin p w c = LNext w' ret ->
  l_made w' = l_made w /\ l_written w' = l_written w /\ l_pending w' = l_pending w /\ l_rejected w' = l_rejected w.
Proof. unfold write_begin. destruct (l_stream w); [by intros [= <- <-]|]. destruct (p_flight p); [destruct (_ || _); [done|]|]; by intros [= <- <-]. Qed.
Lemma close_begin_same w r w' ret : close_begin w r = LNext w' ret ->
  l_made w' = l_made w /\ l_written w' = l_written w /\ l_pending w' = l_pending w /\ l_rejected w' = l_rejected w.
Proof. unfold close_begin. destruct (l_stream w); [destruct (l_half w); [done|]|]; by intros [= <- <-]. Qed.
Lemma call_failed_made p w c st w' ret : minv w -> match c with CCreate key => l_pending w = [] \/ exists it, l_pending w = [it] /\ li_key it = key | _ => True end ->
  call_failed p w c st = LNext w' ret -> minv w'.
Proof.
  intros M Hc. unfold call_failed. destruct c as [|key| |].
  - intros [= <- <-]. by eapply minv_same.
  - intros [= <- <-] k Hk. cbn. specialize (M k Hk) as [M|[M|M]]; [by left| |right; right; apply elem_of_app; by left].
    right. right. apply elem_of_app. right. destruct Hc as [->|(it & -> & <-)] in M; [by apply elem_of_nil in M|done].
  - intros [= <- <-]. by eapply minv_same.
  - destruct (_ || _); [intros [= <- <-]; by eapply minv_same|]. intros H. apply close_begin_same in H as (? & ? & ? & ?). by eapply minv_same.
Qed.
Lemma write_end_made p w c st nk w' ret : minv w -> match c with CCreate key => l_pending w = [] \/ exists it, l_pending w = [it] /\ li_key it = key | _ => True end ->
  write_end p w c st nk = LNext w' ret -> minv w'.
Proof.
  intros M Hc. unfold write_end. destruct c as [old|key| |r].
  2: { case_bool_decide; [intros [= <- <-]; by eapply minv_same|by apply call_failed_made]. }
  all: case_bool_decide; [|apply call_failed_made; [by eapply minv_same|done]].
  1-2: intros [= <- <-]; by eapply minv_same. intros H2. apply close_begin_same in H2 as (? & ? & ? & ?). by eapply minv_same.
Qed.
Lemma finish_begin_made p w c w' ret : minv w -> match c with CCreate _ => False | _ => True end -> finish_begin p w c = LNext w' ret -> minv w'.
Proof.
  intros M Hc. unfold finish_begin. destruct (build_chunk _ _) as [[d|]|]; [|apply call_failed_made; by destruct c|done].
  intros H. apply write_begin_same in H as (? & ? & ? & ?). by eapply minv_same.
Qed.
Lemma lw_step_made p w e w' ret : pinv p w -> minv w -> lw_step p w e = LNext w' ret -> minv w'.
Proof.
  intros I M. pose proof I as [_ Hcl HP]. destruct e as [data|table m prio key| |r|big o nk|st nk|m|]; cbn [lw_step]; unfold idle.
  - destruct (l_pos w) eqn:E; [|done]. unfold append. destruct (l_closed w) eqn:Hc; [by intros [= <- <-]|].
    destruct (match l_buffer w with [] => _ | _ => _ end); [by intros [= <- <-]|]. destruct (l_ring w !! l_loc w) as [old|]; [|done]. cbn zeta.
    destruct (_ <? _)%nat; [by intros [= <- <-]|]. by apply finish_begin_made.
  - destruct (l_pos w) eqn:E; [|done]. unfold lw_create. destruct (l_closed w) eqn:Hc; [by intros [= <- <-]|].
    destruct (_ || _); [by intros [= <- <-]|]. destruct (_ <? _); [by intros [= <- <-]|]. destruct (check_signature _ _ _ _) as [st|]; [|done].
    destruct (negb _); [by intros [= <- <-]|]. match goal with |- context [match ?x with Some _ => _ | None => _ end] => destruct x as [tr|]; [|done] end. cbn zeta.
    set (it := mkLitem _ _ _ _). set (w1 := ls_create w _ _). assert (M1 : minv w1).
    { intros k Hk. unfold made_keys in Hk. cbn in *. rewrite fmap_app, elem_of_app in Hk. rewrite fmap_app, elem_of_app. destruct Hk as [Hk|Hk]; [specialize (M k Hk); tauto|]. cbn in *. tauto. }
    destruct (l_buffer w1); [|by intros [= <- <-]]. intros H. apply write_begin_same in H as (? & ? & ? & ?). by eapply minv_same.
  - destruct (l_pos w) eqn:E; [|done]. unfold lw_flush. destruct (l_closed w) eqn:Hc; [by intros [= <- <-]|]. destruct (l_pending w) eqn:Ep.
    + intros [= <- <-]. by eapply minv_same.
    + by apply finish_begin_made.
  - destruct (l_pos w) eqn:E; [|done]. unfold lw_close. destruct (l_closed w) eqn:Hc; [by intros [= <- <-]|]. destruct (l_pending w) eqn:Ep.
    + intros H. apply close_begin_same in H as (? & ? & ? & ?). by eapply minv_same.
    + by apply finish_begin_made.
  - destruct (l_pos w) as [|c ph] eqn:E; [done|].
    destruct ph as [rest req keep|req keep|req keep| | | | | | |]; cbn [call_step pk] in *.
    + destruct rest as [|ch rest]; [intros [= <- <-]; by eapply minv_same|]. unfold chunk_scan. destruct (_ && _); [|intros [= <- <-]; by eapply minv_same].
      destruct big; [|intros [= <- <-]; by eapply minv_same]. destruct (l_half w); [done|]. unfold lsend. destruct o; intros [= <- <-]; by eapply minv_same.
    + assert (CC : match c with CCreate key => l_pending w = [] \/ exists it, l_pending w = [it] /\ li_key it = key | _ => True end) by (destruct HP as ((_ & _ & HP) & _); destruct c; tauto).
      destruct (l_pending w) as [|it rest] eqn:Ep; [apply write_end_made; by rewrite ?Ep|].
      destruct (p_flight p); [destruct (confirm_items w _) as [[]|]|]; intros [= <- <-]; by eapply minv_same.
    + unfold item_write. destruct (l_pending w) as [|it rest] eqn:Ep; [done|]. destruct (l_half w) eqn:Hh; [done|].
      destruct (write_ok o); [|unfold lsend; destruct (delivered o); intros [= <- <-]; by eapply minv_same].
      assert (F : l_written (lsend w (litem_message p it req keep) o) = l_written w /\ l_made (lsend w (litem_message p it req keep) o) = l_made w /\ l_rejected (lsend w (litem_message p it req keep) o) = l_rejected w) by (unfold lsend; by destruct (delivered o)).
      destruct F as (F1 & F2 & F3). intros [= <- <-] k Hk. unfold made_keys in Hk. cbn in *. rewrite F2 in Hk. rewrite F1, F3, elem_of_app, elem_of_list_singleton. specialize (M k Hk).
      rewrite Ep, fmap_cons, elem_of_cons in M. tauto.
    + destruct (l_half w); [done|]. intros [= <- <-]. by eapply minv_same.
    + destruct HP as (HP & _). destruct (stop_worker p w) as [st w1] eqn:Es. apply stop_worker_fields in Es as (b & f & ->). case_bool_decide; [intros [= <- <-]; by eapply minv_same|].
      apply write_end_made; [by eapply minv_same|]. destruct HP as (_ & _ & HP). cbn. destruct c; tauto.
    + done.
    + destruct (confirm_items w 0); [|done]. intros [= <- <-]; by eapply minv_same.
    + destruct (confirm_items w 0); [|done]. intros [= <- <-]; by eapply minv_same.
    + destruct (stop_worker p w) as [st w1] eqn:Es. apply stop_worker_fields in Es as (b & f & ->). intros [= <- <-]; by eapply minv_same.
    + done.
  - unfold stream_finish. destruct (l_pos w) as [|c ph] eqn:E; [done|]. destruct ph; try done; [|intros [= <- <-]; by eapply minv_same].
    destruct (_ && _).
    + intros H. apply write_begin_same in H as (? & ? & ? & ?). by eapply minv_same.
    + apply write_end_made; [by eapply minv_same|]. destruct HP as ((_ & _ & HP) & _). cbn. destruct c; tauto.
  - destruct (_ && _); [|done]. intros [= <- <-]; by eapply minv_same.
  - destruct (_ && _); [|done]. intros [= <- <-]; by eapply minv_same.
Qed.
Theorem lw_reach_made p key w : conf_ok p -> lw_reach p (lw_new p key) w -> minv w.
Proof.
  intros Hcf. induction 1 as [|w e w' ret H IH He E].
  - intros k Hk. by apply elem_of_nil in Hk.
  - eapply lw_step_made; [by eapply lw_reach_inv|exact IH|exact E].
Qed.
