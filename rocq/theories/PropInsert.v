(** C76: Client.insert. *)
From Verif Require Import Base Trajectory Tensor TrajUtil ChunkerOptions Sample Stream Reactor PropTraj PropSample PropStream PropInsertStream
  Chunker PropChunker PropDelta TrajWriter TrajWriterProofs PropTrajWriter Writer WriterProofs WriterConf WriterData WriterPlace WriterOwn WriterTrace PropWriter PropClose PyClient.
Local Open Scope Z_scope.

(** ** The calls *)

Lemma returned_call tr e ret : is_call e = true -> returned (tr ++ [(e, ret)]) = match ret with Some st => returned tr ++ [(e, st)] | None => returned tr end.
Proof. intros H. unfold returned. rewrite calls_snoc. unfold ret_step. cbn [fst snd]. rewrite H. by destruct ret. Qed.
Lemma returned_go tr e ret ec : is_call e = false -> current tr = Some ec -> returned (tr ++ [(e, ret)]) = match ret with Some st => returned tr ++ [(ec, st)] | None => returned tr end.
Proof. intros H Hc. unfold returned, current in *. rewrite calls_snoc. unfold ret_step. cbn [fst snd]. rewrite H, Hc. by destruct ret. Qed.
Lemma returned_quiet tr e : is_call e = false -> returned (tr ++ [(e, None)]) = returned tr.
Proof. intros _. unfold returned. by rewrite calls_snoc. Qed.
Lemma returned_from tr : (forall x, x ∈ returned tr -> exists ret, (x.1, ret) ∈ tr) /\ (forall e, current tr = Some e -> exists ret, (e, ret) ∈ tr).
Proof.
  induction tr as [|[e ret] tr [IH1 IH2]] using rev_ind; [split; [intros x Hx; by apply elem_of_nil in Hx|done]|]. unfold returned, current in *. rewrite calls_snoc. unfold ret_step. cbn [fst snd].
  assert (HX : forall e', (if is_call e then Some e else (calls tr).2) = Some e' -> exists r, (e', r) ∈ tr ++ [(e, ret)]).
  { intros e'. destruct (is_call e); [intros [= <-]; exists ret; apply elem_of_app; right; left|]. intros [r Hr]%IH2. exists r. apply elem_of_app. by left. }
  assert (HY : forall x, x ∈ (calls tr).1 -> exists r, (x.1, r) ∈ tr ++ [(e, ret)]) by (intros x [r Hr]%IH1; exists r; apply elem_of_app; by left).
  destruct ret as [st|]; [destruct (if is_call e then _ else _) as [e'|] eqn:Ee|]; cbn; (split; [|try done]); [|exact HY|exact HY].
  intros x [Hx|Hx]%elem_of_app; [by apply HY|]. apply elem_of_list_singleton in Hx as ->. by apply HX.
Qed.
Lemma insert_run_snoc data prios tr x : insert_run data prios (tr ++ [x]) -> insert_run data prios tr.
Proof. intros H tr1 e ret tr2 -> Hc. eapply (H tr1 e ret (tr2 ++ [x])); [by rewrite <- app_assoc|done]. Qed.
Lemma insert_run_last data prios tr e ret : insert_run data prios (tr ++ [(e, ret)]) -> is_call e = true -> exists c, insert_next prios (returned tr) = Some c /\ performs data c e.
Proof. intros H Hc. by apply (H tr e ret []). Qed.

(** ** The invariant *)

Section insert.
Context (data : step) (prios : list (Z * dbl)) (sigs : option (gmap Z (option (list tspec)))) (flight : option Z) (key : Z).
Context (Hfl : match flight with Some n => 1 <= n | None => True end).
Notation p := (insert_conf sigs flight).
Lemma insert_conf_ok : conf_ok p.
Proof. split; [cbn; lia|]. split; [cbn; lia|exact Hfl]. Qed.

(** The only chunk, and the trajectory of every item. *)
Definition only_chunk (kc : kchunk) : Prop := kc_key kc = key /\ build_chunk false [data] = Some (Some (kc_data kc)).
Definition good (c : lchunk) : Prop := only_chunk (lc_wire c) /\ lc_rows c = [data] /\ lc_start c = 0 /\ lc_end c = 0.
Definition whole : list (list slice) := (fun i => [mkSlice key 0 1 (Z.of_nat i)]) <$> seq 0 (length data).
Definition gmade (m : lmade) : Prop := lm_n m = 1 /\ lm_held m = 1%nat /\ lm_hist m = [data] /\ li_traj (lm_item m) = whole.
Definition target (m : lmade) : Z * dbl := (li_table (lm_item m), li_prio (lm_item m)).

Definition wph (ph : lphase) : Prop :=
  match ph with
  | PScan rest req _ => Forall good rest /\ Forall only_chunk req
  | PItem req _ | PWrite req _ => Forall only_chunk req
  | PDone | PStop | PFinish => True
  | _ => False
  end.
Definition clph (ph : lphase) : Prop := match ph with PCloseWait | PCloseStop | PCloseFinish => True | _ => False end.
Definition fine (rs : list (lev * status)) : Prop := existsb failed_call rs = false.
Definition closes (rs : list (lev * status)) : Prop := exists r st, last rs = Some (LClose r, st).

Record iinv (rs : list (lev * status)) (w : lw) : Prop := {
  j_good : Forall good (l_chunks w);
  j_sent : Forall only_chunk (l_sent w);
  j_made : Forall gmade (l_made w);
  j_pos : match l_pos w with
          | LIdle => l_buffer w = [] /\ l_pending w = []
          | LRun (CAppend _) ph => rs = [] /\ l_buffer w = [data] /\ l_hist w = [data] /\ l_pending w = [] /\ l_made w = [] /\ wph ph /\ exists c, l_chunks w = [c]
          | LRun (CCreate _) ph => l_buffer w = [] /\ wph ph /\ fine rs /\ rs <> [] /\ ~ closes rs
          | LRun (CClose _) ph => l_buffer w = [] /\ l_pending w = [] /\ clph ph /\ rs <> [] /\ ~ closes rs
          | LRun CFlush _ => False
          end;
  j_first : rs = [] -> l_pos w = LIdle -> l_chunks w = [] /\ l_next w = key /\ l_index w = 0 /\ l_made w = [] /\ l_hist w = [] /\ l_closed w = false;
  j_chunk : rs <> [] -> fine rs -> ~ closes rs -> l_hist w = [data] /\ exists c, l_chunks w = [c];
  j_failed : l_failed w = true -> l_made w = [] /\ ~ fine rs;
  j_prefix : target <$> l_made w `prefix_of` prios;
  j_keys : fine rs -> made_keys w = created rs ++ match l_pos w with LRun (CCreate k) _ => [k] | _ => [] end;
  j_num : fine rs -> ~ closes rs -> length (l_made w) = (length (tail rs) + match l_pos w with LRun (CCreate _) _ => 1 | _ => 0 end)%nat;
  j_all : fine rs -> closes rs \/ (exists r ph, l_pos w = LRun (CClose r) ph) -> target <$> l_made w = prios }.

Lemma iinv_new : iinv [] (lw_new p key).
Proof.
  split; cbn; try done; try (by constructor).
  - apply prefix_nil.
  - intros _ [(r & st & H)|(r & ph & H)]; done.
Qed.
Lemma fine_app a b : fine (a ++ b) <-> fine a /\ fine b.
Proof. unfold fine. rewrite existsb_app, orb_false_iff. done. Qed.
Lemma fine_one e st : fine [(e, st)] <-> st = Ok.
Proof. unfold fine. cbn. unfold failed_call. cbn. rewrite orb_false_r, negb_false_iff, bool_decide_eq_true. done. Qed.
Lemma closes_snoc rs e st : closes (rs ++ [(e, st)]) <-> exists r, e = LClose r.
Proof. unfold closes. rewrite last_snoc. split; [intros (r & st' & [= -> _]); by eexists|intros [r ->]; by eexists _, _]. Qed.

Lemma next_append rs : insert_next prios rs = Some DAppend -> rs = [].
Proof.
  unfold insert_next. intros H. assert (forall b : bool, (if b then Some DClose else match rs with [] => Some DAppend | _ :: creates => match prios !! length creates with Some (t, pr) => Some (DCreate t pr) | None => Some DClose end end) = Some DAppend -> rs = []) as HB.
  { intros []; [done|]. destruct rs as [|? creates]; [done|]. by destruct (prios !! _) as [[]|]. }
  destruct (last rs) as [[[] ?]|]; try done; by apply HB in H.
Qed.
Lemma next_create rs t pr : insert_next prios rs = Some (DCreate t pr) -> ~ closes rs /\ fine rs /\ exists x creates, rs = x :: creates /\ prios !! length creates = Some (t, pr).
Proof.
  unfold insert_next. intros H. assert (~ closes rs) as Hn by (intros (r & st & E); by rewrite E in H). split; [done|]. unfold closes in Hn.
  assert ((if existsb failed_call rs then Some DClose else match rs with [] => Some DAppend | _ :: creates => match prios !! length creates with Some (t, pr) => Some (DCreate t pr) | None => Some DClose end end) = Some (DCreate t pr)) as H2.
  { by destruct (last rs) as [[[] ?]|]. }
  unfold fine. destruct (existsb failed_call rs); [done|]. split; [done|]. destruct rs as [|x creates]; [done|]. exists x, creates. split; [done|]. destruct (prios !! _) as [[]|]; congruence.
Qed.
Lemma next_close rs : insert_next prios rs = Some DClose -> ~ closes rs /\ (fine rs -> exists x creates, rs = x :: creates /\ prios !! length creates = None) /\ rs <> [].
Proof.
  unfold insert_next. intros H. assert (~ closes rs) as Hn by (intros (r & st & E); by rewrite E in H). split; [done|]. unfold closes in Hn.
  assert ((if existsb failed_call rs then Some DClose else match rs with [] => Some DAppend | _ :: creates => match prios !! length creates with Some (t, pr) => Some (DCreate t pr) | None => Some DClose end end) = Some DClose) as H2.
  { by destruct (last rs) as [[[] ?]|]. }
  unfold fine. split.
  - intros E. rewrite E in H2. destruct rs as [|x creates]; [done|]. exists x, creates. split; [done|]. by destruct (prios !! _) as [[]|].
  - intros ->. done.
Qed.

(** An action that leaves most things as they are. *)
Lemma iinv_keep rs w w' c ph ph' : iinv rs w -> l_pos w = LRun c ph -> l_pos w' = LRun c ph' -> (wph ph -> wph ph') -> (clph ph -> clph ph') ->
  l_chunks w' = l_chunks w -> l_buffer w' = l_buffer w -> l_hist w' = l_hist w -> l_made w' = l_made w -> l_failed w' = l_failed w ->
  (l_pending w = [] -> l_pending w' = []) -> Forall only_chunk (l_sent w') -> iinv rs w'.
Proof.
  intros [] Hp Hp' Hw Hc E1 E2 E3 E4 E5 E6 E7. rewrite Hp in *. split; unfold made_keys in *; rewrite ?E1, ?E2, ?E3, ?E4, ?E5, ?Hp'; try done.
  - destruct c; try done; naive_solver.
  - intros Hf [?|(r & ph1 & [= -> ->])]; apply j_all0; try done; [by left|right; by eexists _, _].
Qed.
(** Only the worker acts. *)
Lemma iinv_worker rs w w' : iinv rs w -> l_pos w' = l_pos w -> l_chunks w' = l_chunks w -> l_buffer w' = l_buffer w -> l_hist w' = l_hist w -> l_made w' = l_made w -> l_failed w' = l_failed w ->
  l_pending w' = l_pending w -> l_sent w' = l_sent w -> l_next w' = l_next w -> l_index w' = l_index w -> l_closed w' = l_closed w -> iinv rs w'.
Proof. intros [] E0 E1 E2 E3 E4 E5 E6 E7 E8 E9 E10. split; unfold made_keys in *; rewrite ?E0, ?E1, ?E2, ?E3, ?E4, ?E5, ?E6, ?E7, ?E8, ?E9, ?E10; done. Qed.

Lemma write_begin_same w c w' ret : write_begin p w c = LNext w' ret -> ret = None /\ dsame w w' /\ l_pending w' = l_pending w /\ l_closed w' = l_closed w /\ l_pos w' = LRun c (PScan (l_chunks w) [] []).
Proof. unfold write_begin. destruct (l_stream w); [by intros [= <- <-]|]. destruct (p_flight p); [destruct (_ || _); [done|]|]; by intros [= <- <-]. Qed.

(** The end of a call. *)
Lemma iinv_end rs w c w' st ec : iinv rs w -> (exists ph, l_pos w = LRun c ph /\ wph ph) -> matches c ec (l_hist w) -> l_pos w' = LIdle ->
  (st = Ok -> l_pending w' = [] /\ l_chunks w' = l_chunks w /\ l_hist w' = l_hist w /\ l_failed w' = l_failed w) ->
  (st <> Ok -> match c with CAppend _ => True | _ => l_failed w' = l_failed w end) ->
  Forall good (l_chunks w') -> l_sent w' = l_sent w -> l_made w' = l_made w -> l_buffer w' = [] -> l_pending w' = [] -> iinv (rs ++ [(ec, st)]) w'.
Proof.
  intros [] (ph & Hp & Hph) Hm Hi HO HE E1 E2 E3 E4 E5. rewrite Hp in *. unfold made_keys in *.
  assert (Hcl : ~ closes (rs ++ [(ec, st)])).
  { rewrite closes_snoc. intros [r ->]. destruct c; cbn in Hm; [destruct Hm as (? & ? & ? & _); done|destruct Hm as (? & ? & ? & ?); done|done|]. destruct j_pos0 as (_ & _ & Hcp & _); by destruct ph. }
  destruct c as [old|k| |r]; [| |done|destruct j_pos0 as (_ & _ & Hcp & _); by destruct ph].
  - destruct j_pos0 as (-> & B1 & B2 & B3 & B4 & _ & c & B5). destruct Hm as (d & h & -> & Hh). rewrite B2 in Hh. assert (d = data) as -> by (clear -Hh; destruct h as [|? []]; cbn in Hh; congruence). cbn [app] in *.
    split; unfold made_keys; rewrite ?E2, ?E3, ?Hi, ?B4; try done; try (by constructor).
    + intros _ Hf%fine_one _. destruct (HO Hf) as (_ & -> & -> & _). split; [done|by exists c].
    + intros Hf. split; [done|]. intros Hx%fine_one. destruct (HO Hx) as (_ & _ & _ & H4). rewrite H4 in Hf. by destruct (j_failed0 Hf) as [_ []].
    + apply prefix_nil.
    + intros Hf [?|(? & ? & ?)]; [done|congruence].
  - destruct j_pos0 as (B1 & B2 & B3 & B4 & B5). destruct Hm as (t & n & pr & ->).
    assert (HF : l_failed w' = l_failed w) by (destruct (decide (st = Ok)) as [Hs|Hs]; [by apply HO|by apply HE]).
    split; unfold made_keys; rewrite ?E2, ?E3, ?Hi; try done.
    + intros H. by destruct rs.
    + intros _ [_ Hx%fine_one]%fine_app _. destruct (HO Hx) as (_ & -> & -> & _). by apply j_chunk0.
    + rewrite HF. intros Hf. by destruct (j_failed0 Hf) as [_ []].
    + intros [Hf1 Hx%fine_one]%fine_app. rewrite (j_keys0 Hf1), Hx, last_created, app_nil_r. done.
    + intros [Hf1 _]%fine_app _. rewrite (j_num0 Hf1 B5). destruct rs; [done|]. cbn. rewrite app_length. cbn. lia.
    + intros Hf [?|(? & ? & ?)]; [done|congruence].
Qed.

Lemma good_columns c : good c -> length (cd_tensors (lc_data c)) = length data.
Proof.
  intros ((_ & H) & _). unfold build_chunk in H. unfold lc_wire in H. cbn in H. revert H. 
  destruct (batch_columns [data] 0 (length data)) as [[ts|]|] eqn:E; cbn; [|done|done]. intros [= <-]. cbn. apply batch_columns_spec in E. by destruct E as [E _].
Qed.

Lemma whole_columns n : forall i, timestep_columns n (Z.of_nat i) [(key, 1)] 0 1 = Some ((fun i => [mkSlice key 0 1 (Z.of_nat i)]) <$> seq i n).
Proof.
  induction n as [|n IH]; intros i; [done|]. cbn [timestep_columns seq fmap list_fmap]. replace (Z.of_nat i + 1) with (Z.of_nat (S i)) by lia. rewrite IH. done.
Qed.
Lemma create_traj w c0 : l_buffer w = [] -> l_chunks w = [c0] -> good c0 ->
  (cols ← num_columns w; let '(cs, remaining) := item_chunks w 1 in flat_timestep_trajectory cs cols (- remaining) 1) = Some whole /\ steps_held w = 1%nat.
Proof.
  intros Hb Hc Hg. pose proof (good_columns _ Hg) as Hl. destruct Hg as ((Hk & _) & Hr & Hs & He). unfold num_columns, item_chunks, steps_held. rewrite Hb, Hc. cbn.
  rewrite Hr. split; [|done]. cbn in Hk. rewrite Hs, He, Hl, Hk. apply (whole_columns _ 0).
Qed.

(** A call that is refused. *)
Lemma iinv_reject rs w e st : iinv rs w -> l_pos w = LIdle -> st <> Ok -> rs <> [] -> iinv (rs ++ [(e, st)]) w.
Proof.
  intros [] Hp Hs Hr. assert (~ fine (rs ++ [(e, st)])) by (rewrite fine_app, fine_one; tauto). split; try done.
  - by rewrite Hp in *.
  - intros H0. by destruct rs.
  - intros Hf. split; [by apply j_failed0|done].
Qed.
(** A call of Close comes to its end. *)
Lemma iinv_closed rs w w' r : iinv rs w -> rs <> [] -> (fine rs -> target <$> l_made w = prios) -> (forall k ph, l_pos w <> LRun (CCreate k) ph) -> l_pos w' = LIdle -> l_chunks w' = [] -> l_pending w' = [] -> l_buffer w' = [] -> l_made w' = l_made w -> l_sent w' = l_sent w -> l_failed w' = l_failed w ->
  iinv (rs ++ [(LClose r, Ok)]) w'.
Proof.
  intros [] Hr Ha Hn E0 E1 E2 E3 E4 E5 E6. unfold made_keys in *. assert (Hc : closes (rs ++ [(LClose r, Ok)])) by (rewrite closes_snoc; by eexists).
  split; unfold made_keys; rewrite ?E0, ?E1, ?E2, ?E3, ?E4, ?E5, ?E6; try done; try (by constructor).
  - intros H0. by destruct rs.
  - intros Hf. split; [by apply j_failed0|]. intros [Hx _]%fine_app. by destruct (j_failed0 Hf).
  - intros [Hf _]%fine_app. rewrite (j_keys0 Hf), created_app. cbn. rewrite !app_nil_r. destruct (l_pos w) as [|[] ?]; try done; rewrite ?app_nil_r; try done. by destruct (Hn _ _ eq_refl).
  - intros [Hf _]%fine_app _. by apply Ha.
Qed.
(** WriteWithRetries comes to its end. *)
Lemma iinv_write_end rs w c ph st nk ec w' ret : iinv rs w -> l_pos w = LRun c ph -> wph ph -> writing w c -> matches c ec (l_hist w) -> (st = Ok -> l_pending w = []) ->
  write_end p w c st nk = LNext w' ret -> ret = Some st /\ iinv (rs ++ [(ec, st)]) w'.
Proof.
  intros I Hp Hph HW Hm HO. pose proof (j_pos _ _ I) as JP. rewrite Hp in JP. destruct c as [old|k| |r]; [| |done|destruct JP as (_ & _ & Hcp & _); by destruct ph].
  - destruct JP as (Hrs & B1 & B2 & B3 & B4 & _ & c & B5). unfold write_end. case_bool_decide as Hs.
    + rewrite B5. cbn [trim_front length p_len p_max insert_conf]. rewrite decide_False by (cbn; lia). cbn zeta. intros [= <- <-]. split; [by rewrite Hs|].
      eapply iinv_end; [exact I|by eexists|exact Hm|done|..]; try done; cbn; try (by intros _; rewrite ?B5).
      rewrite <- B5. apply (j_good _ _ I).
    + unfold call_failed. intros [= <- <-]. split; [done|].
      eapply iinv_end; [exact I|by eexists|exact Hm|done|..]; try done; cbn; rewrite ?B1, ?B5; try done. by constructor.
  - destruct JP as (B1 & B2 & B3 & B4 & B5). unfold write_end. case_bool_decide as Hs.
    + intros [= <- <-]. split; [by rewrite Hs|]. specialize (HO Hs). eapply iinv_end; [exact I|by eexists|exact Hm|done|..]; try done. apply (j_good _ _ I).
    + unfold call_failed. intros [= <- <-]. split; [done|].
      eapply iinv_end; [exact I|by eexists|exact Hm|done|..]; try done; cbn; [apply (j_good _ _ I)|]. destruct HW as (_ & _ & _ & _ & [->|(it & -> & _)]); done.
Qed.

Lemma iinv_keep_same rs w w' c ph ph' : iinv rs w -> l_pos w = LRun c ph -> l_pos w' = LRun c ph' -> (wph ph -> wph ph') -> (clph ph -> clph ph') -> dsame w w' -> l_pending w' = l_pending w -> iinv rs w'.
Proof.
  intros I Hp Hp' Hw Hc (D1 & D2 & D3 & D4 & D5 & D6 & D7 & D8 & D9 & D10 & D11) E. eapply iinv_keep; try done; [by rewrite E|]. rewrite D11. apply (j_sent _ _ I).
Qed.
Lemma lsend_sent w m o : Forall only_chunk (l_sent w) -> Forall only_chunk (ir_chunks m) -> Forall only_chunk (l_sent (lsend w m o)).
Proof. intros H1 H2. unfold lsend. destruct (delivered o); [|done]. cbn. by apply Forall_app. Qed.
Lemma lsend_other w m o : l_chunks (lsend w m o) = l_chunks w /\ l_buffer (lsend w m o) = l_buffer w /\ l_hist (lsend w m o) = l_hist w /\ l_made (lsend w m o) = l_made w /\ l_failed (lsend w m o) = l_failed w /\ l_pending (lsend w m o) = l_pending w.
Proof. unfold lsend. by destruct (delivered o). Qed.

(** A step of the running call. *)
Lemma iinv_call_step rs w c ph big o nk ec w' ret : iinv rs w -> pinv p w -> l_pos w = LRun c ph -> matches c ec (l_hist w) -> call_step p w c ph big o nk = LNext w' ret ->
  match ret with None => iinv rs w' | Some st => iinv (rs ++ [(ec, st)]) w' end.
Proof.
  intros I P Hp Hm E. pose proof (j_pos _ _ I) as JP. pose proof (a_pos _ _ P) as HP. rewrite Hp in JP, HP.
  assert (HK : forall w1 ph1, l_pos w1 = LRun c ph1 -> (wph ph -> wph ph1) -> (clph ph -> clph ph1) -> dsame w w1 -> l_pending w1 = l_pending w -> iinv rs w1) by (intros; by eapply iinv_keep_same).
  assert (HW : wph ph \/ clph ph) by (destruct c; [left; by destruct JP as (_ & _ & _ & _ & _ & ? & _)|left; by destruct JP as (_ & ? & _)|done|right; by destruct JP as (_ & _ & ? & _)]).
  destruct ph as [rest req keep|req keep|req keep| | | | | | |]; cbn [call_step] in E.
  - destruct rest as [|ch rest]; [injection E as <- <-; eapply HK; [done|intros [_ ?]; done|done|done|done]|]. destruct HW as [[HW1 HW2]|[]]. apply Forall_cons in HW1 as [HW1 HW3].
    unfold chunk_scan in E. destruct (_ && _).
    + assert (HR : Forall only_chunk (req ++ [lc_wire ch])) by (apply Forall_app; split; [done|]; constructor; [apply HW1|constructor]).
      destruct big; [|injection E as <- <-; by eapply HK].
      destruct (l_half w); [done|]. destruct (lsend_other w (mkIreq (req ++ [lc_wire ch]) None) o) as (S1 & S2 & S3 & S4 & S5 & S6).
      assert (HS := lsend_sent w (mkIreq (req ++ [lc_wire ch]) None) o (j_sent _ _ I) HR).
      destruct (write_ok o); injection E as <- <-; (eapply iinv_keep; [exact I|exact Hp|reflexivity|..]; cbn; try done; try (by rewrite S6)).
    + injection E as <- <-. by eapply HK.
  - destruct HW as [HW|[]]. destruct HP as (W & _). destruct (l_pending w) as [|it rest] eqn:Ep.
    + eapply iinv_write_end in E as [-> E]; done.
    + cbn [p_flight insert_conf] in E. destruct flight; [destruct (confirm_items w _) as [[]|]; [| |done]|]; injection E as <- <-; by eapply HK.
  - destruct HW as [HW|[]]. unfold item_write in E. destruct (l_pending w) as [|it rest] eqn:Ep; [done|]. destruct (l_half w); [done|].
    destruct (lsend_other w (litem_message p it req keep) o) as (S1 & S2 & S3 & S4 & S5 & S6).
    assert (HS := lsend_sent w (litem_message p it req keep) o (j_sent _ _ I) HW).
    destruct (write_ok o); injection E as <- <-; (eapply iinv_keep; [exact I|exact Hp|reflexivity|..]; cbn; try done; by rewrite Ep).
  - destruct (l_half w); [done|]. injection E as <- <-. by eapply HK.
  - destruct HW as [HW|[]]. destruct HP as (W & _). destruct (stop_worker p w) as [st w1] eqn:Es. apply stop_worker_fields in Es as (b & f & ->). case_bool_decide as Hs.
    + injection E as <- <-. by eapply HK.
    + eapply iinv_write_end in E as [-> E]; [exact E|..]; try done. eapply HK; try done.
  - done.
  - destruct HW as [[]|[]].
  - destruct (confirm_items w 0); [|done]. injection E as <- <-. by eapply HK.
  - destruct (stop_worker p w) as [st w1] eqn:Es. apply stop_worker_fields in Es as (b & f & ->). injection E as <- <-. by eapply HK.
  - done.
Qed.

Lemma iinv_finish rs w c ph st nk ec w' ret : iinv rs w -> pinv p w -> l_pos w = LRun c ph -> (forall c, l_pos w = LRun c PFinish -> st <> Ok) -> matches c ec (l_hist w) -> stream_finish p w st nk = LNext w' ret ->
  match ret with None => iinv rs w' | Some st => iinv (rs ++ [(ec, st)]) w' end.
Proof.
  intros I P Hp Hst Hm E. pose proof (j_pos _ _ I) as JP. pose proof (a_pos _ _ P) as HP. rewrite Hp in JP, HP. unfold stream_finish in E. rewrite Hp in E. destruct ph; try done.
  - specialize (Hst c Hp). set (w1 := ls_shut w false false [] 0 0) in E. assert (I1 : iinv rs w1) by (eapply iinv_keep_same; [exact I|exact Hp|exact Hp|done..]). destruct HP as (W & _ & _). destruct (_ && _).
    + apply write_begin_same in E as (-> & D & D2 & D3 & D4). eapply iinv_keep_same; [exact I1|exact Hp|exact D4|..]; try done. intros _. split; [apply (j_good _ _ I)|constructor].
    + eapply iinv_write_end in E as [-> E]; [exact E|exact I1|exact Hp|..]; done.
  - destruct HP as ((r & ->) & _). injection E as <- <-. destruct JP as (B1 & B2 & _ & B4 & B5). rewrite Hm. eapply iinv_closed; [exact I|done|..]; try done; [|by rewrite Hp].
    intros Hf. apply (j_all _ _ I); [done|]. right. by eexists _, _.
Qed.

Lemma iinv_append w w' ret : iinv [] w -> append p w data = LNext w' ret -> l_pos w = LIdle ->
  match ret with None => iinv [] w' | Some st => iinv [(LAppend data, st)] w' end.
Proof.
  intros I E Hp. pose proof (j_pos _ _ I) as JP. rewrite Hp in JP. destruct JP as [B1 B2]. destruct (j_first _ _ I eq_refl Hp) as (F1 & F2 & F3 & F4 & F5 & F6).
  assert (HF : l_failed w = false) by (destruct (l_failed w) eqn:Ef; [|done]; by destruct (j_failed _ _ I Ef) as [_ []]).
  unfold append in E. rewrite F6, B1 in E. destruct (l_ring w !! l_loc w) as [old|]; [|done]. cbn zeta in E. set (w1 := ls_append w _ _ _ _) in E. assert (H1 : l_buffer w1 = [data]) by done. rewrite H1 in E. cbn [length p_len insert_conf] in E.
  rewrite (proj2 (Nat.ltb_ge 1 1)) in E by lia. unfold finish_begin in E. rewrite H1 in E. cbn [p_delta insert_conf] in E. destruct (build_chunk false [data]) as [[d|]|] eqn:Eb; [| |done].
  - cbn zeta in E. set (w2 := ls_chunk _ _ _) in E. apply write_begin_same in E as (-> & (D1 & D2 & D3 & D4 & D5 & D6 & D7 & D8 & D9 & D10 & D11) & P1 & P2 & P3).
    set (ch := mkLchunk (l_next w1) d (l_index w1) (l_index w1 + Z.of_nat 1 - 1) [data]). assert (HC : l_chunks w2 = [ch]) by (cbn; by rewrite F1).
    assert (HG : good ch). { split; [split; [exact F2|exact Eb]|]. split; [done|]. cbn. rewrite F3. done. }
    split; unfold made_keys; rewrite ?D1, ?D2, ?D4, ?D8, ?D10, ?D11, ?P1, ?P2, ?P3, ?HC; cbn; rewrite ?F1, ?F4, ?F5, ?HF; try done.
    + by constructor.
    + apply (j_sent _ _ I).
    + split; [done|]. split; [done|]. split; [done|]. split; [done|]. split; [done|]. split; [split; [by constructor|constructor]|by exists ch].
    + apply prefix_nil.
    + intros _ [(r & st & H)|(r & ph & H)]; done.
  - unfold call_failed in E. injection E as <- <-. assert (NF : ~ fine [(LAppend data, InvalidArgument)]) by (rewrite fine_one; done).
    split; unfold made_keys; cbn; rewrite ?F1, ?F4, ?F5, ?HF, ?B1; try done; try (by constructor); [apply (j_sent _ _ I)|apply prefix_nil].
Qed.

Lemma prefix_next {A} (a l : list A) x : a `prefix_of` l -> l !! length a = Some x -> a ++ [x] `prefix_of` l.
Proof. intros [k ->] H. rewrite lookup_app_r, Nat.sub_diag in H by lia. destruct k as [|y k]; [done|]. injection H as ->. exists k. by rewrite <- app_assoc. Qed.
Lemma prefix_end {A} (a l : list A) : a `prefix_of` l -> l !! length a = None -> a = l.
Proof. intros [k ->] H. apply lookup_ge_None in H. rewrite app_length in H. destruct k; cbn in H; [by rewrite app_nil_r|lia]. Qed.

Lemma iinv_create rs w t pr k w' ret : iinv rs w -> insert_next prios rs = Some (DCreate t pr) -> lw_create p w t 1 pr k = LNext w' ret -> l_pos w = LIdle ->
  match ret with None => iinv rs w' | Some st => iinv (rs ++ [(LCreate t 1 pr k, st)]) w' end.
Proof.
  intros I Hn E Hp. apply next_create in Hn as (Hnc & Hf & x & creates & Hrs & Hl). assert (Hr : rs <> []) by (by rewrite Hrs).
  pose proof (j_pos _ _ I) as JP. rewrite Hp in JP. destruct JP as [B1 B2]. destruct (j_chunk _ _ I Hr Hf Hnc) as (H1 & c0 & H2). assert (HG : good c0) by (pose proof (j_good _ _ I) as HG; rewrite H2 in HG; by apply Forall_cons in HG as [? _]).
  destruct (create_traj w c0 B1 H2 HG) as [Ht Hh]. unfold lw_create in E.
  destruct (l_closed w); [injection E as <- <-; by apply iinv_reject|]. destruct (_ || _); [injection E as <- <-; by apply iinv_reject|]. destruct (_ <? _); [injection E as <- <-; by apply iinv_reject|].
  destruct (check_signature _ _ _ _) as [st|]; [|done]. destruct (negb _) eqn:Hst; [injection E as <- <-; apply iinv_reject; try done; by intros -> |].
  rewrite Ht in E. cbn zeta in E. set (m := mkLmade _ _ _ _) in E. set (w1 := ls_create w _ _) in E. change (l_buffer w1) with (l_buffer w) in E. rewrite B1 in E.
  apply write_begin_same in E as (-> & (D1 & D2 & D3 & D4 & D5 & D6 & D7 & D8 & D9 & D10 & D11) & P1 & P2 & P3).
  pose proof (j_num _ _ I Hf Hnc) as HN. rewrite Hp, Hrs in HN. cbn [tail] in HN.
  split; unfold made_keys; rewrite ?D1, ?D2, ?D4, ?D8, ?D10, ?D11, ?P1, ?P2, ?P3; cbn [w1 ls_create l_chunks l_sent l_made l_buffer l_hist l_failed l_pending]; try done.
  - apply (j_good _ _ I).
  - apply (j_sent _ _ I).
  - apply Forall_app. split; [apply (j_made _ _ I)|]. constructor; [|constructor]. split; [done|]. cbn. done.
  - split; [done|]. split; [|done]. split; [apply (j_good _ _ I)|constructor].
  - intros _ _ _. split; [done|by exists c0].
  - intros H. by destruct (j_failed _ _ I H).
  - rewrite fmap_app. apply prefix_next; [apply (j_prefix _ _ I)|]. rewrite fmap_length, HN, Nat.add_0_r. done.
  - intros _. rewrite fmap_app. pose proof (j_keys _ _ I Hf) as HK. rewrite Hp, app_nil_r in HK. unfold made_keys in HK. rewrite HK. done.
  - intros _ _. rewrite app_length, HN, Hrs. cbn. lia.
  - intros _ [?|(? & ? & ?)]; done.
Qed.

Lemma iinv_close rs w r w' ret : iinv rs w -> insert_next prios rs = Some DClose -> lw_close p w r = LNext w' ret -> l_pos w = LIdle ->
  match ret with None => iinv rs w' | Some st => iinv (rs ++ [(LClose r, st)]) w' end.
Proof.
  intros I Hn E Hp. apply next_close in Hn as (Hnc & Hf & Hr). pose proof (j_pos _ _ I) as JP. rewrite Hp in JP. destruct JP as [B1 B2].
  assert (HA : fine rs -> target <$> l_made w = prios).
  { intros Hfi. destruct (Hf Hfi) as (x & creates & Hrs & Hl). pose proof (j_num _ _ I Hfi Hnc) as HN. rewrite Hp, Hrs in HN. cbn [tail] in HN. apply prefix_end; [apply (j_prefix _ _ I)|]. rewrite fmap_length, HN, Nat.add_0_r. done. }
  unfold lw_close in E. destruct (l_closed w); [injection E as <- <-; by apply iinv_reject|]. rewrite B2 in E. unfold close_begin in E. destruct (l_stream w); [destruct (l_half w); [done|]|]; injection E as <- <-.
  - destruct I. unfold made_keys in *. split; unfold made_keys; cbn; try done.
    + intros H. rewrite Hp in j_keys0. by apply j_keys0.
    + rewrite Hp in j_num0. by apply j_num0.
    + by intros Hfi _; apply HA.
  - eapply iinv_closed; [exact I|done|exact HA|..]; try done. by rewrite Hp.
Qed.

Theorem iinv_trace tr w : lw_trace p (lw_new p key) tr w -> insert_run data prios tr -> iinv (returned tr) w.
Proof.
  induction 1 as [|tr w e w' ret H IH He E]; intros HR; [apply iinv_new|]. specialize (IH (insert_run_snoc _ _ _ _ HR)).
  pose proof (lw_trace_inv _ _ _ _ insert_conf_ok H) as T. assert (P : pinv p w) by (eapply lw_reach_inv; [apply insert_conf_ok|by eapply trace_reach]).
  destruct (is_call e) eqn:Hc.
  - destruct (insert_run_last _ _ _ _ _ HR Hc) as (cm & Hcm & Hpf). rewrite returned_call by done. destruct e as [d|t n pr k| |r| | | |]; try done; cbn [lw_step] in E; unfold idle in E; (destruct (l_pos w) eqn:Hp; [|done]); destruct cm; try done; cbn in Hpf.
    + subst d. apply next_append in Hcm. rewrite Hcm in *. pose proof (iinv_append _ _ _ IH E Hp). by destruct ret.
    + destruct Hpf as (-> & -> & ->). pose proof (iinv_create _ _ _ _ _ _ _ IH Hcm E Hp). by destruct ret.
    + pose proof (iinv_close _ _ _ _ _ IH Hcm E Hp). by destruct ret.
  - assert (HC : forall c ph, l_pos w = LRun c ph -> exists ec, current tr = Some ec /\ matches c ec (l_hist w)). { intros c ph Hp. pose proof (t_cur _ _ T) as T1. by rewrite Hp in T1. }
    destruct e as [| | | |big o nk|st nk|n|]; try done; cbn [lw_step] in E.
    + destruct (l_pos w) as [|c ph] eqn:Hp; [done|]. destruct (HC _ _ eq_refl) as (ec & H1 & H2). rewrite (returned_go _ _ _ ec) by done. pose proof (iinv_call_step _ _ _ _ _ _ _ _ _ _ IH P Hp H2 E). by destruct ret.
    + destruct (l_pos w) as [|c ph] eqn:Hp; [unfold stream_finish in E; by rewrite Hp in E|]. destruct (HC _ _ eq_refl) as (ec & H1 & H2). rewrite (returned_go _ _ _ ec) by done. assert (HF : match ret with None => iinv (returned tr) w' | Some st => iinv (returned tr ++ [(ec, st)]) w' end) by (eapply iinv_finish; try done; apply He). by destruct ret.
    + destruct (_ && _); [|done]. injection E as <- <-. rewrite returned_quiet by done. by eapply iinv_worker.
    + destruct (_ && _); [|done]. injection E as <- <-. rewrite returned_quiet by done. by eapply iinv_worker.
Qed.

(** ** What is stored *)

Lemma stacked_one ty sh t : same_kind ty sh t -> stacked ty sh [t] = batched t.
Proof. intros [H1 H2]. unfold stacked, batched. cbn. by rewrite app_nil_r, H1, H2. Qed.

(** Whenever the server takes an item from the stream: the item is for one of the
    tables, and a client that samples it gets the data of this call of insert, as one
    step (a first dimension of one is added to every tensor). *)
Theorem C76_insert_sampled tr w pre r suf chunks c ii d mt :
  lw_trace p (lw_new p key) tr w -> insert_run data prios tr -> data <> [] ->
  l_wire w = pre ++ r :: suf -> async_run (fun _ => true) ∅ pre = Some chunks -> async_insert_request (fun _ => true) chunks r = Some (IInsert c ii d) ->
  (exists pr, (ii_table ii, pr) ∈ prios) /\
  exists s, as_sample_local (Stream.mkSampled (mkSinfo mt (ii_traj ii) (replicate (length data) false)) d) = AOk s /\ as_trajectory s = SROk (mt, batched <$> data).
Proof.
  intros H HR Hd Hw Hrun Hreq. pose proof (iinv_trace _ _ H HR) as I. pose proof (trace_reach _ _ _ _ H) as R. pose proof (lw_reach_own _ _ _ R) as O.
  destruct (o_wire w O r) as [_ OI]; [rewrite Hw; apply elem_of_app; right; left|].
  destruct (insert_data (fun k => True) (fun _ => true) chunks c ii d r) as (Hii & _ & _); [by apply Forall_forall|done|exact Hreq|].
  destruct (OI ii Hii) as (m & M1 & M2 & M3 & M4). pose proof (proj1 (Forall_forall _ _) (j_made _ _ I) m M1) as (G1 & G2 & G3 & G4).
  assert (Hf : l_failed w = false). { destruct (l_failed w) eqn:Ef; [|done]. destruct (j_failed _ _ I Ef) as [X _]. rewrite X in M1. by apply elem_of_nil in M1. }
  split.
  - exists (li_prio (lm_item m)). destruct (j_prefix _ _ I) as [rest Hp]. rewrite Hp. apply elem_of_app. left. apply elem_of_list_fmap. exists m. split; [|done]. unfold target. by rewrite M3.
  - destruct (item_sampled p key w pre r suf chunks c ii d m mt (step_sig data) insert_conf_ok R Hf Hw Hrun Hreq M1 M2) as (_ & _ & s & out & E1 & E2 & E3 & E4).
    + rewrite G1, G2. lia.
    + rewrite G3. by constructor.
    + unfold step_sig. by destruct data.
    + unfold step_sig in E1, E3. rewrite fmap_length in E1, E3. exists s. split; [exact E1|]. rewrite E2. f_equal. f_equal. apply list_eq. intros i. rewrite list_lookup_fmap.
      destruct (out !! i) as [t|] eqn:Ei.
      * destruct (E4 i t Ei) as (ty & sh & ts & F1 & F2 & ->). rewrite G1, G3 in F1. change (mapM (fun s : step => s !! i) [data] = Some ts) in F1. cbn [mapM] in F1. destruct (data !! i) as [u|] eqn:Eu; [|done]. injection F1 as <-. apply Forall_cons in F2 as [F2 _]. cbn. f_equal. by apply stacked_one.
      * apply lookup_ge_None in Ei. rewrite (lookup_ge_None_2 data) by lia. done.
Qed.

Lemma chunk_keys_seen k l : Forall (eq k) l -> chunk_keys_aux [k] l = [].
Proof. induction 1 as [|x l <- _ IH]; [done|]. cbn [chunk_keys_aux]. by rewrite decide_True by left. Qed.
Lemma whole_keys : data <> [] -> get_chunk_keys whole = [key].
Proof.
  intros Hd. unfold whole, get_chunk_keys. destruct (length data) as [|n] eqn:E; [by destruct data|]. cbn [seq fmap list_fmap]. unfold traj_keys. cbn [concat app fmap list_fmap chunk_keys_aux]. rewrite decide_False by (by intros ?%elem_of_nil). f_equal.
  apply chunk_keys_seen. apply Forall_forall. intros k Hk. apply elem_of_list_fmap in Hk as (s & -> & Hs). apply elem_of_list_In, in_concat in Hs as (l & Hl & Hs). apply elem_of_list_In in Hl, Hs. apply elem_of_list_fmap in Hl as (i & -> & _). apply elem_of_list_singleton in Hs as ->. done.
Qed.

(** The data is one chunk: every chunk that ever reaches the server is the same, and
    every item has this chunk and no other. *)
Theorem C76_insert_stored_once tr w : lw_trace p (lw_new p key) tr w -> insert_run data prios tr -> data <> [] ->
  (forall a b, a ∈ l_sent w -> b ∈ l_sent w -> a = b) /\
  (forall a r ii, a ∈ l_sent w -> r ∈ l_wire w -> ir_item r = Some ii -> get_chunk_keys (ii_traj ii) = [kc_key a]).
Proof.
  intros H HR Hd. pose proof (iinv_trace _ _ H HR) as I. pose proof (trace_reach _ _ _ _ H) as R. pose proof (lw_reach_own _ _ _ R) as O. pose proof (proj1 (Forall_forall _ _) (j_sent _ _ I)) as HS. split.
  - intros [ka da] [kb db] [A1 A2]%HS [B1 B2]%HS. cbn in *. congruence.
  - intros a r ii [A1 _]%HS Hr Hii. destruct (o_wire w O r Hr) as [_ OI]. destruct (OI ii Hii) as (m & M1 & _ & _ & M4). pose proof (proj1 (Forall_forall _ _) (j_made _ _ I) m M1) as (_ & _ & _ & G4).
    rewrite M4, G4, A1. by apply whole_keys.
Qed.

(** ** What insert says about it *)

(** At any time the items that have been made are for the first tables of
    [priorities], in their order, with their priorities, and no table gets two. *)
Theorem C76_insert_prefix tr w : lw_trace p (lw_new p key) tr w -> insert_run data prios tr -> (target <$> l_made w) `prefix_of` prios.
Proof. intros H HR. apply (j_prefix _ _ (iinv_trace _ _ H HR)). Qed.

Lemma insert_done_closes tr : insert_next prios (returned tr) = None -> closes (returned tr).
Proof.
  unfold insert_next, closes. intros E. destruct (last (returned tr)) as [[e st]|] eqn:El.
  - destruct e; try (by eexists _, _); destruct (existsb _ _); try done; destruct (returned tr) as [|? creates]; try done; by destruct (prios !! _) as [[]|].
  - apply last_None in El. rewrite El in E. done.
Qed.
Lemma insert_ok_fine tr : Forall (fun x : lev * status => x.2 = Ok) (returned tr) -> fine (returned tr).
Proof. unfold fine. induction 1 as [|[e st] l H _ IH]; [done|]. cbn in *. rewrite IH. unfold failed_call. cbn. rewrite H. done. Qed.

(** insert has returned normally: every table of [priorities] has got exactly one
    item, and the items have all been written to a stream.  If the writer waits for
    confirmations (the Python client does) and the stream was not found broken, the
    server has confirmed them all. *)
Theorem C76_insert_returns_partial tr w : lw_trace p (lw_new p key) tr w -> insert_run data prios tr -> insert_ok prios tr ->
  (target <$> l_made w) = prios /\ NoDup (made_keys w) /\ (forall k, k ∈ made_keys w -> k ∈ l_written w) /\
  (forall n, flight = Some n -> no_dead tr -> forall k, k ∈ made_keys w -> k ∈ l_confirmed w).
Proof.
  intros H HR [[Hd Hcur] Hok]. pose proof (iinv_trace _ _ H HR) as I. pose proof (trace_reach _ _ _ _ H) as R. pose proof (lw_trace_inv _ _ _ _ insert_conf_ok H) as T. pose proof (insert_ok_fine _ Hok) as Hf. pose proof (insert_done_closes _ Hd) as Hc.
  pose proof (t_cur _ _ T) as T1. destruct (l_pos w) as [|c ph] eqn:Hp; [|destruct T1 as (? & ? & _); congruence].
  pose proof (j_keys _ _ I Hf) as HK. rewrite Hp, app_nil_r in HK. pose proof (j_pos _ _ I) as JP. rewrite Hp in JP. destruct JP as [_ Hpd].
  split; [apply (j_all _ _ I Hf); by left|]. split; [apply (o_keys w (lw_reach_own _ _ _ R))|]. split.
  - intros k Hk. rewrite HK in Hk. destruct (t_items _ _ T k Hk) as [?|[Hx _]]; [done|]. unfold pkeys in Hx. rewrite Hpd in Hx. by apply elem_of_nil in Hx.
  - intros n Hn ND k Hk. rewrite HK in Hk. destruct Hc as (r & st & Hl). apply last_Some in Hl as [pr Hl].
    assert (st = Ok) as ->. { rewrite Hl in Hok. apply Forall_app in Hok as [_ Hok]. by apply Forall_cons in Hok as [? _]. }
    rewrite Hl, created_app in Hk. cbn in Hk. rewrite app_nil_r in Hk.
    assert (r = true) as ->.
    { destruct (proj1 (returned_from tr) (LClose r, Ok)) as [ret Hin]; [rewrite Hl; apply elem_of_app; right; left|]. apply elem_of_list_split in Hin as (tr1 & tr2 & Htr).
      destruct (HR tr1 (LClose r) ret tr2 Htr eq_refl) as (cm & _ & Hpf). by destruct cm. }
    eapply (C41_writer_close_partial p n); try done. by rewrite Hn in Hfl.
Qed.

(** insert does not crash the client, unless one of its calls has returned DataLoss
    (C76_crash_refuted). *)
Theorem C76_insert_no_crash_partial tr w e : lw_trace p (lw_new p key) tr w -> insert_run data prios tr -> (forall c, (c, DataLoss) ∉ returned tr) -> lw_enabled w e ->
  (is_call e = true -> exists c, insert_next prios (returned tr) = Some c /\ performs data c e) -> lw_step p w e <> LCrash.
Proof.
  intros H HR HD He Hc. eapply C59_writer_partial; [apply insert_conf_ok|exact H|exact HD|exact He|]. intros t pr k ->. destruct (Hc eq_refl) as (c & _ & Hp). destruct c; try done. by destruct Hp as (_ & ? & _).
Qed.
End insert.

(** ** Runs *)

Local Instance tensor_eq_dec : EqDecision tensor.
Proof. solve_decision. Defined.
Local Instance Q_eq_dec' : EqDecision Q.
Proof. intros [a b] [c d]. destruct (decide (a = c)), (decide (b = d)); [left|right|right|right]; congruence. Defined.
Local Instance dbl_eq_dec' : EqDecision dbl.
Proof. solve_decision. Defined.
Definition performs_b (data : step) (c : pcmd) (e : lev) : bool :=
  match c, e with
  | DAppend, LAppend d => bool_decide ((d : list tensor) = data)
  | DCreate t pr, LCreate t' n pr' _ => bool_decide (t' = t) && bool_decide (n = 1) && bool_decide (pr' = pr)
  | DClose, LClose retry => retry
  | _, _ => false
  end.
Definition insert_run_b (data : step) (prios : list (Z * dbl)) (tr : list (lev * option status)) : bool :=
  forallb (fun i => match tr !! i with
                    | Some (e, _) => if is_call e then match insert_next prios (returned (take i tr)) with Some c => performs_b data c e | None => false end else true
                    | None => true
                    end) (seq 0 (length tr)).
Lemma insert_run_sound data prios tr : insert_run_b data prios tr = true -> insert_run data prios tr.
Proof.
  intros H tr1 e ret tr2 -> Hc. unfold insert_run_b in H. rewrite forallb_forall in H. specialize (H (length tr1)). rewrite list_lookup_middle, take_app, Hc in H by done.
  assert (HS : In (length tr1) (seq 0 (length (tr1 ++ (e, ret) :: tr2)))) by (apply in_seq; rewrite app_length; cbn; lia). specialize (H HS).
  destruct (insert_next prios (returned tr1)) as [c|]; [|done]. exists c. split; [done|]. rename H into HP. destruct c, e; try done; cbn in *.
  - by apply bool_decide_eq_true in HP.
  - apply andb_true_iff in HP as [[H1%bool_decide_eq_true H2%bool_decide_eq_true]%andb_true_iff H3%bool_decide_eq_true]. done.
Qed.

(** insert([scalar 7, vector (7, 8)], {5: 1, 6: 2}), where table 5 has a signature. *)
Definition iex_data : step := lstep 7.
Definition iex_prios : list (Z * dbl) := [(5, Fin 1); (6, Fin 2)].
Definition iex_sigs : option (gmap Z (option (list tspec))) := Some {[5 := Some lex_sig; 6 := None]}.
Definition iex_conf : lconf := insert_conf iex_sigs py_flight.
Definition iex_append : list lev := [LAppend iex_data] ++ go 200 3.
Definition iex_one : list lev := iex_append ++ [LCreate 5 1 (Fin 1) 41] ++ go 300 5.
Definition iex_two : list lev := iex_one ++ [LCreate 6 1 (Fin 2) 42] ++ go 400 5.
Definition iex_all : list lev := iex_two ++ [LConf 1; LClose true; LConf 1] ++ go 500 2 ++ [LFinish Ok 600].
Example C76_example : let R := lrun iex_conf iex_all in
  lw_trace iex_conf (lw_new iex_conf 100) R.2 R.1 /\ insert_run iex_data iex_prios R.2 /\ insert_ok iex_prios R.2 /\ no_dead R.2 /\ (41 ∈ l_confirmed R.1 /\ 42 ∈ l_confirmed R.1) /\ kc_key <$> l_sent R.1 = [100].
Proof.
  intros R. split; [apply lrun_trace|]. split; [apply insert_run_sound; vm_compute; reflexivity|]. split; [|split; [|split; [split; eapply (bool_decide_eq_true_1 _); vm_compute; reflexivity|vm_compute; reflexivity]]].
  - split; [split; vm_compute; reflexivity|]. assert (snd <$> returned R.2 = [Ok; Ok; Ok; Ok]) as E by (vm_compute; reflexivity). apply Forall_forall. intros x Hx. apply (elem_of_list_fmap_1 snd) in Hx. rewrite E in Hx. clear -Hx. apply elem_of_list_In in Hx. cbn in Hx. intuition.
  - assert (forallb (fun x => match x.1 with LDead => false | _ => true end) R.2 = true) as F by (vm_compute; reflexivity). rewrite forallb_forall in F. intros r Hr. by specialize (F _ (proj1 (elem_of_list_In _ _) Hr)).
Qed.
(** The second item on the wire, as in C76_insert_sampled. *)
Example C76_sampled_example : let R := lrun iex_conf iex_two in
  lw_trace iex_conf (lw_new iex_conf 100) R.2 R.1 /\ insert_run iex_data iex_prios R.2 /\ length (l_wire R.1) = 2%nat /\
  lex_sampled R.1 2 = Some [vec [7]; mkTensor (TOther 1) [1; 2]%nat [7; 8]].
Proof. intros R. split; [apply lrun_trace|]. split; [apply insert_run_sound; vm_compute; reflexivity|]. split; vm_compute; reflexivity. Qed.

(** insert returns normally although an item has not been confirmed: the connection
    broke while Close waited. *)
Theorem C76_confirmed_refuted : ~ (forall data prios sigs n key tr w, 1 <= n -> lw_trace (insert_conf sigs (Some n)) (lw_new (insert_conf sigs (Some n)) key) tr w -> insert_run data prios tr -> insert_ok prios tr ->
  forall k, k ∈ made_keys w -> k ∈ l_confirmed w).
Proof.
  intros H. set (R := lrun iex_conf (iex_two ++ [LConf 1; LClose true; LDead] ++ go 500 2 ++ [LFinish Unavailable 600])).
  assert (42 ∈ l_confirmed R.1) as HC.
  { apply (H iex_data iex_prios iex_sigs 25 100 R.2 R.1); [lia|apply lrun_trace|apply insert_run_sound; vm_compute; reflexivity| |].
    - split; [split; vm_compute; reflexivity|]. assert (snd <$> returned R.2 = [Ok; Ok; Ok; Ok]) as E by (vm_compute; reflexivity). apply Forall_forall. intros x Hx. apply (elem_of_list_fmap_1 snd) in Hx. rewrite E in Hx. clear -Hx. apply elem_of_list_In in Hx. cbn in Hx. intuition.
    - assert (made_keys R.1 = [41; 42]) as -> by (vm_compute; reflexivity). right; left. }
  assert (bool_decide (42 ∈ l_confirmed R.1) = false) as E by (vm_compute; reflexivity). apply bool_decide_eq_false in E. exact (E HC).
Qed.

(** insert is not atomic: it raises (there is no table 7), and table 5 has its item. *)
Theorem C76_atomic_refuted : ~ (forall data prios sigs n key tr w, 1 <= n -> lw_trace (insert_conf sigs (Some n)) (lw_new (insert_conf sigs (Some n)) key) tr w -> insert_run data prios tr -> insert_done prios tr -> ~ insert_ok prios tr ->
  l_confirmed w = ∅).
Proof.
  intros H. set (R := lrun iex_conf (iex_one ++ [LCreate 7 1 (Fin 2) 42; LClose true; LConf 1] ++ go 500 2 ++ [LFinish Ok 600])).
  assert (l_confirmed R.1 = ∅) as HC.
  { apply (H iex_data [(5, Fin 1); (7, Fin 2)] iex_sigs 25 100 R.2 R.1); [lia|apply lrun_trace|apply insert_run_sound; vm_compute; reflexivity|split; vm_compute; reflexivity|].
    intros [_ Hx]. assert (snd <$> returned R.2 = [Ok; Ok; InvalidArgument; Ok]) as E by (vm_compute; reflexivity).
    destruct (returned R.2) as [|a [|b [|c l]]]; try done. injection E as _ _ E _. apply Forall_cons in Hx as [_ Hx]. apply Forall_cons in Hx as [_ Hx]. apply Forall_cons in Hx as [Hx _]. congruence. }
  assert (41 ∈ l_confirmed R.1) as E by (eapply (bool_decide_eq_true_1 _); vm_compute; reflexivity). rewrite HC in E. by apply elem_of_empty in E.
Qed.

(** insert crashes the client: the second write fails while the first item is not
    confirmed, CreateItem returns DataLoss, and Close then calls WritesDone for the
    second time on the same stream. *)
Theorem C76_crash_refuted : ~ (forall data prios sigs n key tr w e, 1 <= n -> lw_trace (insert_conf sigs (Some n)) (lw_new (insert_conf sigs (Some n)) key) tr w -> insert_run data prios tr -> lw_enabled w e ->
  (is_call e = true -> exists c, insert_next prios (returned tr) = Some c /\ performs data c e) -> lw_step (insert_conf sigs (Some n)) w e <> LCrash).
Proof.
  intros H. set (R := lrun iex_conf (iex_one ++ [LCreate 6 1 (Fin 2) 42] ++ go 400 3 ++ [LStep false OutLost 410] ++ go 420 2)).
  apply (H iex_data iex_prios iex_sigs 25 100 R.2 R.1 (LClose true)); [lia|apply lrun_trace|apply insert_run_sound; vm_compute; reflexivity|done| |vm_compute; reflexivity].
  intros _. exists DClose. split; [vm_compute; reflexivity|done].
Qed.

Print Assumptions C41_writer_close_partial.
Print Assumptions C76_insert_sampled.
Print Assumptions C76_insert_stored_once.
Print Assumptions C76_insert_prefix.
Print Assumptions C76_insert_returns_partial.
Print Assumptions C76_insert_no_crash_partial.
Print Assumptions C76_confirmed_refuted.
Print Assumptions C76_atomic_refuted.
Print Assumptions C76_crash_refuted.
