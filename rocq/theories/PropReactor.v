(** C45 and, for the asynchronous service, C42: the stream reactors. *)
From Verif Require Import Base Trajectory Tensor TrajUtil Sample Stream PropStream Reactor.
Local Open Scope Z_scope.

(** ** The sample reactor: what can happen when *)

(** A read (write) only finishes if one is outstanding.  The table answers an
    enqueued request once, with an error or with at least one and at most as many
    samples as asked for. *)
Definition s_enabled (s : srx) (e : sevent) : Prop :=
  match e with
  | SRead _ => g_read (s_base s) = true
  | SWrite _ => g_write (s_base s) <> None
  | STail => s_tails s <> 0%nat
  | SSampled None => s_waiting s = true
  | SSampled (Some l) => s_waiting s = true /\ l <> [] /\ Z.of_nat (length l) <= s_ask s /\ Forall item_ok l
  | SMaybeRead => s_mreads s <> 0%nat
  | SCancel => True
  end.

Inductive s_reach (tables : Z -> option Z) (csize : kchunk -> Z) (limit : Z) : srx -> Prop :=
  | s_reach_init s : s_init = Some s -> s_reach tables csize limit s
  | s_reach_step s e s' : s_reach tables csize limit s -> s_enabled s e -> s_step tables csize limit s e = Some s' ->
      s_reach tables csize limit s'.

(** ** Invariant *)

Definition s_content (s : srx) : Prop :=
  exists gs, Forall2 carries gs (s_delivered s) /\
    if b_finished (s_base s) then exists rest, concat (g_sent (s_base s)) ++ rest = concat gs
    else concat (g_sent (s_base s) ++ tail (b_queue (s_base s))) = concat gs.

Record s_inv (s : srx) : Prop := {
  v_write : b_finished (s_base s) = false -> g_write (s_base s) = head (b_queue (s_base s));
  v_status : if b_finished (s_base s) then g_status (s_base s) <> None else g_status (s_base s) = None;
  v_content : s_content s;
  v_items : Forall item_ok (s_delivered s);
  v_sent : Forall (fun r : response => r <> []) (g_sent (s_base s));
  v_queue : Forall (fun r : response => r <> []) (b_queue (s_base s));
  v_mreads : (s_mreads s <= 1)%nat;
  v_read : g_read (s_base s) = true -> s_mreads s = 0%nat;
  v_idle : g_read (s_base s) = true \/ s_mreads s <> 0%nat -> s_requested s = s_fetched s;
  v_wait : s_waiting s = true -> 1 <= s_ask s <= s_requested s - s_fetched s;
  v_flex : s_requested s = s_fetched s /\ 0 <= s_flex s \/ 1 <= s_flex s;
  v_fetched : s_fetched s <= s_requested s;
  v_total : Z.of_nat (length (s_delivered s)) = s_total s - (s_requested s - s_fetched s);
  v_done : b_finished (s_base s) = false -> b_cancelled (s_base s) = false -> b_still_reading (s_base s) = true ->
    s_requested s = s_fetched s -> g_read (s_base s) = true \/ s_mreads s <> 0%nat;
  v_half : b_finished (s_base s) = false -> b_cancelled (s_base s) = false -> b_still_reading (s_base s) = false ->
    b_queue (s_base s) <> [];
  v_live : b_finished (s_base s) = false -> b_cancelled (s_base s) = false -> b_still_reading (s_base s) = true ->
    s_requested s <> s_fetched s -> s_waiting s = true \/ b_queue (s_base s) <> [] \/ s_tails s <> 0%nat;
  v_cancel : b_cancelled (s_base s) = true -> b_still_reading (s_base s) = false
}.

Lemma process_samples_spec csize limit wif l : forall q cur, Forall item_ok l -> Forall (fun r : response => r <> []) q ->
  exists outs, let q' := fst (process_samples csize limit q cur wif l) in
    concat q' = concat q ++ concat outs /\ Forall2 carries outs l /\ Forall (fun r : response => r <> []) q' /\
    (l <> [] -> q' <> []) /\ (wif = true -> forall f, head q = Some f -> head q' = Some f).
Proof.
  induction l as [|x l IH]; intros q cur Hok Hq.
  - exists []. cbn. rewrite app_nil_r. split; [done|]. split; [constructor|]. done.
  - apply Forall_cons in Hok as [[_ Hx] Hok].
    destruct (process_sample_spec csize limit q cur wif x Hx Hq) as (out & H1 & H2 & H3 & H4 & H5). cbn zeta in *.
    unfold process_samples. cbn [foldl fst snd]. destruct (process_sample csize limit q cur wif x) as [q1 cur1] eqn:E. cbn [fst snd] in *.
    destruct (IH q1 cur1 Hok H4) as (outs & G1 & G2 & G3 & G4 & G5). cbn zeta in *. unfold process_samples in *.
    exists (out :: outs). split; [rewrite G1, H1; cbn [concat]; by rewrite <- app_assoc|]. split; [by constructor|]. split; [done|].
    split.
    + intros _. destruct l as [|y l]; [done|]. by apply G4.
    + intros Hw f Hf. apply G5; [done|]. by apply H5.
Qed.

Lemma mss_base s : s_base (maybe_start_sampling s) = s_base s /\ s_delivered (maybe_start_sampling s) = s_delivered s /\
  s_mreads (maybe_start_sampling s) = s_mreads s /\ s_tails (maybe_start_sampling s) = s_tails s /\ s_requested (maybe_start_sampling s) = s_requested s /\
  s_fetched (maybe_start_sampling s) = s_fetched s /\ s_flex (maybe_start_sampling s) = s_flex s /\ s_total (maybe_start_sampling s) = s_total s.
Proof. unfold maybe_start_sampling. by repeat case_match. Qed.

Lemma mss_wait s : (s_requested s = s_fetched s /\ 0 <= s_flex s \/ 1 <= s_flex s) -> s_fetched s <= s_requested s ->
  (s_waiting s = true -> 1 <= s_ask s <= s_requested s - s_fetched s) ->
  s_waiting (maybe_start_sampling s) = true -> 1 <= s_ask (maybe_start_sampling s) <= s_requested s - s_fetched s.
Proof.
  intros Hf Hr Hw. unfold maybe_start_sampling. destruct (Z.eqb_spec (next_sample_size s) 0) as [E|E]; [done|].
  destruct (s_waiting s) eqn:Ew; [intros _; by apply Hw|]. destruct (3 <=? _)%nat; [intros H; congruence|].
  intros _. cbn [s_ask]. unfold next_sample_size in *. lia.
Qed.
Lemma mss_live s : (s_requested s = s_fetched s /\ 0 <= s_flex s \/ 1 <= s_flex s) -> s_fetched s <= s_requested s -> s_requested s <> s_fetched s ->
  s_waiting (maybe_start_sampling s) = true \/ b_queue (s_base (maybe_start_sampling s)) <> [].
Proof.
  intros Hf Hr Hne. unfold maybe_start_sampling. destruct (Z.eqb_spec (next_sample_size s) 0) as [E|E]; [unfold next_sample_size in E; lia|].
  destruct (s_waiting s) eqn:Ew; [by left|]. destruct (Nat.leb_spec 3 (length (b_queue (s_base s)))) as [Hl|Hl]; [|by left].
  right. intros E0. rewrite E0 in Hl. cbn in Hl. lia.
Qed.

(** The invariant only depends on these fields of the state. *)
Lemma mss_inv s : (s_requested s = s_fetched s /\ 0 <= s_flex s \/ 1 <= s_flex s) -> s_fetched s <= s_requested s ->
  (forall w a, (w = true -> 1 <= a <= s_requested s - s_fetched s) -> (s_requested s <> s_fetched s -> w = true \/ b_queue (s_base s) <> [] \/ s_tails s <> 0%nat) ->
     s_inv (mkSrx (s_base s) (s_cur s) (s_flex s) (s_fetched s) (s_requested s) w a (s_tails s) (s_mreads s) (s_delivered s) (s_total s))) ->
  (s_waiting s = true -> 1 <= s_ask s <= s_requested s - s_fetched s) ->
  s_inv (maybe_start_sampling s).
Proof.
  intros Hf Hr H Hw.
  assert (E : maybe_start_sampling s = mkSrx (s_base s) (s_cur s) (s_flex s) (s_fetched s) (s_requested s) (s_waiting (maybe_start_sampling s)) (s_ask (maybe_start_sampling s)) (s_tails s) (s_mreads s) (s_delivered s) (s_total s)).
  { unfold maybe_start_sampling. repeat case_match; by destruct s. }
  rewrite E. apply H; [by apply mss_wait|]. intros Hne. destruct (mss_live s Hf Hr Hne) as [?|?]; [by left|]. right. left.
  by rewrite (proj1 (mss_base s)) in *.
Qed.

Lemma s_init_inv s : s_init = Some s -> s_inv s.
Proof.
  intros [= <-]. constructor; cbn; try done; try lia; try (by intros; left); try (intros; lia); try constructor.
  exists []. split; [constructor|]. done.
Qed.

Lemma s_step_inv tables csize limit s e : (forall t d, tables t = Some d -> 1 <= d) -> s_inv s -> s_enabled s e ->
  exists s', s_step tables csize limit s e = Some s' /\ s_inv s'.
Proof.
  intros Ht Hi He. destruct s as [b cur flex fet req w ask tl mr del tot].
  destruct b as [q sr fin can rd wr sent st]. destruct Hi as [Iw Is Ic Ii In Iq Im Ir Id Ia If Ile Itot Idn Ih Il Icn]. cbn in *.
  destruct e as [r|ok| |r| |].
  - (* read *)
    cbn in He. subst rd. assert (Hm := Ir eq_refl). assert (Hrf := Id (or_introl eq_refl)). subst mr req.
    assert (Hw : w = false) by (destruct w; [specialize (Ia eq_refl); lia|done]). subst w.
    unfold s_step, on_read_done. cbn.
    destruct fin.
    + (* finished *)
      rewrite orb_true_r. unfold should_finish. cbn. rewrite andb_false_r. cbn. eexists; split; [reflexivity|].
      constructor; cbn; try done; try (by intros [?|?]). 
    + rewrite orb_false_r. destruct r as [r|]; cbn.
      * unfold process_sample_request. cbn. destruct (Z.leb_spec (sr_num r) 0) as [Hn|Hn].
        { rewrite andb_false_r. cbn. eexists; split; [reflexivity|]. constructor; cbn; try done; try (by intros [?|?]); try constructor.
          destruct Ic as (gs & G1 & G2). exists gs. split; [done|]. cbn in *. exists (concat (tail q)). by rewrite <- concat_app. }
        destruct ((sr_flex r <=? 0) && negb (sr_flex r =? -1)) eqn:Ef; cbn.
        { rewrite andb_false_r. cbn. eexists; split; [reflexivity|]. constructor; cbn; try done; try (by intros [?|?]); try constructor.
          destruct Ic as (gs & G1 & G2). exists gs. split; [done|]. cbn in *. exists (concat (tail q)). by rewrite <- concat_app. }
        destruct (tables (sr_table r)) as [d|] eqn:Et; cbn.
        2:{ rewrite andb_false_r. cbn. eexists; split; [reflexivity|]. constructor; cbn; try done; try (by intros [?|?]); try constructor.
          destruct Ic as (gs & G1 & G2). exists gs. split; [done|]. cbn in *. exists (concat (tail q)). by rewrite <- concat_app. }
        assert (Hfx : 1 <= (if sr_flex r =? -1 then d else sr_flex r)).
        { destruct (Z.eqb_spec (sr_flex r) (-1)); [by apply (Ht (sr_table r))|]. cbn in Ef. rewrite andb_true_r in Ef.
          apply Z.leb_gt in Ef. lia. }
        eexists; split; [reflexivity|]. apply mss_inv; cbn; [by right|lia| |done].
        intros w a Hwa Hlv. constructor; cbn; try done; try (by intros [?|?]); try lia.
        all: try (by right); try (intros _ _ _ _; apply Hlv; lia).
      * unfold should_finish. cbn. rewrite andb_true_r. destruct q as [|m q]; cbn.
        -- eexists; split; [reflexivity|]. constructor; cbn; try done; try (by intros [?|?]).
           destruct Ic as (gs & G1 & G2). exists gs. split; [done|]. cbn in *. exists []. by rewrite app_nil_r in *.
        -- eexists; split; [reflexivity|]. constructor; cbn; try done; try (by intros [?|?]).
  - (* write *)
    unfold s_step, on_write_done. cbn. destruct fin; cbn.
    + eexists; split; [reflexivity|]. constructor; cbn; done.
    + rewrite (Iw eq_refl) in He. destruct q as [|m q]; [done|]. cbn in *.
      apply Forall_cons in Iq as [Hm Iq]. destruct ok; cbn.
      * destruct (negb sr && match q with [] => true | _ => false end) eqn:Ef.
        -- apply andb_true_iff in Ef as [E1 E2]. destruct q; [|done]. destruct sr; [done|].
           eexists; split; [reflexivity|]. constructor; cbn; try done.
           destruct Ic as (gs & G1 & G2). exists gs. split; [done|]. cbn in *. exists []. by rewrite app_nil_r in *.
        -- destruct q as [|m' q].
           ++ cbn. eexists; split; [reflexivity|]. constructor; cbn; try done.
              all: try (by intros _ Hc ->). all: intros; right; by right.
           ++ cbn. eexists; split; [reflexivity|]. constructor; cbn; try done.
              ** destruct Ic as (gs & G1 & G2). exists gs. split; [done|]. cbn in *. by rewrite <- app_assoc.
              ** apply Forall_app. split; [done|]. apply Forall_cons in Iq as [? _]. by repeat constructor.
              ** intros. right. by left.
      * eexists; split; [reflexivity|]. constructor; cbn; try done.
        destruct Ic as (gs & G1 & G2). exists gs. split; [done|]. cbn in *. exists (concat q). by rewrite <- concat_app.
  - (* second part of OnWriteDone *)
    cbn in He. unfold s_step. cbn. eexists; split; [reflexivity|]. apply mss_inv; cbn; [done|done| |done].
    intros w' a Hwa Hlv. constructor; cbn; done.
  - (* sampled *)
    destruct r as [l|].
    + destruct He as (He & Hl & Hlen & Hok). cbn in He, Hlen. subst w. specialize (Ia eq_refl).
      assert (Hrd : rd = false). { destruct rd; [|done]. specialize (Id (or_introl eq_refl)). lia. } subst rd.
      assert (Hmr : mr = 0%nat). { destruct mr; [done|]. assert (req = fet) by (apply Id; by right). lia. } subst mr.
      unfold s_step. cbn.
      destruct (process_samples_spec csize limit (negb match q with [] => true | _ => false end) l q cur Hok Iq) as (outs & G1 & G2 & G3 & G4 & G5).
      cbn zeta in *. destruct (process_samples csize limit q cur _ l) as [q' cur'] eqn:Ep. cbn [fst] in *. specialize (G4 Hl).
      (* the base after sending *)
      assert (HB : exists b', (if negb match q with [] => true | _ => false end then Some (mkBase q' sr fin can false wr sent st)
                               else maybe_send (mkBase q' sr fin can false wr sent st)) = Some b' /\
                b_queue b' = q' /\ b_still_reading b' = sr /\ b_finished b' = fin /\ b_cancelled b' = can /\ g_read b' = false /\ g_status b' = st /\
                Forall (fun r : response => r <> []) (g_sent b') /\
                (fin = false -> g_write b' = head q') /\
                (exists gs, Forall2 carries gs (del ++ l) /\ if fin then exists rest, concat (g_sent b') ++ rest = concat gs
                   else concat (g_sent b' ++ tail q') = concat gs)).
      { destruct Ic as (gs & C1 & C2). cbn in C2, C1. destruct q as [|m q]; cbn [negb].
        - unfold maybe_send. cbn [b_queue]. destruct q' as [|m' q']; [done|]. cbn [b_finished]. destruct fin.
          + eexists. split; [reflexivity|]. cbn. split_and!; try done. destruct C2 as [rest C2]. exists (gs ++ outs). split; [by apply Forall2_app|].
            exists (rest ++ concat outs). rewrite (concat_app gs), <- C2. by rewrite app_assoc.
          + unfold start_write. cbn. rewrite (Iw eq_refl). cbn. eexists. split; [reflexivity|]. cbn. split_and!; try done.
            { apply Forall_app. split; [done|]. apply Forall_cons in G3 as [? _]. by repeat constructor. }
            exists (gs ++ outs). split; [by apply Forall2_app|]. rewrite (concat_app gs), <- C2. rewrite app_nil_r. rewrite <- app_assoc. rewrite concat_app. cbn in G1. f_equal. done.
        - eexists. split; [reflexivity|]. cbn. split_and!; try done.
          { intros Hf. rewrite (Iw Hf). cbn. symmetry. by apply G5. }
          exists (gs ++ outs). split; [by apply Forall2_app|]. destruct fin.
          + destruct C2 as [rest C2]. exists (rest ++ concat outs). rewrite (concat_app gs), <- C2. by rewrite app_assoc.
          + specialize (G5 eq_refl m eq_refl). destruct q' as [|m' q']; [done|]. injection G5 as ->. cbn in G1. rewrite <- app_assoc in G1.
            apply app_inv_head in G1. cbn. cbn in C2. rewrite (concat_app gs), <- C2, !concat_app, G1. by rewrite app_assoc. }
      unfold with_queue. cbn [b_queue b_still_reading b_finished b_cancelled g_read g_write g_sent g_status].
      destruct HB as (b' & -> & B1 & B2 & B3 & B4 & B5 & B6 & B7 & B8 & B9). cbn [mbind option_bind].
      assert (Hlen1 : (1 <= length l)%nat) by (destruct l; [done|cbn; lia]).
      assert (Htot : Z.of_nat (length (del ++ l)) = tot - (req - (fet + Z.of_nat (length l)))) by (rewrite app_length; lia).
      unfold next_sample_size at 1. cbn [s_flex s_requested s_fetched].
      assert (Hitems : Forall item_ok (del ++ l)) by (by apply Forall_app).
      match goal with |- context[negb (?x =? 0)] => destruct (Z.eqb_spec x 0) as [E|E] end; cbn [negb].
      * eexists; split; [reflexivity|]. destruct b' as [q2 sr2 fin2 can2 rd2 wr2 sent2 st2]; cbn in *; subst. constructor; cbn; try done; try lia.
        all: try (intros _; lia); try (intros; lia). all: intros; by right.
      * eexists; split; [reflexivity|]. destruct b' as [q2 sr2 fin2 can2 rd2 wr2 sent2 st2]; cbn in *; subst. apply mss_inv; cbn; [right; lia|lia| |done].
        intros w a Hwa Hlv. constructor; cbn; try done; try lia; try (by intros [?|?]); try (intros; right; by left).
    + cbn in He. subst w. specialize (Ia eq_refl).
      assert (Hrd : rd = false). { destruct rd; [|done]. specialize (Id (or_introl eq_refl)). lia. } subst rd.
      assert (Hmr : mr = 0%nat). { destruct mr; [done|]. assert (req = fet) by (apply Id; by right). lia. } subst mr.
      unfold s_step. cbn. destruct fin; cbn.
      * eexists; split; [reflexivity|]. constructor; cbn; done.
      * rewrite andb_false_r. cbn. eexists; split; [reflexivity|]. constructor; cbn; try done; try constructor.
        destruct Ic as (gs & G1 & G2). exists gs. split; [done|]. cbn in *. exists (concat (tail q)). by rewrite <- concat_app.
  - (* MaybeStartRead *)
    cbn in He. assert (Hmr : mr = 1%nat) by lia. subst mr. assert (Hrf : req = fet) by (apply Id; by right). subst req.
    assert (Hrd : rd = false) by (destruct rd; [specialize (Ir eq_refl); done|done]). subst rd.
    unfold s_step, maybe_start_read. cbn. destruct (sr && negb can && negb fin) eqn:Eg.
    + destruct sr; [|done]. destruct can; [done|]. destruct fin; [done|]. cbn. eexists; split; [reflexivity|].
      constructor; cbn; try done; try lia; by intros; left.
    + cbn. eexists; split; [reflexivity|]. constructor; cbn; try done; try lia; try (by intros [?|?]).
      all: by intros -> -> ->.
  - (* cancel *)
    unfold s_step. cbn. eexists; split; [reflexivity|]. constructor; cbn; done.
Qed.

Lemma s_reach_inv tables csize limit s : (forall t d, tables t = Some d -> 1 <= d) -> s_reach tables csize limit s -> s_inv s.
Proof.
  intros Ht. induction 1 as [s H|s e s' H IH He Hs]; [by apply s_init_inv|].
  destruct (s_step_inv tables csize limit s e Ht IH He) as (s2 & E & Hi). congruence.
Qed.

(** ** C45 for the sample reactor *)

(** No REVERB_CHECK fails; a second write is never started while one is
    outstanding, nor a second read; nothing is started after Finish, and Finish is
    not called twice. *)
Theorem C45_sample_safe tables csize limit s e : (forall t d, tables t = Some d -> 1 <= d) ->
  s_reach tables csize limit s -> s_enabled s e -> is_Some (s_step tables csize limit s e).
Proof.
  intros Ht Hr He. destruct (s_step_inv tables csize limit s e Ht (s_reach_inv _ _ _ s Ht Hr) He) as (s' & E & _). by exists s'.
Qed.

(** As long as the reactor is not finished the message being written is the front
    of the queue, as it was when the write was started; no write is outstanding
    iff the queue is empty. *)
Theorem C45_sample_in_flight_partial tables csize limit s : (forall t d, tables t = Some d -> 1 <= d) ->
  s_reach tables csize limit s -> b_finished (s_base s) = false -> head (b_queue (s_base s)) = g_write (s_base s).
Proof. intros Ht Hr Hf. symmetry. by apply (v_write s (s_reach_inv _ _ _ s Ht Hr)). Qed.

(** Once finished, always finished; the status is the one of the only Finish and
    no message is written any more. *)
Theorem C45_sample_once tables csize limit s e s' : (forall t d, tables t = Some d -> 1 <= d) ->
  s_reach tables csize limit s -> s_step tables csize limit s e = Some s' -> b_finished (s_base s) = true ->
  b_finished (s_base s') = true /\ g_status (s_base s') = g_status (s_base s) /\ g_sent (s_base s') = g_sent (s_base s).
Proof.
  intros Ht Hr Hs Hf. destruct s as [[q sr fin can rd wr sent st] cur flex fet req w ask tl mr del tot]. cbn in Hf. subst fin.
  destruct e as [r|ok| |r| |]; cbn in Hs.
  - unfold on_read_done in Hs. cbn in Hs. rewrite orb_true_r in Hs. unfold should_finish in Hs. cbn in Hs. rewrite andb_false_r in Hs. cbn in Hs.
    by injection Hs as <-.
  - by injection Hs as <-.
  - injection Hs as <-. by rewrite !(proj1 (mss_base _)).
  - destruct r as [l|]; [|by injection Hs as <-]. destruct (process_samples _ _ _ _ _ _) as [q' cur'].
    unfold maybe_send, with_queue in Hs. cbn in Hs.
    destruct (match q with [] => true | _ => false end); cbn in Hs; [destruct q'; cbn in Hs|]; (destruct (negb _); injection Hs as <-; [by rewrite !(proj1 (mss_base _))|done]).
  - unfold maybe_start_read in Hs. cbn in Hs. rewrite andb_false_r in Hs. by injection Hs as <-.
  - by injection Hs as <-.
Qed.

Lemma all_sent s : s_inv s -> b_queue (s_base s) = [] -> b_finished (s_base s) = false ->
  fetch_request (length (s_delivered s)) [] [] (g_sent (s_base s)) = FDone (as_sample_local <$> s_delivered s) [].
Proof.
  intros Hi Hq Hf. destruct (v_content s Hi) as (gs & C1 & C2). rewrite Hf, Hq in C2. cbn in C2. rewrite app_nil_r in C2.
  apply (C42_client (s_delivered s) gs); [apply Hi|done|done|apply Hi].
Qed.

(** Finished with OK: no write is outstanding and the messages written make up
    all samples that the table returned. *)
Theorem C45_sample_status tables csize limit s e s' : (forall t d, tables t = Some d -> 1 <= d) ->
  s_reach tables csize limit s -> s_enabled s e -> s_step tables csize limit s e = Some s' ->
  b_finished (s_base s) = false -> g_status (s_base s') = Some true ->
  g_write (s_base s') = None /\
  fetch_request (length (s_delivered s')) [] [] (g_sent (s_base s')) = FDone (as_sample_local <$> s_delivered s') [].
Proof.
  intros Ht Hr He Hs Hf Hst. assert (Hi := s_reach_inv _ _ _ s Ht Hr). assert (HA := all_sent s Hi). assert (Hw := v_write s Hi Hf).
  assert (HS := v_status s Hi). rewrite Hf in HS. assert (HQ := v_content s Hi). unfold s_content in HQ. rewrite Hf in HQ.
  assert (Hit := v_items s Hi). assert (Hsn := v_sent s Hi).
  destruct s as [[q sr fin can rd wr sent st] cur flex fet req w ask tl mr del tot]. cbn in *. subst fin st.
  destruct e as [r|ok| |r| |]; cbn in Hs.
  - unfold on_read_done in Hs. cbn in Hs. rewrite orb_false_r in Hs. destruct r as [r|]; cbn in Hs.
    + destruct (process_sample_request _ _ _) as [s2|] eqn:Ep.
      * injection Hs as <-. exfalso. unfold process_sample_request in Ep. destruct (_ <=? 0); [done|]. destruct (_ && _); [done|].
        destruct (tables (sr_table r)); [|done]. injection Ep as <-. by rewrite !(proj1 (mss_base _)) in Hst.
      * rewrite andb_false_r in Hs. cbn in Hs. by injection Hs as <-.
    + unfold should_finish in Hs. cbn in Hs. rewrite andb_true_r in Hs. destruct q; cbn in Hs; injection Hs as <-; [|done]. cbn in *.
      split; [done|]. by apply HA.
  - unfold on_write_done in Hs. cbn in Hs. destruct ok; cbn in Hs; [|rewrite andb_false_r in Hs; cbn in Hs; by injection Hs as <-].
    destruct (negb sr && _) eqn:Eg; cbn in Hs.
    + apply andb_true_iff in Eg as [_ Eg]. destruct q as [|m q]; [done|]. cbn in *. destruct q; [|done].
      injection Hs as <-. cbn in *. split; [done|]. destruct HQ as (gs & C1 & C2). rewrite app_nil_r in C2.
      apply (C42_client del gs); done.
    + unfold maybe_send in Hs. cbn in Hs. destruct (tail q); cbn in Hs; injection Hs as <-; done.
  - injection Hs as <-. by rewrite !(proj1 (mss_base _)) in Hst.
  - destruct r as [l|]; [|cbn in Hs; rewrite andb_false_r in Hs; cbn in Hs; by injection Hs as <-].
    destruct (process_samples _ _ _ _ _ _) as [q' cur'].
    unfold maybe_send, with_queue in Hs. cbn in Hs.
    destruct (match q with [] => true | _ => false end) eqn:Eq; cbn in Hs.
    + destruct q; [|done]. cbn in Hw. subst wr. destruct q'; cbn in Hs; (destruct (negb _); injection Hs as <-; [by rewrite !(proj1 (mss_base _)) in Hst|done]).
    + (destruct (negb _); injection Hs as <-; [by rewrite !(proj1 (mss_base _)) in Hst|done]).
  - unfold maybe_start_read in Hs. cbn in Hs. destruct (_ && _ && _); cbn in Hs; [|by injection Hs as <-].
    unfold start_read in Hs. cbn in Hs. destruct (rd || false); cbn in Hs; [done|]. by injection Hs as <-.
  - by injection Hs as <-.
Qed.

(** A stream that is not cancelled never gets stuck: as long as it is not
    finished gRPC or the table owe the reactor an answer, or one of its own
    callbacks is still running. *)
Theorem C45_sample_progress tables csize limit s : (forall t d, tables t = Some d -> 1 <= d) ->
  s_reach tables csize limit s -> b_finished (s_base s) = false -> b_cancelled (s_base s) = false ->
  g_read (s_base s) = true \/ g_write (s_base s) <> None \/ s_waiting s = true \/ s_tails s <> 0%nat \/ s_mreads s <> 0%nat.
Proof.
  intros Ht Hr Hf Hc. assert (Hi := s_reach_inv _ _ _ s Ht Hr). rewrite (v_write s Hi Hf).
  assert (HQ : b_queue (s_base s) <> [] -> head (b_queue (s_base s)) <> None) by (by destruct (b_queue (s_base s))).
  destruct (b_still_reading (s_base s)) eqn:Es; [|right; left; apply HQ; by apply (v_half s Hi)].
  destruct (decide (s_requested s = s_fetched s)) as [E|E].
  - destruct (v_done s Hi Hf Hc Es E) as [?|?]; [by left|]. by do 4 right.
  - destruct (v_live s Hi Hf Hc Es E) as [?|[?|?]]; [by do 2 right; left|right; left; by apply HQ|by do 3 right; left].
Qed.

(** Cancelled while a read, a write or a sampling request is outstanding: this
    remains so until the stream is finished; and it is finished by the next write
    if this fails, and by the next failing read if no write is outstanding. *)
Definition s_busy (s : srx) : Prop := g_read (s_base s) = true \/ g_write (s_base s) <> None \/ s_waiting s = true.

Theorem C45_sample_cancel_partial tables csize limit s e s' : (forall t d, tables t = Some d -> 1 <= d) ->
  s_reach tables csize limit s -> b_finished (s_base s) = false -> b_cancelled (s_base s) = true -> s_busy s ->
  s_enabled s e -> s_step tables csize limit s e = Some s' ->
  (b_finished (s_base s') = true \/ s_busy s') /\
  (e = SWrite false -> b_finished (s_base s') = true) /\
  (e = SRead None -> g_write (s_base s) = None -> b_finished (s_base s') = true) /\
  (e = SSampled None -> b_finished (s_base s') = true).
Proof.
  intros Ht Hr Hf Hc Hb He Hs. assert (Hi := s_reach_inv _ _ _ s Ht Hr).
  assert (Hi' : s_inv s') by (apply (s_reach_inv tables csize limit); [done|]; by apply (s_reach_step _ _ _ s e)).
  assert (Hw := v_write s Hi Hf). assert (Hsr := v_cancel s Hi Hc). unfold s_busy in *.
  destruct s as [[q sr fin can rd wr sent st] cur flex fet req w ask tl mr del tot]. cbn in Hf, Hc, Hb, Hw, Hsr. subst fin can sr.
  destruct e as [r|ok| |r| |]; cbn in Hs.
  - unfold on_read_done in Hs. cbn in Hs. rewrite orb_false_r in Hs. destruct r as [r|]; cbn in Hs.
    + split_and!; try done. destruct (process_sample_request _ _ _) as [s2|] eqn:Ep.
      * injection Hs as <-. right. unfold process_sample_request in Ep. destruct (Z.leb_spec (sr_num r) 0); [done|].
        destruct ((_ <=? 0) && _) eqn:Ef; [done|]. cbn [s_with_base s_base s_cur s_flex s_fetched s_requested s_waiting s_ask s_tails s_mreads s_delivered s_total] in Ep.
        destruct (tables (sr_table r)) as [d|] eqn:Et; [|done]. injection Ep as <-.
        match goal with |- context[maybe_start_sampling ?s0] => destruct (mss_live s0) as [H1|H1]; cbn [s_requested s_fetched s_flex] end.
        { right. destruct (Z.eqb_spec (sr_flex r) (-1)); [by apply (Ht (sr_table r))|]. rewrite andb_true_r in Ef. apply Z.leb_gt in Ef. lia. }
        { lia. } { lia. } { by right; right. }
        right; left. rewrite (v_write _ Hi').
        { by destruct (b_queue (s_base (maybe_start_sampling _))). }
        { by rewrite (proj1 (mss_base _)). }
      * rewrite andb_false_r in Hs. cbn in Hs. injection Hs as <-. by left.
    + unfold should_finish in Hs. cbn in Hs. destruct q as [|m q]; cbn in Hs; injection Hs as <-; cbn.
      * split_and!; try done. by left.
      * cbn in Hw. subst wr. split_and!; try done. right. right. by left.
  - unfold on_write_done in Hs. cbn in Hs. destruct ok; cbn in Hs.
    + split_and!; try done. destruct q as [|m q]; [by cbn in He; subst wr|]. cbn in Hs. destruct q as [|m' q]; cbn in Hs; injection Hs as <-; cbn; [by left|].
      right. right. by left.
    + rewrite andb_false_r in Hs. cbn in Hs. injection Hs as <-. cbn. split_and!; try done. by left.
  - injection Hs as <-. split_and!; try done. right. rewrite !(proj1 (mss_base _)). cbn. destruct Hb as [?|[?|Hw1]]; [by left|by right; left|].
    right; right. unfold maybe_start_sampling. cbn [s_waiting]. rewrite Hw1. by case_match.
  - destruct r as [l|].
    + split_and!; try done. right. right; left. rewrite (v_write _ Hi').
      * cbn in He. destruct He as (_ & Hl & _ & Hok).
        destruct (process_samples_spec csize limit (negb match q with [] => true | _ => false end) l q cur Hok (v_queue _ Hi)) as (outs & _ & _ & _ & G4 & _).
        cbn zeta in G4. destruct (process_samples _ _ _ _ _ _) as [q' cur']. cbn [fst] in G4. specialize (G4 Hl).
        assert (Hq' : b_queue (s_base s') = q').
        { unfold maybe_send, with_queue in Hs. cbn in Hs.
          destruct (match q with [] => true | _ => false end) eqn:Eq; cbn in Hs.
          - destruct q; [|done]. cbn in Hw. subst wr. destruct q'; cbn in Hs; (destruct (negb _); injection Hs as <-; [by rewrite !(proj1 (mss_base _))|done]).
          - (destruct (negb _); injection Hs as <-; [by rewrite !(proj1 (mss_base _))|done]). }
        rewrite Hq'. by destruct q'.
      * destruct (process_samples _ _ _ _ _ _) as [q' cur']. unfold maybe_send, with_queue in Hs. cbn in Hs.
        destruct (match q with [] => true | _ => false end) eqn:Eq; cbn in Hs.
        -- destruct q; [|done]. cbn in Hw. subst wr. destruct q'; cbn in Hs; (destruct (negb _); injection Hs as <-; [by rewrite !(proj1 (mss_base _))|done]).
        -- (destruct (negb _); injection Hs as <-; [by rewrite !(proj1 (mss_base _))|done]).
    + cbn in Hs. rewrite andb_false_r in Hs. cbn in Hs. injection Hs as <-. cbn. split_and!; try done. by left.
  - unfold maybe_start_read in Hs. cbn in Hs. injection Hs as <-. cbn. split_and!; try done. by right.
  - injection Hs as <-. cbn. split_and!; try done. by right.
Qed.

(** ** C42 for the asynchronous service *)

(** In whatever order reads, writes and sampling finish: whenever all messages
    are written, the client has received exactly the samples that the table
    returned. *)
Theorem C42_async tables csize limit s : (forall t d, tables t = Some d -> 1 <= d) ->
  s_reach tables csize limit s -> b_finished (s_base s) = false -> b_queue (s_base s) = [] ->
  fetch_request (length (s_delivered s)) [] [] (g_sent (s_base s)) = FDone (as_sample_local <$> s_delivered s) [].
Proof. intros Ht Hr Hf Hq. apply all_sent; [|done|done]. by apply (s_reach_inv tables csize limit). Qed.

(** At any time the messages written are the beginning of the ones that carry the
    samples, and none is empty. *)
Theorem C42_async_prefix tables csize limit s : (forall t d, tables t = Some d -> 1 <= d) ->
  s_reach tables csize limit s ->
  exists gs rest, Forall2 carries gs (s_delivered s) /\ concat (g_sent (s_base s)) ++ rest = concat gs /\
    Forall (fun r : response => r <> []) (g_sent (s_base s)).
Proof.
  intros Ht Hr. assert (Hi := s_reach_inv _ _ _ s Ht Hr). destruct (v_content s Hi) as (gs & C1 & C2).
  destruct (b_finished (s_base s)).
  - destruct C2 as [rest C2]. exists gs, rest. split; [done|]. split; [done|]. apply Hi.
  - exists gs, (concat (tail (b_queue (s_base s)))). split; [done|]. split; [by rewrite <- concat_app|]. apply Hi.
Qed.

(** The reactor never takes more samples than the requests asked for, and reads
    the next request only when it has all of them. *)
Theorem C42_async_count tables csize limit s : (forall t d, tables t = Some d -> 1 <= d) ->
  s_reach tables csize limit s ->
  Z.of_nat (length (s_delivered s)) <= s_total s /\ (g_read (s_base s) = true -> Z.of_nat (length (s_delivered s)) = s_total s).
Proof.
  intros Ht Hr. assert (Hi := s_reach_inv _ _ _ s Ht Hr). assert (H1 := v_total s Hi). assert (H2 := v_fetched s Hi).
  split; [lia|]. intros H. assert (s_requested s = s_fetched s) by (apply (v_idle s Hi); by left). lia.
Qed.

(** ** Examples and refutations *)

Definition ex_tables (t : Z) : option Z := if t =? 1 then Some 1 else None.
Definition ex_tensor (l : list Z) : tensor := mkTensor (TInt 32 true) [length l] l.
Definition ex_chunk (k : Z) (l : list Z) : kchunk := mkKchunk k (mkChunkData [ex_tensor l] false).
Definition ex_item1 : sampled_item :=
  mkSampled (mkSinfo (mkMeta 7 1 1 (Fin 1) false) [[mkSlice 11 0 2 0; mkSlice 12 1 2 0]] [false]) [ex_chunk 11 [1; 2]; ex_chunk 12 [3; 4; 5]].

Global Instance item_ok_dec x : Decision (item_ok x).
Proof. unfold item_ok. apply _. Defined.
Global Instance s_enabled_dec s e : Decision (s_enabled s e).
Proof. unfold s_enabled. destruct e as [r|ok| |[l|]| |]; apply _. Defined.

Fixpoint s_run (tables : Z -> option Z) (csize : kchunk -> Z) (limit : Z) (s : srx) (es : list sevent) : option srx :=
  match es with
  | [] => Some s
  | e :: es => if decide (s_enabled s e) then s ← s_step tables csize limit s e; s_run tables csize limit s es else None
  end.
Lemma s_run_reach tables csize limit s es s' : s_reach tables csize limit s -> s_run tables csize limit s es = Some s' -> s_reach tables csize limit s'.
Proof.
  revert s. induction es as [|e es IH]; intros s Hr; cbn [s_run]; [by intros [= <-]|]. case_decide as He; [|done].
  destruct (s_step tables csize limit s e) as [s2|] eqn:E; [|done]. cbn [mbind option_bind]. apply IH. by apply (s_reach_step _ _ _ s e).
Qed.
Definition s_start : srx := mkSrx (mkBase [] true false false true None [] None) 0 0 0 0 false 0 0 0 [] 0.
Lemma s_start_reach tables csize limit : s_reach tables csize limit s_start.
Proof. by apply s_reach_init. Qed.

Definition ex_item2 : sampled_item :=
  mkSampled (mkSinfo (mkMeta 8 (1 # 2) 2 (Fin 1) true) [[mkSlice 12 0 1 0]; [mkSlice 12 1 2 0]] [false; false]) [ex_chunk 12 [3; 4; 5]].
Definition ex_size (c : kchunk) : Z := Z.of_nat (length (cd_tensors (kc_data c))) * 600.

Example ex_tables_ok t d : ex_tables t = Some d -> 1 <= d.
Proof. unfold ex_tables. case_match; [intros [= <-]; lia|done]. Qed.
Example ex_items_ok : item_ok ex_item1 /\ item_ok ex_item2.
Proof. split; (split; [by vm_compute|done]). Qed.

(** Two samples, the first one split over two messages; the second sample comes in
    while the first message is being written. *)
Definition ex_run : list sevent :=
  [SRead (Some (mkSreq 1 2 (-1))); SSampled (Some [ex_item1]); SSampled (Some [ex_item2]); SMaybeRead; SWrite true; STail; SWrite true; SWrite true].
Example C42_async_example : exists s, s_run ex_tables ex_size 500 s_start ex_run = Some s /\
  b_finished (s_base s) = false /\ b_queue (s_base s) = [] /\ length (g_sent (s_base s)) = 3%nat /\ s_delivered s = [ex_item1; ex_item2] /\
  fetch_request 2 [] [] (g_sent (s_base s)) = FDone (as_sample_local <$> [ex_item1; ex_item2]) [] /\
  exists x, as_sample_local ex_item1 = AOk x.
Proof. eexists. split; [by vm_compute|]. cbn. split_and!; try by vm_compute. eexists. by vm_compute. Qed.
Example C42_sync_example : length (concat (sync_split (fun e => Z.of_nat (length (e_data e)) * 600) 500 <$> [ex_item1; ex_item2])) = 3%nat.
Proof. by vm_compute. Qed.

(** An example of a run that ends with OK. *)
Example C45_sample_status_example : exists s, s_run ex_tables ex_size 500 s_start (ex_run ++ [STail; STail; SRead None]) = Some s /\
  g_status (s_base s) = Some true.
Proof. eexists. split; by vm_compute. Qed.

(** The message being written can be freed: the table answers the next sampling
    request with an error (for example a timeout) while the first sample is being
    written; SetReactorAsFinished then clears the queue. *)
Theorem C45_sample_in_flight_refuted : exists s m, s_reach ex_tables ex_size 500 s /\ g_write (s_base s) = Some m /\ b_queue (s_base s) = [].
Proof.
  destruct (s_run ex_tables ex_size 500 s_start [SRead (Some (mkSreq 1 2 1)); SSampled (Some [ex_item2]); SSampled None]) as [s|] eqn:E; [|by vm_compute in E].
  eexists s, _. split; [apply (s_run_reach _ _ _ _ _ _ (s_start_reach _ _ _) E)|]. vm_compute in E. injection E as <-. split; [done|]. done.
Qed.

(** A cancelled stream need not be finished, ever: the cancellation arrives after
    the last write and before the sampling callback, having left its critical
    section, asks for the next read.  Then nothing is outstanding. *)
Theorem C45_sample_cancel_refuted : exists s, s_reach ex_tables ex_size 500 s /\ b_cancelled (s_base s) = true /\ b_finished (s_base s) = false /\
  forall e s', s_enabled s e -> s_step ex_tables ex_size 500 s e = Some s' -> s' = s.
Proof.
  destruct (s_run ex_tables ex_size 500 s_start [SRead (Some (mkSreq 1 1 1)); SSampled (Some [ex_item2]); SWrite true; STail; SCancel; SMaybeRead]) as [s|] eqn:E; [|by vm_compute in E].
  exists s. split; [apply (s_run_reach _ _ _ _ _ _ (s_start_reach _ _ _) E)|]. vm_compute in E. injection E as <-. split; [done|]. split; [done|].
  intros e s' He Hs. destruct e as [r|ok| |[l|]| |]; cbn in He; try done; [by destruct He|]. by injection Hs as <-.
Qed.

(** ** C54 *)

(** A sampling request is enqueued although the stream is already finished: the
    write of the first sample fails while the second one is being sampled; when it
    arrives, the reactor asks for the third. *)
Theorem C54_refuted : exists s e s', s_reach ex_tables ex_size 500 s /\ s_enabled s e /\ s_step ex_tables ex_size 500 s e = Some s' /\
  b_finished (s_base s) = true /\ s_waiting s' = true /\ s_fetched s' = 2 /\ g_sent (s_base s') = g_sent (s_base s) /\ length (g_sent (s_base s)) = 1%nat.
Proof.
  destruct (s_run ex_tables ex_size 500 s_start [SRead (Some (mkSreq 1 3 1)); SSampled (Some [ex_item2]); SWrite false]) as [s|] eqn:E; [|by vm_compute in E].
  exists s, (SSampled (Some [ex_item1])).
  destruct (s_step ex_tables ex_size 500 s (SSampled (Some [ex_item1]))) as [s'|] eqn:E2; [|vm_compute in E; injection E as <-; by vm_compute in E2].
  exists s'. split; [apply (s_run_reach _ _ _ _ _ _ (s_start_reach _ _ _) E)|]. vm_compute in E. injection E as <-. vm_compute in E2. injection E2 as <-.
  split_and!; try done. cbn. split_and!; try done. constructor; [apply ex_items_ok|constructor].
Qed.

(** What holds: an error answer of the table ends it, and never more samples are
    taken than the client asked for ([C42_async_count]). *)
Theorem C54_partial tables csize limit s e s' : (forall t d, tables t = Some d -> 1 <= d) ->
  s_reach tables csize limit s -> s_enabled s e -> s_step tables csize limit s e = Some s' ->
  Z.of_nat (length (s_delivered s')) <= s_total s' /\
  (b_finished (s_base s) = true -> s_total s' = s_total s /\ (s_requested s = s_fetched s -> s_delivered s' = s_delivered s)).
Proof.
  intros Ht Hr He Hs. split; [apply (C42_async_count tables csize limit); [done|]; by apply (s_reach_step _ _ _ s e)|].
  intros Hf. assert (Hi := s_reach_inv _ _ _ s Ht Hr). assert (Hw := v_wait s Hi).
  destruct s as [[q sr fin can rd wr sent st] cur flex fet req w ask tl mr del tot]. cbn in Hf, Hw. subst fin.
  destruct e as [r|ok| |r| |]; cbn in Hs.
  - unfold on_read_done in Hs. cbn in Hs. rewrite orb_true_r in Hs. unfold should_finish in Hs. cbn in Hs. rewrite andb_false_r in Hs. cbn in Hs.
    by injection Hs as <-.
  - by injection Hs as <-.
  - injection Hs as <-. by destruct (mss_base (mkSrx (mkBase q sr true can rd wr sent st) cur flex fet req w ask (Init.Nat.pred tl) mr del tot)) as (? & -> & _ & _ & _ & _ & _ & ->).
  - destruct r as [l|]; [|by injection Hs as <-]. cbn in He. destruct He as (-> & Hl & _). specialize (Hw eq_refl).
    destruct (process_samples _ _ _ _ _ _) as [q' cur']. cbn [s_requested s_fetched]. split; [|lia].
    unfold maybe_send, with_queue in Hs. cbn in Hs.
    destruct (match q with [] => true | _ => false end); cbn in Hs; [destruct q'; cbn in Hs|];
      (destruct (negb _); injection Hs as <-; [|done]); match goal with |- context[maybe_start_sampling ?x] => by destruct (mss_base x) as (_ & _ & _ & _ & _ & _ & _ & ->) end.
  - unfold maybe_start_read in Hs. cbn in Hs. rewrite andb_false_r in Hs. by injection Hs as <-.
  - by injection Hs as <-.
Qed.

Print Assumptions C42_client.
Print Assumptions C42_sync.
Print Assumptions C42_async.
Print Assumptions C42_async_prefix.
Print Assumptions C42_async_count.
Print Assumptions C45_sample_safe.
Print Assumptions C45_sample_in_flight_partial.
Print Assumptions C45_sample_once.
Print Assumptions C45_sample_status.
Print Assumptions C45_sample_progress.
Print Assumptions C45_sample_cancel_partial.
Print Assumptions C45_sample_in_flight_refuted.
Print Assumptions C45_sample_cancel_refuted.
Print Assumptions C54_refuted.
Print Assumptions C54_partial.
