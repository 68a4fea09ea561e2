(** C44: when the timesteps of a sample can be had one by one. *)
From Verif Require Import Base Trajectory Tensor TrajUtil Sample PropSample.
Local Open Scope Z_scope.

Lemma composed_equal cols : forall prev, composed_from prev cols = true -> 0 <= prev -> Forall (fun c => col_length c = prev) cols.
Proof.
  induction cols as [|c cols IH]; intros prev H Hp; [constructor|]. cbn [composed_from] in H.
  destruct (Z.eqb_spec prev (-1)); [lia|]. destruct (Z.eqb_spec prev (col_length c)) as [E|]; [|done]. cbn [negb andb] in H. constructor; [done|]. rewrite <- E in H. by apply IH.
Qed.
(** The rows of the pieces that are left, counted whole. *)
Definition total (q : list (nat * nat)) : nat := list_sum (fst <$> q).
Lemma col_length_total col : col_length col = Z.of_nat (total (sig col)).
Proof.
  rewrite col_length_sig. unfold total. generalize (sig col) as q. intros q.
  assert (G : forall a, foldl Z.add a ((fun p : nat * nat => Z.of_nat (fst p)) <$> q) = a + Z.of_nat (list_sum (fst <$> q))); [|by rewrite G].
  induction q as [|x q IH]; intros a; [cbn; lia|]. rewrite !fmap_cons. cbn [foldl]. rewrite IH. unfold list_sum. cbn [foldr]. lia.
Qed.
Lemma composed_total s : is_composed_of_timesteps s = true -> exists n, Forall (fun c => total (sig c) = n) (s_cols s).
Proof.
  unfold is_composed_of_timesteps. destruct (s_cols s) as [|c cols]; [by exists 0%nat|]. cbn [composed_from]. cbn [Z.eqb negb andb]. intros H. exists (total (sig c)).
  apply composed_equal in H; [|rewrite col_length_total; lia]. constructor; [done|]. eapply Forall_impl; [exact H|]. cbn. intros c' Hc. rewrite !col_length_total in Hc. lia.
Qed.

(** A column of which [o] rows of the first piece have been handed out. *)
Definition col_at (o : nat) (col : list (tensor * nat)) : Prop :=
  exists d ds, sig col = (d, o) :: ((fun x => (x, 0%nat)) <$> ds) /\ (o < d)%nat /\ Forall (fun x => (1 <= x)%nat) ds.
Lemma next_timestep_inv s d last s' : sampler_next_timestep s = TSOk d last s' ->
  is_composed_of_timesteps s = true /\ last = is_end_of_sample s' /\ exists rs, step_cols (s_cols s) = Some (rs, s_cols s').
Proof.
  unfold sampler_next_timestep, get_next_timestep. destruct (is_composed_of_timesteps s); cbn [negb]; [|done]. destruct (is_end_of_sample s); [done|]. cbn [negb].
  destruct (step_cols (s_cols s)) as [[rs cols]|]; [|done]. cbn [mbind option_bind fst snd]. intros [= <- <- <-]. split; [done|]. split; [done|]. by exists rs.
Qed.
Lemma step_cols_each cols : forall rs cols', step_cols cols = Some (rs, cols') -> Forall2 (fun c c' => sig c' = sig_step (sig c)) cols cols'.
Proof.
  induction cols as [|c cols IH]; intros rs cols'; cbn [step_cols]; [intros [= <- <-]; constructor|]. destruct (step_col c) as [[r c']|] eqn:E; [|done]. cbn [mbind option_bind].
  destruct (step_cols cols) as [[rs' cols1]|]; [|done]. cbn [mbind option_bind fst snd]. intros [= <- <-]. constructor; [by eapply sig_step_col|by eapply IH].
Qed.
Lemma sig_nil col : sig col = [] -> col = [].
Proof. by destruct col. Qed.
Lemma total_zeros ds : total ((fun x => (x, 0%nat)) <$> ds) = list_sum ds.
Proof. unfold total. rewrite <- list_fmap_compose. f_equal. by apply list_fmap_id. Qed.

Lemma timesteps_split s outs : timesteps s outs -> forall o, Forall (col_at o) (s_cols s) -> exists q, Forall (fun c => sig c = q) (s_cols s).
Proof.
  induction 1 as [s d s' H|s d s' ds H HT IH]; intros o HA; apply next_timestep_inv in H as (Hcs & He & rs & Hs); apply step_cols_each in Hs.
  - exists [(S o, o)]. symmetry in He. unfold is_end_of_sample in He. rewrite forallb_forall in He. apply Forall_lookup. intros i c Hi. destruct (Forall2_lookup_l _ _ _ _ _ Hs Hi) as (c' & Hi' & Hc').
    assert (c' = []) as ->. { specialize (He c' (proj1 (elem_of_list_In _ _) (elem_of_list_lookup_2 _ _ _ Hi'))). by destruct c'. }
    eapply Forall_lookup_1 in HA as (n & l & E & Hn & _); [|exact Hi]. rewrite E in *. cbn in Hc'. destruct (Nat.eqb_spec (match n with O => O | S m => m end) o); destruct n as [|n]; try lia; cbn in Hc'.
    + subst n. rewrite Nat.eqb_refl in Hc'. destruct l; [done|discriminate Hc'].
    + destruct (Nat.eqb_spec o n); [by subst|discriminate Hc'].
  - (* The next call needs columns with equal totals. *)
    assert (Hc : is_composed_of_timesteps s' = true) by (destruct HT as [? ? ? X|? ? ? ? X]; by apply next_timestep_inv in X as (? & _)).
    apply composed_total in Hcs as [n Hn]. apply composed_total in Hc as [n' Hn'].
    assert (HX : forall i c c', s_cols s !! i = Some c -> s_cols s' !! i = Some c' -> exists m l, sig c = (m, o) :: ((fun x => (x, 0%nat)) <$> l) /\ (o < m)%nat /\ Forall (fun x => (1 <= x)%nat) l /\ (m + list_sum l)%nat = n /\
      ((m = S o /\ sig c' = (fun x => (x, 0%nat)) <$> l /\ list_sum l = n') \/ (m <> S o /\ sig c' = (m, S o) :: ((fun x => (x, 0%nat)) <$> l) /\ n' = n))).
    { intros i c c' Hi Hi'. eapply Forall_lookup_1 in HA as (m & l & E & Hm & Hl); [|exact Hi]. eapply Forall_lookup_1 in Hn as En; [|exact Hi]. eapply Forall_lookup_1 in Hn' as En'; [|exact Hi']. cbn in En, En'.
      pose proof (Forall2_lookup_lr _ _ _ _ _ _ Hs Hi Hi') as Hc'. cbn in Hc'. rewrite E in En, Hc'. exists m, l. unfold total in En. rewrite fmap_cons in En. unfold list_sum in En. cbn [foldr fst] in En. change (m + total ((fun x => (x, 0%nat)) <$> l) = n)%nat in En. rewrite total_zeros in En.
      split; [done|]. split; [done|]. split; [done|]. split; [done|]. cbn [sig_step] in Hc'. destruct (Nat.eqb_spec (S o) m) as [Em|Em]; [left|right].
      - split; [done|]. split; [done|]. by rewrite Hc', total_zeros in En'.
      - split; [done|]. split; [done|]. rewrite Hc' in En'. unfold total in En'. rewrite fmap_cons in En'. unfold list_sum in En'. cbn [foldr fst] in En'. change (m + total ((fun x => (x, 0%nat)) <$> l) = n')%nat in En'. rewrite total_zeros in En'. congruence. }
    pose proof (Forall2_length _ _ _ Hs) as HL.
    assert (HY : forall i c, s_cols s !! i = Some c -> exists c', s_cols s' !! i = Some c') by (intros i c Hi; destruct (Forall2_lookup_l _ _ _ _ _ Hs Hi) as (c' & ? & _); by exists c').
    assert (HZ : forall i c', s_cols s' !! i = Some c' -> exists c, s_cols s !! i = Some c) by (intros i c Hi; destruct (Forall2_lookup_r _ _ _ _ _ Hs Hi) as (c' & ? & _); by exists c').
    destruct (decide (n' = n)) as [Enn|Enn].
    + (* No piece has come to its end. *)
      destruct (IH (S o)) as [q Hq].
      { apply Forall_lookup. intros i c' Hi'. destruct (HZ _ _ Hi') as [c Hi]. destruct (HX i c c' Hi Hi') as (m & l & _ & Hm & Hl & Hs' & [(-> & _ & ?)|(Hne & E' & _)]); [lia|]. exists m, l. split; [done|]. split; [lia|done]. }
      exists (match q with (m, _) :: z => (m, o) :: z | [] => [] end). apply Forall_lookup. intros i c Hi. destruct (HY _ _ Hi) as [c' Hi']. destruct (HX i c c' Hi Hi') as (m & l & E & Hm & Hl & Hs' & [(-> & _ & ?)|(Hne & E' & _)]); [lia|].
      eapply Forall_lookup_1 in Hq; [|exact Hi']. cbn in Hq. rewrite E, <- Hq, E'. done.
    + (* All of them have. *)
      assert (HN : n' <> 0%nat).
      { intros ->. symmetry in He. assert (is_end_of_sample s' = true) as X; [|congruence]. unfold is_end_of_sample. apply forallb_forall. intros c' Hc'%elem_of_list_In. apply elem_of_list_lookup in Hc' as [i Hi']. destruct (HZ _ _ Hi') as [c Hi].
        destruct (HX i c c' Hi Hi') as (m & l & _ & Hm & Hl & Hs' & [(-> & E' & Hz)|(Hne & E' & ?)]); [|done]. destruct l as [|x l]; [by apply sig_nil in E' as ->|]. apply Forall_cons in Hl as [Hx _]. unfold list_sum in Hz. cbn [foldr] in Hz. lia. }
      destruct (IH 0%nat) as [q Hq].
      { apply Forall_lookup. intros i c' Hi'. destruct (HZ _ _ Hi') as [c Hi]. destruct (HX i c c' Hi Hi') as (m & l & _ & Hm & Hl & Hs' & [(-> & E' & Hz)|(Hne & E' & ?)]); [|done]. destruct l as [|x l]; [cbn in Hz; lia|]. apply Forall_cons in Hl as [Hx Hl]. by exists x, l. }
      exists ((S o, o) :: q). apply Forall_lookup. intros i c Hi. destruct (HY _ _ Hi) as [c' Hi']. destruct (HX i c c' Hi Hi') as (m & l & E & Hm & Hl & Hs' & [(-> & E' & Hz)|(Hne & E' & ?)]); [|done].
      eapply Forall_lookup_1 in Hq; [|exact Hi']. cbn in Hq. rewrite E, <- Hq, E'. done.
Qed.

(** The timesteps of a sample can be had one by one exactly if all its columns are divided
    into pieces alike. *)
Theorem C44_timesteps_exact m cols sq s : cols <> [] -> Forall column_ok cols -> make_sample m cols sq = Some s ->
  (exists outs, timesteps s outs) <-> exists ds, same_split ds cols.
Proof.
  intros Hne HF Hm. assert (HC : s_cols s = fresh_col <$> cols).
  { unfold make_sample in Hm. destruct cols as [|[|t ts] cols]; [done|done|]. cbn zeta in Hm. by destruct (is_composed_of_timesteps _); injection Hm as <-. }
  split.
  - intros [outs H]. destruct (timesteps_split s outs H 0%nat) as [q Hq].
    + rewrite HC. apply Forall_fmap. eapply Forall_impl; [exact HF|]. intros ts (Ht & ty & sh & Hts). cbn. destruct ts as [|t ts]; [done|]. exists (dim0 t), (dim0 <$> ts). unfold sig, fresh_col. rewrite !fmap_cons, <- !list_fmap_compose. split; [done|].
      apply Forall_cons in Hts as [(_ & _ & d & Hd & Hd1) Hts]. split; [unfold dim0; rewrite Hd; lia|]. apply Forall_fmap. eapply Forall_impl; [exact Hts|]. intros u (_ & _ & d' & Hd' & Hd1'). cbn. unfold dim0. rewrite Hd'. done.
    + exists (fst <$> q). rewrite HC in Hq. rewrite Forall_fmap in Hq. eapply Forall_impl; [exact Hq|]. intros ts Hts. cbn in Hts. rewrite <- Hts. unfold sig, fresh_col. rewrite <- !list_fmap_compose. done.
  - intros [ds Hds]. destruct (C44_timesteps_partial m cols sq ds Hne HF Hds) as (s' & bs & outs & E & _ & _ & HT & _). rewrite Hm in E. injection E as <-. by exists outs.
Qed.

(** Both sides: the columns of C44_example and those of C44_timesteps_refuted. *)
Example C44_exact_example : let m := mkMeta 1 1 1 (Fin 1) false in
  (exists s, make_sample m even [] = Some s /\ exists outs, timesteps s outs) /\ (exists s, make_sample m uneven [] = Some s /\ ~ exists outs, timesteps s outs).
Proof.
  intros m. destruct C44_example as (E1 & E2 & E3). split.
  - destruct (C44_timesteps_partial m even [] _ E1 E2 E3) as (s & bs & outs & E & _ & _ & HT & _). exists s. split; [done|]. by exists outs.
  - eexists. split; [reflexivity|]. intros H. apply (C44_timesteps_exact m uneven []) in H as [ds Hds]; [|done| |reflexivity].
    + apply Forall_cons in Hds as [H1 Hds]. apply Forall_cons in Hds as [H2 _]. cbn in H1, H2. congruence.
    + repeat constructor; try done; [exists (TInt 32 true), []; repeat constructor; cbn; try lia; by eexists; split; [done|lia]|
        exists (TInt 32 true), []; repeat constructor; cbn; try lia; by eexists; split; [done|lia]].
Qed.

Print Assumptions C44_timesteps_exact.
