(** C71: the elements of the TensorFlow datasets. *)
From Verif Require Import Base Trajectory Tensor Signature TrajUtil Sample Chunker TrajWriter SigCheck PropSample PropChunker PropTrajWriter PropSigCheck Dataset.
Local Open Scope Z_scope.

(** ** Specification *)

(** The first timesteps of a sample, none of which is the last one. *)
Inductive begins : sample -> list (meta * list tensor) -> Prop :=
| bg_nil s : begins s []
| bg_cons s d s' ds : sampler_next_timestep s = TSOk d false s' -> begins s' ds -> begins s (d :: ds).

(** Datasets that emit timesteps, and the length that the items have to have, if any. *)
Definition emits_steps (k : dkind) : Prop := match k with DTimestep | DReverb _ true => True | _ => False end.
Definition length_ok (k : dkind) (n : nat) : Prop := match k with DReverb l _ => 0 < l -> Z.of_nat n = l | _ => True end.
Definition length_below (k : dkind) (n : nat) : Prop := match k with DReverb l _ => 0 < l -> Z.of_nat n < l | _ => True end.

(** The elements [ds] are the items [os] of the samples [ss], which were taken by the
    calls that begin an item, followed by a part of one more. *)
Definition in_items (k : dkind) (cs : list call) (ds : list (meta * list tensor)) (ss : list sample) (os : list (list (meta * list tensor))) (part : list (meta * list tensor)) : Prop :=
  ds = concat os ++ part /\ Forall2 timesteps ss os /\
  (forall i s, ss !! i = Some s -> k_pop <$> cs !! length (concat (take i os)) = Some (PSample s)) /\
  (part = [] \/ exists s, k_pop <$> cs !! length (concat os) = Some (PSample s) /\ begins s part) /\
  Forall (fun o => length_ok k (length o)) os /\ length_below k (length part).

Definition step_out (d : meta * list tensor) : out := OElem (EStep d).

(** A timestep fits the specification of the Sampler. *)
Definition fits (spec : outspec) (d : meta * list tensor) : Prop :=
  match spec with None => True | Some sp => length sp = (4 + length (snd d))%nat /\ Forall2 conforms (drop 4 sp) (snd d) end.

(** ** Runs *)

Lemma it_run_app k spec f it cs1 cs2 : it_run k spec f it (cs1 ++ cs2) =
  let '(o1, it1) := it_run k spec f it cs1 in let '(o2, it2) := it_run k spec f it1 cs2 in (o1 ++ o2, it2).
Proof.
  revert it. induction cs1 as [|c cs1 IH]; intros it; cbn [it_run app]; [by destruct (it_run k spec f it cs2)|].
  destruct (get_next k spec f it c) as [o it1]. rewrite IH. destruct (it_run k spec f it1 cs1) as [o1 it2]. by destruct (it_run k spec f it2 cs2).
Qed.
Lemma it_run_length k spec f it cs : length (it_run k spec f it cs).1 = length cs.
Proof.
  revert it. induction cs as [|c cs IH]; intros it; cbn [it_run]; [done|]. destruct (get_next k spec f it c) as [o it1]. specialize (IH it1). destruct (it_run k spec f it1 cs). cbn in *. by rewrite IH.
Qed.

(** Where an iterator is that has not reported anything but elements. *)
Definition between (it : iter) : Prop := match i_active it with Some s => is_end_of_sample s = true | None => True end.
Inductive reaches : sample -> list (meta * list tensor) -> sample -> Prop :=
| rs_nil s : reaches s [] s
| rs_snoc s ds s' d s'' : reaches s ds s' -> sampler_next_timestep s' = TSOk d false s'' -> reaches s (ds ++ [d]) s''.
Lemma reaches_begins s ds s' : reaches s ds s' -> forall es, begins s' es -> begins s (ds ++ es).
Proof. induction 1 as [s|s ds s1 d s2 H IH E]; intros es He; [done|]. rewrite <- app_assoc. apply IH. by econstructor. Qed.
Lemma reaches_timesteps s ds s' : reaches s ds s' -> forall es, timesteps s' es -> timesteps s (ds ++ es).
Proof. induction 1 as [s|s ds s1 d s2 H IH E]; intros es He; [done|]. rewrite <- app_assoc. apply IH. by eapply ts_more. Qed.

Definition counts (k : dkind) (it : iter) (part : list (meta * list tensor)) : Prop :=
  match k with DReverb _ _ => i_step it = Z.of_nat (length part) | _ => True end.
Definition located (k : dkind) (cs : list call) (it : iter) (os : list (list (meta * list tensor))) (part : list (meta * list tensor)) : Prop :=
  counts k it part /\
  ((part = [] /\ between it) \/
   (part <> [] /\ exists s s', k_pop <$> cs !! length (concat os) = Some (PSample s) /\ reaches s part s' /\ i_active it = Some s' /\ is_end_of_sample s' = false)).

Lemma step_last s d last s' : sampler_next_timestep s = TSOk d last s' -> last = is_end_of_sample s'.
Proof. unfold sampler_next_timestep. destruct (negb _); [done|]. destruct (get_next_timestep s) as [[d1 s1]|]; [|done]. by intros [= _ <- <-]. Qed.

(** A call of the Sampler that yields a timestep. *)
Lemma sampler_step_elem spec a p d last a' : sampler_step spec a p = (LOk (EStep d) last, a') ->
  exists s s', sampler_next_timestep s = TSOk d last s' /\ a' = Some s' /\ fits spec d /\
    match a with Some s0 => if is_end_of_sample s0 then p = PSample s else s0 = s | None => p = PSample s end.
Proof.
  unfold sampler_step. intros H.
  assert (G : forall s, match get_next_step spec s with
    | GStep d last s => (LOk (EStep d) last, Some s) | GStepError s => (LFail InvalidArgument, Some s)
    | GStepInvalid => (LFail InvalidArgument, Some s) | GStepCrash => (LCrash, Some s) end = (LOk (EStep d) last, a') ->
    exists s', sampler_next_timestep s = TSOk d last s' /\ a' = Some s' /\ fits spec d).
  { intros s. unfold get_next_step. destruct (sampler_next_timestep s) as [d1 l1 s1| |] eqn:E; [|done|done].
    destruct (bool_decide_reflect (validate_output spec VTimestep (snd d1) = Ok)) as [Hv|Hv]; [|done]. intros [= <- <- <-]. exists s1. split; [done|]. split; [done|].
    destruct spec as [sp|]; [|done]. by apply (validate_iff sp VTimestep) in Hv. }
  destruct a as [s0|]; [destruct (is_end_of_sample s0)|].
  - destruct p as [s| |]; try done. destruct (G s H) as (s' & ? & ? & ?). by exists s, s'.
  - destruct (G s0 H) as (s' & ? & ? & ?). by exists s0, s'.
  - destruct p as [s| |]; try done. destruct (G s H) as (s' & ? & ? & ?). by exists s, s'.
Qed.

(** One more element. *)
Lemma get_next_elem k spec f it c d it' : emits_steps k -> get_next k spec f it c = (step_out d, it') ->
  exists last a', sampler_step spec (i_active it) (k_pop c) = (LOk (EStep d) last, a') /\ i_active it' = a' /\ k_cancel c <> CDuring /\
    match k with DReverb l _ => i_step it' = (if last then 0 else i_step it + 1) /\ (last = true -> 0 < l -> i_step it + 1 = l) /\ (last = false -> i_step it + 1 <> l) | _ => True end.
Proof.
  intros Hk. unfold get_next, step_out. destruct k as [| |l [|]]; [done| | |done]; destruct (sampler_step spec (i_active it) (k_pop c)) as [r a] eqn:E.
  - intros [= H <-]. destruct r as [e last| | |]; cbn in H; destruct (k_cancel c); try done; try (by destruct f); injection H as ->; by exists last, a.
  - destruct r as [e last| | |]; [|cbn [andb negb]; destruct (i_step it + 1 =? l); cbn; destruct (k_cancel c); try done; by destruct f..|done].
    destruct last; cbn [andb negb].
    + destruct (Z.ltb_spec 0 l); cbn [andb].
      * destruct (Z.eqb_spec (i_step it + 1) l) as [El|El]; cbn [negb andb]; [|done]. intros [= H1 <-]. cbn in H1. destruct (k_cancel c); try done; injection H1 as ->; by exists true, a.
      * rewrite andb_false_r. intros [= H1 <-]. cbn in H1. destruct (k_cancel c); try done; injection H1 as ->; exists true, a; repeat split; try done; lia.
    + rewrite andb_true_r. destruct (Z.eqb_spec (i_step it + 1) l) as [El|El]; [done|]. intros [= H1 <-]. cbn in H1. destruct (k_cancel c); try done; injection H1 as ->; by exists false, a.
Qed.

Lemma elems_run k spec f cs : emits_steps k -> forall ds it, it_run k spec f i_new cs = (step_out <$> ds, it) ->
  exists ss os part, in_items k cs ds ss os part /\ located k cs it os part.
Proof.
  intros Hk. induction cs as [|c cs IH] using rev_ind; intros ds it Hr.
  - cbn in Hr. injection Hr as Hd <-. destruct ds as [|d ds]; [|done]. exists [], [], []. split.
    + split; [done|]. split; [constructor|]. split; [done|]. split; [by left|]. split; [constructor|]. destruct k; cbn; lia.
    + split; [by destruct k|]. by left.
  - rewrite it_run_app in Hr. destruct (it_run k spec f i_new cs) as [o1 it1] eqn:E1. cbn [it_run] in Hr. destruct (get_next k spec f it1 c) as [o it2] eqn:E2. injection Hr as Ho <-.
    symmetry in Ho. apply fmap_app_inv in Ho as (ds1 & ds2 & Ho1 & Ho2 & ->). symmetry in Ho2. destruct ds2 as [|d [|? ?]]; [done| |done]. change (step_out <$> [d]) with [step_out d] in Ho2. assert (o = step_out d) as -> by congruence. clear Ho2. subst o1.
    destruct (IH _ _ eq_refl) as (ss & os & part & (-> & Hss & Hpos & Hpart & Hlen & Hbel) & Hcnt & Hloc). clear IH.
    assert (Hlcs : length cs = length (concat os ++ part)). { rewrite <- (it_run_length k spec f i_new cs), E1. cbn. by rewrite fmap_length. }
    destruct (get_next_elem k spec f it1 c d it2 Hk E2) as (last & a' & Hs & Ha & _ & Hst).
    destruct (sampler_step_elem _ _ _ _ _ _ Hs) as (s & s' & Hn & -> & _ & Hcur). clear Hs E2. pose proof (step_last _ _ _ _ Hn) as Hl.
    (* the sample of the current item *)
    assert (exists s0, k_pop <$> (cs ++ [c]) !! length (concat os) = Some (PSample s0) /\ reaches s0 part s) as (s0 & Hs0 & Hr0).
    { destruct Hloc as [[-> Hbt]|(Hne & s0 & s1 & Hp0 & Hr0 & Ha1 & He1)].
      - rewrite app_nil_r in Hlcs. exists s. split; [|constructor]. rewrite <- Hlcs, lookup_app_r, Nat.sub_diag by lia. cbn. f_equal. unfold between in Hbt. destruct (i_active it1) as [sa|]; [by rewrite Hbt in Hcur|done].
      - rewrite Ha1, He1 in Hcur. subst s1. exists s0. split; [|done]. rewrite lookup_app_l; [done|]. apply fmap_Some in Hp0 as (x & Hx & _). by apply lookup_lt_Some in Hx. }
    assert (Hpos' : forall i s, ss !! i = Some s -> k_pop <$> (cs ++ [c]) !! length (concat (take i os)) = Some (PSample s)).
    { intros i s1 Hi. specialize (Hpos i s1 Hi). rewrite lookup_app_l; [done|]. apply fmap_Some in Hpos as (x & Hx & _). by apply lookup_lt_Some in Hx. }
    destruct last.
    + exists (ss ++ [s0]), (os ++ [part ++ [d]]), []. split.
      * split; [rewrite concat_app; cbn; by rewrite !app_nil_r, app_assoc|]. split.
        { apply Forall2_app; [done|]. constructor; [|constructor]. apply (reaches_timesteps _ _ _ Hr0). by econstructor. }
        split.
        { intros i s1 Hi. pose proof (Forall2_length _ _ _ Hss) as Hls. destruct (decide (i < length ss)%nat) as [Hlt|Hge].
          - rewrite lookup_app_l in Hi by done. rewrite take_app_le by lia. by apply Hpos'.
          - rewrite lookup_app_r in Hi by lia. destruct (i - length ss)%nat as [|j] eqn:Ej; [|done]. cbn in Hi. injection Hi as <-. replace i with (length os) by lia. by rewrite take_app. }
        split; [by left|]. split; [|destruct k; cbn; lia]. apply Forall_app. split; [done|]. constructor; [|constructor].
        destruct k as [| |l e]; cbn; try done. cbn in Hcnt. destruct Hst as (_ & Hst & _). rewrite app_length. cbn. intros Hl0. specialize (Hst eq_refl Hl0). lia.
      * split; [destruct k; cbn; try done; by destruct Hst as [-> _]|]. left. split; [done|]. unfold between. by rewrite Ha.
    + exists ss, os, (part ++ [d]). split.
      * split; [by rewrite app_assoc|]. split; [done|]. split; [done|]. split.
        { right. exists s0. split; [done|]. apply (reaches_begins _ _ _ Hr0). econstructor; [done|constructor]. }
        split; [done|]. destruct k as [| |l e]; cbn; try done. cbn in Hcnt, Hbel. destruct Hst as (_ & _ & Hst). specialize (Hst eq_refl). rewrite app_length. cbn. lia.
      * split. { destruct k as [| |l e]; cbn; try done. destruct Hst as [-> _]. cbn in Hcnt. rewrite app_length. cbn. lia. }
        right. split; [by destruct part|]. exists s0, s'. split; [done|]. split; [by econstructor|]. by split.
Qed.

(** As long as an iterator reports elements only, these are the timesteps of the samples that it
    has taken, item after item; if a length is demanded then every complete item has
    it, and the last one does not exceed it. *)
Theorem C71_timesteps k spec f cs ds it : emits_steps k -> it_run k spec f i_new cs = (step_out <$> ds, it) ->
  exists ss os part, in_items k cs ds ss os part.
Proof. intros Hk Hr. destruct (elems_run k spec f cs Hk ds it Hr) as (ss & os & part & H & _). by exists ss, os, part. Qed.

(** *** Nothing else is refused *)

Lemma validate_fits spec d : fits spec d -> validate_output spec VTimestep (snd d) = Ok.
Proof. destruct spec as [sp|]; [|done]. intros H. by apply (validate_iff sp VTimestep). Qed.
Lemma sampler_step_next spec a p s d last s' : sampler_next_timestep s = TSOk d last s' -> fits spec d ->
  match a with Some s0 => if is_end_of_sample s0 then p = PSample s else s0 = s | None => p = PSample s end ->
  sampler_step spec a p = (LOk (EStep d) last, Some s').
Proof.
  intros Hn Hf Ha. unfold sampler_step.
  assert (G : get_next_step spec s = GStep d last s'). { unfold get_next_step. rewrite Hn. by rewrite bool_decide_true by (by apply validate_fits). }
  destruct a as [s0|]; [destruct (is_end_of_sample s0); subst|subst]; by rewrite G.
Qed.
Lemma get_next_ok k spec f it c s d last s' : emits_steps k -> sampler_next_timestep s = TSOk d last s' -> fits spec d -> k_cancel c <> CDuring ->
  match i_active it with Some s0 => if is_end_of_sample s0 then k_pop c = PSample s else s0 = s | None => k_pop c = PSample s end ->
  match k with DReverb l _ => if last then 0 < l -> i_step it + 1 = l else 0 < l -> i_step it + 1 < l | _ => True end -> 0 <= i_step it ->
  exists it', get_next k spec f it c = (step_out d, it') /\ i_active it' = Some s' /\ match k with DReverb _ _ => i_step it' = (if last then 0 else i_step it + 1) | _ => i_step it' = i_step it end.
Proof.
  intros Hk Hn Hf Hc Ha Hs H0. unfold get_next. pose proof (sampler_step_next spec _ _ _ _ _ _ Hn Hf Ha) as E.
  destruct k as [| |l [|]]; [done| | |done]; rewrite E.
  - eexists. split; [destruct (k_cancel c); try done|done].
  - destruct last; cbn [andb negb].
    + destruct (Z.ltb_spec 0 l); cbn [andb].
      * rewrite (proj2 (Z.eqb_eq _ _)) by auto. cbn [negb andb]. eexists. split; [destruct (k_cancel c); try done|done].
      * rewrite andb_false_r. eexists. split; [destruct (k_cancel c); try done|done].
    + rewrite andb_true_r. destruct (Z.eqb_spec (i_step it + 1) l) as [El|El]; [lia|]. eexists. split; [destruct (k_cancel c); try done|done].
Qed.

(** One item. *)
Definition step_is (k : dkind) (it : iter) (n : Z) : Prop := match k with DReverb _ _ => i_step it = n | _ => True end.
Lemma run_item k spec f s o : emits_steps k -> timesteps s o -> Forall (fits spec) o -> forall it cs n, length cs = length o -> Forall (fun c => k_cancel c <> CDuring) cs ->
  match i_active it with Some s0 => if is_end_of_sample s0 then k_pop <$> cs !! 0%nat = Some (PSample s) else s0 = s | None => k_pop <$> cs !! 0%nat = Some (PSample s) end ->
  0 <= i_step it -> step_is k it n -> match k with DReverb l _ => 0 < l -> n + Z.of_nat (length o) = l | _ => True end ->
  exists it', it_run k spec f it cs = (step_out <$> o, it') /\ between it' /\ step_is k it' 0 /\ 0 <= i_step it'.
Proof.
  intros Hk Ht. induction Ht as [s d s' Hn|s d s' o Hn Ht IH]; intros Hf it cs n Hl Hc Ha H0 Hst Hlen.
  - destruct cs as [|c [|? ?]]; try done. apply Forall_cons in Hc as [Hc _]. apply Forall_cons in Hf as [Hf _].
    destruct (get_next_ok k spec f it c s d true s' Hk Hn Hf Hc) as (it' & E & Ea & Es); [|destruct k; cbn in *; try done; lia|done|].
    { destruct (i_active it) as [s0|]; [destruct (is_end_of_sample s0); [by injection Ha|done]|by injection Ha]. }
    cbn [it_run]. rewrite E. exists it'. split; [done|]. pose proof (step_last _ _ _ _ Hn) as Hend. split; [unfold between; rewrite Ea; by rewrite <- Hend|]. destruct k; cbn in *; [done| |]; rewrite Es; split; try done; lia.
  - destruct cs as [|c cs]; [done|]. cbn in Hl. injection Hl as Hl. apply Forall_cons in Hc as [Hc Hcs]. apply Forall_cons in Hf as [Hf Hfs].
    assert (1 <= length o)%nat by (destruct Ht; cbn; lia).
    destruct (get_next_ok k spec f it c s d false s' Hk Hn Hf Hc) as (it' & E & Ea & Es); [|destruct k; cbn in *; try done; lia|done|].
    { destruct (i_active it) as [s0|]; [destruct (is_end_of_sample s0); [by injection Ha|done]|by injection Ha]. }
    pose proof (step_last _ _ _ _ Hn) as Hend.
    destruct (IH Hfs it' cs (n + 1) Hl Hcs) as (it2 & E2 & Hb & Hs2).
    + rewrite Ea, <- Hend. done.
    + destruct k; rewrite Es; lia.
    + destruct k; cbn in *; try done. lia.
    + destruct k; cbn in *; try done. lia.
    + cbn [it_run]. rewrite E, E2. by exists it2.
Qed.

(** Items that consist of timesteps, fit the specification and have the demanded length are
    emitted, completely and in order. *)
Theorem C71_accepts k spec f ss os cs : emits_steps k -> Forall2 timesteps ss os -> Forall (Forall (fits spec)) os -> Forall (fun o => length_ok k (length o)) os ->
  length cs = length (concat os) -> (forall i s, ss !! i = Some s -> k_pop <$> cs !! length (concat (take i os)) = Some (PSample s)) -> Forall (fun c => k_cancel c <> CDuring) cs ->
  (it_run k spec f i_new cs).1 = step_out <$> concat os.
Proof.
  intros Hk H. assert (G : forall it cs, between it -> step_is k it 0 -> 0 <= i_step it -> Forall (Forall (fits spec)) os -> Forall (fun o => length_ok k (length o)) os -> length cs = length (concat os) ->
    (forall i s, ss !! i = Some s -> k_pop <$> cs !! length (concat (take i os)) = Some (PSample s)) -> Forall (fun c => k_cancel c <> CDuring) cs -> (it_run k spec f it cs).1 = step_out <$> concat os).
  2: { intros Hf Hl Hn Hp Hc. apply G; try done; by destruct k. }
  clear cs. induction H as [|s o ss os Ht H IH]; intros it cs Hb Hs0 H0 Hf Hl Hn Hp Hc.
  - by destruct cs.
  - apply Forall_cons in Hf as [Hf Hfs]. apply Forall_cons in Hl as [Hl Hls]. cbn [concat] in Hn. rewrite app_length in Hn.
    rewrite <- (take_drop (length o) cs). rewrite it_run_app. rewrite <- (take_drop (length o) cs), Forall_app in Hc. destruct Hc as [Hc1 Hc2].
    assert (1 <= length o)%nat by (destruct Ht; cbn; lia).
    destruct (run_item k spec f s o Hk Ht Hf it (take (length o) cs) 0) as (it1 & E1 & Hb1 & Hs1 & Hpos1); try done.
    + rewrite take_length. lia.
    + specialize (Hp 0%nat s eq_refl). cbn in Hp. unfold between in Hb. rewrite lookup_take by lia. destruct (i_active it) as [s0|]; [by rewrite Hb|done].
    + rewrite E1. specialize (IH it1 (drop (length o) cs) Hb1 Hs1 Hpos1 Hfs Hls). destruct (it_run k spec f it1 (drop (length o) cs)) as [o2 it2]. cbn in *. rewrite fmap_app. f_equal. apply IH.
      * rewrite drop_length. lia.
      * intros i s1 Hi. rewrite lookup_drop. specialize (Hp (S i) s1 Hi). cbn [take concat] in Hp. by rewrite app_length in Hp.
      * done.
Qed.

(** *** The end of a sequence *)

(** The end is reported only if the rate limiter has timed out, a timeout was set, and the last
    item is complete; and it is reported then, unless the demanded length is 1. *)
Theorem C71_end_partial k spec f cs ds it c o it' : emits_steps k -> it_run k spec f i_new cs = (step_out <$> ds, it) -> get_next k spec f it c = (o, it') ->
  exists ss os part, in_items k cs ds ss os part /\
    (o = OEnd -> k_pop c = PTimeout /\ f = true /\ part = []) /\
    (k_pop c = PTimeout -> part = [] -> k_cancel c <> CDuring -> (forall e, k <> DReverb 1 e) -> o = if f then OEnd else OErr DeadlineExceeded).
Proof.
  intros Hk Hr Hn. destruct (elems_run k spec f cs Hk ds it Hr) as (ss & os & part & Hi & Hcnt & Hloc). exists ss, os, part. split; [done|].
  assert (Hfin : forall r a', sampler_step spec (i_active it) (k_pop c) = (r, a') -> (r = LTimeout -> k_pop c = PTimeout /\ part = []) /\ (k_pop c = PTimeout -> part = [] -> r = LTimeout)).
  { intros r a'. unfold sampler_step. destruct Hloc as [[-> Hb]|(Hne & s0 & s' & _ & _ & Ha & He)].
    - unfold between in Hb. assert (match i_active it with Some s => if is_end_of_sample s then None else Some s | None => None end = None) as ->. { destruct (i_active it); [by rewrite Hb|done]. }
      destruct (k_pop c) as [s| |st]; cbn; try (intros [= <- <-]; done). destruct (get_next_step spec s); by intros [= <- <-].
    - rewrite Ha, He. split; [|done]. intros ->. destruct (get_next_step spec s'); done. }
  unfold get_next in Hn. destruct k as [| |l [|]]; [done| | |done]; destruct (sampler_step spec (i_active it) (k_pop c)) as [r a'] eqn:E; destruct (Hfin r a' eq_refl) as [F1 F2].
  - injection Hn as <- <-. split.
    + destruct r; cbn; destruct (k_cancel c); try done; destruct f; try done; intros _; by destruct (F1 eq_refl).
    + intros H1 H2 H3 _. rewrite (F2 H1 H2). cbn. by destruct (k_cancel c), f.
  - split.
    + intros ->. destruct r as [e last| |st|]; try done.
      * destruct (last && (0 <? l) && negb (i_step it + 1 =? l)); [done|]. destruct ((i_step it + 1 =? l) && negb last); [done|]. injection Hn as Hn _. cbn in Hn. by destruct (k_cancel c).
      * cbn [andb] in Hn. destruct ((i_step it + 1 =? l) && negb false); [done|]. injection Hn as Hn _. cbn in Hn. destruct (k_cancel c); try done; destruct f; try done; by destruct (F1 eq_refl).
      * cbn [andb] in Hn. destruct ((i_step it + 1 =? l) && negb false); [done|]. injection Hn as Hn _. cbn in Hn. by destruct (k_cancel c).
    + intros H1 H2 H3 H4. rewrite (F2 H1 H2) in Hn. cbn [andb negb] in Hn. subst part. cbn in Hcnt. rewrite Hcnt in Hn. change (Z.of_nat 0) with 0 in Hn. destruct (Z.eqb_spec (0 + 1) l) as [El|El]; [by destruct (H4 true); rewrite <- El|].
      cbn in Hn. destruct (k_cancel c), f; try done; by injection Hn as <- _.
Qed.

(** *** Cancellation *)

(** A call that is cancelled before it returns reports neither an element nor the end. *)
Theorem C71_cancelled k spec f it c o it' : k_cancel c = CDuring -> get_next k spec f it c = (o, it') -> match o with OElem _ | OEnd => False | _ => True end.
Proof.
  intros Hc. destruct c as [p cc]. cbn [k_cancel] in Hc. subst cc. assert (D : forall r, match deregister f CDuring r with OElem _ | OEnd => False | _ => True end) by (by intros []).
  unfold get_next. cbn [k_pop k_cancel]. destruct k as [| |l [|]].
  - intros [= <- _]. apply D.
  - destruct (sampler_step spec (i_active it) p) as [r a]. intros [= <- _]. apply D.
  - destruct (sampler_step spec (i_active it) p) as [r a]. specialize (D r). intros H. apply (f_equal fst) in H. cbn [fst] in H. destruct r as [e last| |st|]; cbn [andb] in H;
      repeat match type of H with context [if ?b then _ else _] => destruct b end; cbn [fst] in H; by subst o.
  - intros [= <- _]. apply D.
Qed.

(** No callback stays registered after its call, as long as no InvalidArgument is reported. *)
Theorem C71_callbacks_partial k spec f cs : OErr InvalidArgument ∉ (it_run k spec f i_new cs).1 -> i_leaked (it_run k spec f i_new cs).2 = 0%nat.
Proof.
  assert (G : forall it, i_leaked it = 0%nat -> OErr InvalidArgument ∉ (it_run k spec f it cs).1 -> i_leaked (it_run k spec f it cs).2 = 0%nat); [|by apply G].
  induction cs as [|c cs IH]; intros it H0; cbn [it_run]; [done|]. destruct (get_next k spec f it c) as [o it1] eqn:E. specialize (IH it1). destruct (it_run k spec f it1 cs) as [os it2]. cbn in *.
  intros Hn. apply not_elem_of_cons in Hn as [Ho Hn]. apply IH; [|done]. revert E. unfold get_next. destruct k as [| |l [|]].
  - by intros [= _ <-].
  - destruct (sampler_step spec (i_active it) (k_pop c)) as [r a]. by intros [= _ <-].
  - destruct (sampler_step spec (i_active it) (k_pop c)) as [r a]. intros H. pose proof (f_equal fst H) as Hf. apply (f_equal snd) in H. cbn [fst snd] in H, Hf. destruct r as [e last| |st|]; cbn [andb] in H, Hf;
      repeat match type of H with context [if ?b then (_, _) else _] => destruct b end; cbn [fst snd] in H, Hf; subst; done.
  - by intros [= _ <-].
Qed.

(** *** Trajectories and sequences: one item per call *)

Theorem C71_items k spec f it c e it' : ~ emits_steps k -> get_next k spec f it c = (OElem e, it') ->
  exists s, k_pop c = PSample s /\ k_cancel c <> CDuring /\
    match k, e with
    | DTrajectory, ETraj d => as_trajectory s = SROk d /\ fits spec d
    | DReverb _ false, EBatch d => as_batched_timesteps s = SROk d /\ match spec with None => True | Some sp => length sp = (4 + length (snd d))%nat /\ Forall2 rows_conform (drop 4 sp) (snd d) end
    | _, _ => False
    end.
Proof.
  intros Hk. unfold get_next. destruct k as [| |l [|]]; [|by destruct Hk|by destruct Hk|].
  - destruct (k_pop c) as [s| |st]; [|cbn; destruct (k_cancel c); try done; by destruct f|cbn; by destruct (k_cancel c)].
    intros H. exists s. split; [done|]. unfold get_next_trajectory in H. destruct (as_trajectory s) as [[m cols]|] eqn:Ea; [|cbn in H; by destruct (k_cancel c)].
    destruct (bool_decide_reflect (validate_output spec VTrajectory cols = Ok)) as [Hv|Hv]; cbn in H; [|by destruct (k_cancel c)].
    destruct (k_cancel c); try done; injection H as <- <-; (split; [done|]; split; [done|]; destruct spec as [sp|]; [by apply (validate_iff sp VTrajectory) in Hv|done]).
  - destruct (k_pop c) as [s| |st]; [|cbn; destruct (k_cancel c); try done; by destruct f|cbn; by destruct (k_cancel c)].
    intros H. exists s. split; [done|]. unfold get_next_sample in H. destruct (as_batched_timesteps s) as [[m cols]|] eqn:Ea; [|cbn in H; by destruct (k_cancel c)].
    destruct (bool_decide_reflect (validate_output spec VBatched cols = Ok)) as [Hv|Hv]; cbn in H; [|by destruct (k_cancel c)].
    destruct (k_cancel c); try done; injection H as <- <-; (split; [done|]; split; [done|]; destruct spec as [sp|]; [by apply (validate_iff sp VBatched) in Hv|done]).
Qed.

(** *** What is not so *)

Definition dx_meta (k : Z) : meta := mkMeta k 1 1 (Fin 1) false.
Definition dx_sample (k : Z) (rows : list Z) : sample := default (mkSample (dx_meta k) 0 [] [] false) (make_sample (dx_meta k) [[vec rows]] [false]).
Definition dx_step (k x : Z) : meta * list tensor := (dx_meta k, [mkTensor (TOther 1) [] [x]]).
Definition take_sample (s : sample) : call := mkCall (PSample s) CNot.

(** With sequence_length = 1 a timeout of the rate limiter is an InvalidArgument ("did not terminate
    after expected number of steps"). *)
Theorem C71_end_refuted : ~ (forall k spec cs ds it ss os c, emits_steps k -> it_run k spec true i_new cs = (step_out <$> ds, it) -> in_items k cs ds ss os [] ->
  k_pop c = PTimeout -> k_cancel c = CNot -> (get_next k spec true it c).1 = OEnd).
Proof.
  intros H. specialize (H (DReverb 1 true) None [take_sample (dx_sample 1 [5])] [dx_step 1 5]).
  specialize (H (it_run (DReverb 1 true) None true i_new [take_sample (dx_sample 1 [5])]).2 [dx_sample 1 [5]] [[dx_step 1 5]] (mkCall PTimeout CNot) I ltac:(vm_compute; reflexivity)).
  assert (in_items (DReverb 1 true) [take_sample (dx_sample 1 [5])] [dx_step 1 5] [dx_sample 1 [5]] [[dx_step 1 5]] []) as Hi.
  { split; [reflexivity|]. split; [constructor; [|constructor]; eapply ts_last; vm_compute; reflexivity|]. split.
    { intros [|i] s Hi; [|done]. injection Hi as <-. reflexivity. }
    split; [by left|]. split; [constructor; [|constructor]; by cbn|by cbn]. }
  specialize (H Hi eq_refl eq_refl). vm_compute in H. discriminate H.
Qed.

(** The returns with InvalidArgument leave the callback registered, although its call is over
    (and the iterator that the callback uses may be gone when the context is cancelled). *)
Theorem C71_callbacks_refuted : ~ (forall k spec f cs, i_leaked (it_run k spec f i_new cs).2 = 0%nat).
Proof. intros H. specialize (H (DReverb 1 true) None true [mkCall PTimeout CNot]). vm_compute in H. discriminate H. Qed.

(** An item of a wrong length is reported, but the count of steps is not set back: of
    all later items of the right length one half is emitted, the other one refused. *)
Theorem C71_recovery_refuted : exists s1 o1 s2 o2 cs, let k := DReverb 2 true in
  timesteps s1 o1 /\ timesteps s2 o2 /\ length_ok k (length o1) /\ length_ok k (length o2) /\
  cs = [take_sample (dx_sample 1 [1]); take_sample s1; take_sample s1; take_sample s2; take_sample s2] /\
  exists d, o2 !! 0%nat = Some d /\ (it_run k None true i_new cs).1 = [OErr InvalidArgument; OErr InvalidArgument; OErr InvalidArgument; step_out d; OErr InvalidArgument].
Proof.
  exists (dx_sample 2 [5; 6]), [dx_step 2 5; dx_step 2 6], (dx_sample 3 [7; 8]), [dx_step 3 7; dx_step 3 8]. eexists. intros k.
  split. { eapply ts_more; [vm_compute; reflexivity|]. eapply ts_last. vm_compute. reflexivity. }
  split. { eapply ts_more; [vm_compute; reflexivity|]. eapply ts_last. vm_compute. reflexivity. }
  split; [by cbn|]. split; [by cbn|]. split; [reflexivity|]. exists (dx_step 3 7). split; [reflexivity|]. vm_compute. reflexivity.
Qed.

(** An item whose columns have different lengths is never given up: the iterator emits
    nothing any more, whatever the table holds. *)
Theorem C71_stuck_refuted : exists s, make_sample (dx_meta 1) [[vec [1; 2]]; [vec [3]]] [false; false] = Some s /\
  forall f cs, Forall (fun o => o = OErr InvalidArgument \/ o = OErr Cancelled) (it_run DTimestep None f i_new (take_sample s :: cs)).1.
Proof.
  eexists. split; [vm_compute; reflexivity|]. intros f cs. set (s := mkSample _ _ _ _ _).
  assert (G : forall it, i_active it = Some s -> Forall (fun o => o = OErr InvalidArgument \/ o = OErr Cancelled) (it_run DTimestep None f it cs).1).
  { induction cs as [|c cs IH]; intros it Ha; [constructor|]. cbn [it_run get_next]. rewrite Ha.
    assert (forall p, sampler_step None (Some s) p = (LFail InvalidArgument, Some s)) as -> by (intros p; by destruct p). specialize (IH (mkIter (Some s) (i_step it) (i_leaked it)) eq_refl).
    destruct (it_run DTimestep None f (mkIter (Some s) (i_step it) (i_leaked it)) cs) as [os it2]. cbn [fst] in *. constructor; [|done]. cbn. destruct (k_cancel c); [by left|by left|by right]. }
  specialize (G (mkIter (Some s) 0 0) eq_refl). cbn [it_run]. assert (get_next DTimestep None f i_new (take_sample s) = (OErr InvalidArgument, mkIter (Some s) 0 0)) as -> by reflexivity.
  destruct (it_run DTimestep None f (mkIter (Some s) 0 0) cs) as [os it2]. cbn [fst] in *. constructor; [by left|done].
Qed.

(** Sequences: the dataset promises the shape [3] and emits two rows. *)
Theorem C71_sequence_refuted : ~ (forall n c table dtypes shapes r spec c' it cl ms cols it', dataset_op (DReverb n false) shapes = Ok -> 0 < n ->
  initialize (DReverb n false) c table dtypes shapes r = (inr spec, c') -> spec <> None -> get_next (DReverb n false) spec true it cl = (OElem (EBatch (ms, cols)), it') ->
  Forall (fun t => Z.of_nat (dim0 t) = n) cols).
Proof.
  intros H. specialize (H 3 (mkCache None 0) 8 user_dtypes (replicate 5 (Some [Some 3%nat])) (RInfo (mkInfo 1 [(8, Some (Some [mkTspec (TOther 1) (Some [])]))]))).
  specialize (H (Some (info_specs ++ [mkTspec (TOther 1) (Some [])])) (mkCache (Some {[ 8 := Some [mkTspec (TOther 1) (Some [])] ]}) 1) i_new (take_sample (dx_sample 1 [5; 6])) [dx_meta 1; dx_meta 1] [vec [5; 6]] i_new).
  specialize (H ltac:(vm_compute; reflexivity) eq_refl ltac:(vm_compute; reflexivity) ltac:(discriminate) ltac:(vm_compute; reflexivity)). apply Forall_cons in H as [H _]. discriminate H.
Qed.

(** ** Examples *)

Definition dx_spec : outspec := Some (info_specs ++ [mkTspec (TOther 1) (Some [])]).
Definition dx_ss : list sample := [dx_sample 2 [5; 6]; dx_sample 3 [7; 8]].
Definition dx_os : list (list (meta * list tensor)) := [[dx_step 2 5; dx_step 2 6]; [dx_step 3 7; dx_step 3 8]].
Definition dx_cs : list call := [take_sample (dx_sample 2 [5; 6]); mkCall PTimeout CNot; take_sample (dx_sample 3 [7; 8]); mkCall (PFail Cancelled) CNot].

Example C71_accepts_example : let k := DReverb 2 true in emits_steps k /\ Forall2 timesteps dx_ss dx_os /\ Forall (Forall (fits dx_spec)) dx_os /\ Forall (fun o => length_ok k (length o)) dx_os /\
  length dx_cs = length (concat dx_os) /\ (forall i s, dx_ss !! i = Some s -> k_pop <$> dx_cs !! length (concat (take i dx_os)) = Some (PSample s)) /\ Forall (fun c => k_cancel c <> CDuring) dx_cs.
Proof.
  intros k. split; [done|]. split. { constructor; [|constructor; [|constructor]]; (eapply ts_more; [vm_compute; reflexivity|]; eapply ts_last; vm_compute; reflexivity). }
  split. { repeat constructor. } split; [repeat constructor; by cbn|]. split; [reflexivity|]. split; [|repeat constructor; discriminate].
  intros [|[|i]] s Hi; [injection Hi as <-; reflexivity|injection Hi as <-; reflexivity|done].
Qed.
(** One item and a half, then a call at the end. *)
Example C71_timesteps_example : let k := DReverb 2 true in exists it, it_run k dx_spec true i_new (take 3 dx_cs) = (step_out <$> [dx_step 2 5; dx_step 2 6; dx_step 3 7], it).
Proof. eexists. vm_compute. reflexivity. Qed.
Example C71_end_example : let k := DReverb 2 true in exists it it', it_run k dx_spec true i_new dx_cs = (step_out <$> concat dx_os, it) /\ get_next k dx_spec true it (mkCall PTimeout CNot) = (OEnd, it') /\
  OErr InvalidArgument ∉ (it_run k dx_spec true i_new dx_cs).1.
Proof. eexists _, _. split; [vm_compute; reflexivity|]. split; [vm_compute; reflexivity|]. vm_compute. intros H. repeat (apply elem_of_cons in H as [H|H]; [discriminate H|]). by apply elem_of_nil in H. Qed.
Example C71_items_example : exists it', get_next DTrajectory (Some (info_specs ++ [mkTspec (TOther 1) (Some [None])])) true i_new (take_sample (dx_sample 2 [5; 6])) = (OElem (ETraj (dx_meta 2, [vec [5; 6]])), it').
Proof. eexists. vm_compute. reflexivity. Qed.

Print Assumptions C71_timesteps.
Print Assumptions C71_accepts.
Print Assumptions C71_end_partial.
Print Assumptions C71_end_refuted.
Print Assumptions C71_cancelled.
Print Assumptions C71_callbacks_partial.
Print Assumptions C71_callbacks_refuted.
Print Assumptions C71_items.
Print Assumptions C71_recovery_refuted.
Print Assumptions C71_stuck_refuted.
Print Assumptions C71_sequence_refuted.
