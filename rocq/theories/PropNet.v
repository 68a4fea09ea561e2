(** C102: PickUnusedPortOrDie. *)
From Verif Require Import Base Net.

(** ** Proofs *)

Lemma candidate_range s trial : os_ok s -> candidate s trial = 0 /\ (100 < trial)%nat \/ 30000 <= candidate s trial <= 65535.
Proof.
  intros [_ H1 H2]. unfold candidate. change (65536 - 30000) with 35536. specialize (H2 trial). destruct (Nat.eqb_spec trial 1); [right; pose proof (Z.mod_pos_bound (os_pid s) 35536); lia|].
  destruct (Nat.leb_spec trial 100); [right; pose proof (Z.mod_pos_bound (os_rand s trial) 35536); lia|left; lia].
Qed.

Lemma available_spec s t port tcp b port' : os_ok s -> is_port_available s t port tcp = Some (b, port') ->
  (b = false -> port' = port) /\ (b = true -> 1 <= port' <= 65535 /\ os_bind s t tcp port' = true /\ (port <> 0 -> port' = port)).
Proof.
  intros Hs. unfold is_port_available. destruct (_ || _) eqn:Hr; [done|]. apply orb_false_iff in Hr as [R1%Z.ltb_ge R2%Z.ltb_ge].
  destruct (Z.eqb_spec port 0) as [->|Hn].
  - destruct (os_any s t tcp) as [a|] eqn:Ea; [|by intros [= <- <-]]. destruct (a <=? 0); [done|]. intros [= <- <-]. split; [done|]. intros _.
    destruct (ok_any s Hs _ _ _ Ea). split; [done|]. by split.
  - intros [= <- <-]. split; [done|]. intros Hb. split; [lia|]. by split.
Qed.
Lemma available_total s t port tcp : os_ok s -> 0 <= port <= 65535 -> is_port_available s t port tcp <> None.
Proof.
  intros Hs Hp. unfold is_port_available. destruct (_ || _) eqn:Hr; [apply orb_true_iff in Hr as [?%Z.ltb_lt|?%Z.ltb_lt]; lia|].
  destruct (port =? 0); [|done]. destruct (os_any s t tcp) as [a|] eqn:Ea; [|done]. destruct (ok_any s Hs _ _ _ Ea). destruct (Z.leb_spec a 0); [lia|done].
Qed.

Lemma loop_spec s chosen : os_ok s -> forall rest trial t tcp port n t0, pick_loop s chosen rest trial t tcp = Some (port, n, t0) ->
  1 <= port <= 65535 /\ (trial <= n < trial + rest)%nat /\ (exists tcp', os_bind s t0 tcp' port = true /\ os_bind s (S t0) (negb tcp') port = true) /\
  ((n <= 100)%nat -> port ∉ chosen).
Proof.
  intros Hs. induction rest as [|rest IH]; intros trial t tcp port n t0; cbn [pick_loop]; [done|].
  assert (GO : forall t' tcp', pick_loop s chosen rest (S trial) t' tcp' = Some (port, n, t0) ->
    1 <= port <= 65535 /\ (trial <= n < trial + S rest)%nat /\ (exists tcp', os_bind s t0 tcp' port = true /\ os_bind s (S t0) (negb tcp') port = true) /\
    ((n <= 100)%nat -> port ∉ chosen)).
  { intros t' tcp' H. destruct (IH _ _ _ _ _ _ H) as (H1 & H2 & H3). split; [done|]. split; [lia|done]. }
  case_bool_decide as Hc; [apply GO|]. destruct (is_port_available s t _ tcp) as [[[] p1]|] eqn:E1; [|apply GO|done].
  destruct (available_spec _ _ _ _ _ _ Hs E1) as [_ A]. destruct (A eq_refl) as (A1 & A2 & A3). destruct (Z.leb_spec p1 0); [done|].
  destruct (is_port_available s (S t) p1 (negb tcp)) as [[[] p2]|] eqn:E2; [|apply GO|done].
  destruct (available_spec _ _ _ _ _ _ Hs E2) as [_ B]. destruct (B eq_refl) as (B1 & B2 & B3). rewrite (B3 ltac:(lia)) in *.
  intros [= <- <- <-]. split; [done|]. split; [lia|]. split; [by exists tcp|]. intros Hn.
  destruct (candidate_range s trial Hs) as [[_ ?]|?]; [lia|]. by rewrite (A3 ltac:(lia)).
Qed.

Lemma pick_spec s chosen port trial t chosen' : os_ok s -> pick_unused_port s chosen = Some (port, trial, t, chosen') ->
  1 <= port <= 65535 /\ (1 <= trial < 1 + 1000)%nat /\ (exists tcp', os_bind s t tcp' port = true /\ os_bind s (S t) (negb tcp') port = true) /\
  ((trial <= 100)%nat -> port ∉ chosen) /\ chosen' = {[port]} ∪ chosen.
Proof.
  intros Hs. unfold pick_unused_port. generalize (loop_spec s chosen Hs 1000 1 0 true). generalize (pick_loop s chosen 1000 1 0 true).
  intros [[[q n] t0]|] L; [|done]. intros [= <- <- <- <-]. destruct (L _ _ _ eq_refl) as (H1 & H2 & H3 & H4). done.
Qed.

(** ** The theorems *)

(** The port is one, and it could be bound by sockets of both kinds, one right after the
    other. *)
Theorem C102_free s chosen port trial t chosen' : os_ok s -> pick_unused_port s chosen = Some (port, trial, t, chosen') ->
  1 <= port <= 65535 /\ (1 <= trial <= 1000)%nat /\
  ((os_bind s t true port = true /\ os_bind s (S t) false port = true) \/ (os_bind s t false port = true /\ os_bind s (S t) true port = true)).
Proof.
  intros Hs E. destruct (pick_spec _ _ _ _ _ _ Hs E) as (H1 & H2 & ([] & H3 & H4) & _); (split; [done|]; split; [lia|]); [by left|by right].
Qed.

(** The ports of a process are different as long as each is found within the first hundred trials. *)
Theorem C102_different_partial l chosen : picks l chosen -> Forall (fun x => (x.2 <= 100)%nat) l -> NoDup ((fun x => x.1.2) <$> l).
Proof.
  intros H HF. assert (K : NoDup ((fun x => x.1.2) <$> l) /\ forall p, p ∈ (fun x : os * Z * nat => x.1.2) <$> l -> p ∈ chosen); [|apply K].
  induction H as [|l chosen s port trial t chosen' H IH Hs E]; [split; [constructor|]; intros p Hp; by apply elem_of_nil in Hp|].
  apply Forall_app in HF as [HF1 HF2]. apply Forall_cons in HF2 as [HF2 _]. cbn in HF2. destruct (IH HF1) as [IH1 IH2].
  destruct (pick_spec _ _ _ _ _ _ Hs E) as (_ & _ & _ & H4 & ->). clear E. specialize (H4 HF2). rewrite fmap_app. cbn. split.
  - apply NoDup_app. split; [done|]. split; [|apply NoDup_singleton]. intros p Hp Hq. apply elem_of_list_singleton in Hq as ->. by apply H4, IH2.
  - intros p [Hp|Hp]%elem_of_app; [apply elem_of_union_r; by apply IH2|]. apply elem_of_list_singleton in Hp as ->. apply elem_of_union_l. by apply elem_of_singleton.
Qed.

(** The call ends with a port if there is one among the candidates of the hundred trials that is
    free for both kinds all the time and was not returned before. *)
Lemma loop_finds s chosen i port : os_ok s -> (1 <= i <= 100)%nat -> candidate s i = port -> port ∉ chosen ->
  (forall t tcp, os_bind s t tcp port = true) ->
  forall rest trial t tcp, (trial <= i < trial + rest)%nat -> (1 <= trial)%nat -> pick_loop s chosen rest trial t tcp <> None.
Proof.
  intros Hs Hi Hc Hn Hb. induction rest as [|rest IH]; intros trial t tcp Ht H1; [lia|]. cbn [pick_loop].
  assert (RG : 0 <= candidate s trial <= 65535) by (destruct (candidate_range s trial Hs) as [[? _]|?]; lia).
  destruct (decide (trial = i)) as [->|Hne].
  - rewrite Hc in *. rewrite bool_decide_eq_false_2 by done.
    assert (30000 <= port) by (destruct (candidate_range s i Hs) as [[_ ?]|?]; [lia|rewrite Hc in *; lia]).
    assert (AV : forall t tcp, is_port_available s t port tcp = Some (true, port)).
    { intros t' tcp'. unfold is_port_available. destruct (_ || _) eqn:Hr; [apply orb_true_iff in Hr as [?%Z.ltb_lt|?%Z.ltb_lt]; lia|].
      destruct (Z.eqb_spec port 0); [lia|]. by rewrite Hb. }
    rewrite AV. destruct (Z.leb_spec port 0); [lia|]. by rewrite AV.
  - assert (GO : forall t' tcp', pick_loop s chosen rest (S trial) t' tcp' <> None) by (intros t' tcp'; apply IH; lia).
    case_bool_decide; [apply GO|]. destruct (is_port_available s t _ tcp) as [[[] p1]|] eqn:E1; [|apply GO|by apply available_total in E1].
    destruct (available_spec _ _ _ _ _ _ Hs E1) as [_ A]. destruct (A eq_refl) as (A1 & _). destruct (Z.leb_spec p1 0); [lia|].
    destruct (is_port_available s (S t) p1 (negb tcp)) as [[[] p2]|] eqn:E2; [done|apply GO|]. apply available_total in E2; [done|done|lia].
Qed.
Theorem C102_finds s chosen i : os_ok s -> (1 <= i <= 100)%nat -> candidate s i ∉ chosen -> (forall t tcp, os_bind s t tcp (candidate s i) = true) ->
  pick_unused_port s chosen <> None.
Proof.
  intros Hs Hi Hn Hb. unfold pick_unused_port. generalize (loop_finds s chosen i _ Hs Hi eq_refl Hn Hb 1000 1 0 true ltac:(lia) ltac:(lia)).
  generalize (pick_loop s chosen 1000 1 0 true). by intros [[[] ?]|].
Qed.

(** No check other than that of line 107 fails: if the call dies, a thousand trials have failed. *)
Lemma loop_dies s chosen : os_ok s -> forall rest trial t tcp, pick_loop s chosen rest trial t tcp = None ->
  forall k, (trial <= k < trial + rest)%nat -> candidate s k ∈ chosen \/ exists t' tcp' port, (port = candidate s k \/ candidate s k = 0) /\
    (is_port_available s t' port tcp' = Some (false, port)).
Proof.
  intros Hs. induction rest as [|rest IH]; intros trial t tcp H k Hk; [lia|]. cbn [pick_loop] in H.
  assert (RG : 0 <= candidate s trial <= 65535) by (destruct (candidate_range s trial Hs) as [[? _]|?]; lia).
  destruct (decide (k = trial)) as [->|Hne].
  - case_bool_decide as Hc; [by left|]. right. destruct (is_port_available s t _ tcp) as [[[] p1]|] eqn:E1.
    + destruct (available_spec _ _ _ _ _ _ Hs E1) as [_ A]. destruct (A eq_refl) as (A1 & _ & A3). destruct (Z.leb_spec p1 0); [lia|].
      destruct (is_port_available s (S t) p1 (negb tcp)) as [[[] p2]|] eqn:E2; [done| |apply available_total in E2; [done|done|lia]].
      destruct (available_spec _ _ _ _ _ _ Hs E2) as [B _]. rewrite (B eq_refl) in E2. exists (S t), (negb tcp), p1. split; [|done].
      destruct (decide (candidate s trial = 0)); [by right|left; by apply A3].
    + destruct (available_spec _ _ _ _ _ _ Hs E1) as [B _]. rewrite (B eq_refl) in E1. exists t, tcp, (candidate s trial). split; [by left|done].
    + by apply available_total in E1.
  - case_bool_decide as Hc; [eapply IH; [exact H|lia]|]. destruct (is_port_available s t _ tcp) as [[[] p1]|] eqn:E1; [|eapply IH; [exact H|lia]|by apply available_total in E1].
    destruct (available_spec _ _ _ _ _ _ Hs E1) as [_ A]. destruct (A eq_refl) as (A1 & _). destruct (Z.leb_spec p1 0); [lia|].
    destruct (is_port_available s (S t) p1 (negb tcp)) as [[[] p2]|] eqn:E2; [done|eapply IH; [exact H|lia]|]. apply available_total in E2; [done|done|lia].
Qed.
Theorem C102_dies s chosen : os_ok s -> pick_unused_port s chosen = None -> forall k, (1 <= k <= 1000)%nat ->
  candidate s k ∈ chosen \/
  (candidate s k = 0 /\ exists t tcp, os_any s t tcp = None) \/
  exists t tcp port, (port = candidate s k \/ candidate s k = 0) /\ os_bind s t tcp port = false.
Proof.
  intros Hs. unfold pick_unused_port. generalize (loop_dies s chosen Hs 1000 1 0 true). generalize (pick_loop s chosen 1000 1 0 true).
  intros [[[] ?]|] L H k Hk; [discriminate|].
  destruct (L eq_refl k ltac:(lia)) as [?|(t & tcp & port & Hp & HA)]; [by left|]. right.
  unfold is_port_available in HA. destruct (_ || _); [done|]. destruct (Z.eqb_spec port 0) as [->|_].
  - left. split; [by destruct Hp|]. destruct (os_any s t tcp) as [a|] eqn:Ea; [by destruct (a <=? 0)|]. by exists t, tcp.
  - right. exists t, tcp, port. split; [done|]. by injection HA.
Qed.

(** ** Examples *)

(** All ports below 40000 are in use; rand counts. *)
Definition ex_os (pid : Z) : os := mkOs (fun _ _ p => 40000 <=? p) (fun _ _ => Some 50000) pid (fun i => 9998 + Z.of_nat i).
Lemma ex_os_ok pid : 0 <= pid -> os_ok (ex_os pid).
Proof. intros H. split; [intros t tcp p [= <-]; by split|done|]. intros i. cbn. lia. Qed.
Example C102_example : exists l chosen, picks l chosen /\ Forall (fun x => (x.2 <= 100)%nat) l /\ (fun x => x.1.2) <$> l = [40001; 40000; 40002].
Proof.
  set (c1 := {[40001]} ∪ ∅ : gset Z). set (c2 := {[40000]} ∪ c1 : gset Z). set (c3 := {[40002]} ∪ c2 : gset Z).
  assert (E1 : pick_unused_port (ex_os 10001) ∅ = Some (40001, 1%nat, 0%nat, c1)) by (vm_compute; reflexivity).
  assert (E2 : pick_unused_port (ex_os 10000) c1 = Some (40000, 1%nat, 0%nat, c2)) by (vm_compute; reflexivity).
  assert (E3 : pick_unused_port (ex_os 5) c2 = Some (40002, 4%nat, 1%nat, c3)) by (vm_compute; reflexivity).
  exists ((([] ++ [(ex_os 10001, 40001, 1%nat)]) ++ [(ex_os 10000, 40000, 1%nat)]) ++ [(ex_os 5, 40002, 4%nat)]), c3. split; [|split].
  - exact (pk_snoc _ _ _ _ _ _ _ (pk_snoc _ _ _ _ _ _ _ (pk_snoc _ _ _ _ _ _ _ pk_nil (ex_os_ok 10001 ltac:(lia)) E1) (ex_os_ok 10000 ltac:(lia)) E2) (ex_os_ok 5 ltac:(lia)) E3).
  - cbn [app]. repeat (apply Forall_cons; split; [cbn; lia|]). constructor.
  - reflexivity.
Qed.

(** The ports of the first hundred trials are in use; both calls return the port that the
    operating system gives. *)
Definition busy_os : os := mkOs (fun _ _ p => p =? 20000) (fun _ _ => Some 20000) 5 (fun i => Z.of_nat i).
Theorem C102_same_refuted : ~ (forall l chosen, picks l chosen -> NoDup ((fun x => x.1.2) <$> l)).
Proof.
  intros H. assert (O : os_ok busy_os) by (split; [intros t tcp p [= <-]; by split|done|intros i; cbn; lia]).
  assert (E1 : pick_unused_port busy_os ∅ = Some (20000, 101%nat, 100%nat, {[20000]} ∪ ∅)) by (vm_compute; reflexivity).
  assert (E2 : pick_unused_port busy_os ({[20000]} ∪ ∅) = Some (20000, 101%nat, 100%nat, {[20000]} ∪ ({[20000]} ∪ ∅))) by (vm_compute; reflexivity).
  pose proof (H _ _ (pk_snoc _ _ _ _ _ _ _ (pk_snoc _ _ _ _ _ _ _ pk_nil O E1) O E2)) as N. cbn in N.
  apply NoDup_cons_1_1 in N. apply N. left.
Qed.

Print Assumptions C102_free.
Print Assumptions C102_different_partial.
Print Assumptions C102_finds.
Print Assumptions C102_dies.
Print Assumptions C102_same_refuted.
Print Assumptions C102_example.
