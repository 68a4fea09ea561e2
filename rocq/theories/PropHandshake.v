(** C72: the table that a client in the process of the server gets. *)
From Verif Require Import Base Handshake.
Local Open Scope Z_scope.

Section C72.
Context {T : Type}.
Implicit Types (f : conf T) (n : net T).

(** ** Specification *)

(** Runs; without messages of other programs, and in which the call is not broken. *)
Inductive h_reach f : list hev -> net T -> Prop :=
| hr_init : h_reach f [] (n_new f)
| hr_step es n e n' : h_reach f es n -> h_step f n e = Some n' -> h_reach f (es ++ [e]) n'.
Definition proper (es : list hev) : Prop := forall r, HForeign r ∉ es.
Definition calm (es : list hev) : Prop := HBreak ∉ es.
(** Only one of the two processes has the id. *)
Definition ids_differ f : Prop := f_pid f (f_server f) = f_pid f (f_client f) -> f_server f = f_client f.

(** What the client is told in the end. *)
Definition expected f (st : status) (out : option T) : Prop :=
  if f_local f then
    if f_pid f (f_server f) =? f_pid f (f_client f) then
      match f_tables f !! f_name f with Some t => st = Ok /\ out = Some t | None => st = NotFound /\ out = None end
    else st = FailedPrecondition /\ out = None
  else st = Internal /\ out = None.

(** ** Any run of a client and a server *)

Definition first f : req := mkReq (f_pid f (f_client f)) (f_name f) false.
Definition second f : req := mkReq (f_pid f (f_client f)) (f_name f) true.

Definition sent (c : cpos) : nat := match c with CWrite1 => 0 | CFinish | CDone _ => 2 | _ => 1 end.
Record inv f n : Prop := mkInv {
  iv_out : forall t, n_out n = Some t -> f_tables f !! f_name f = Some t /\ f_server f = f_client f;
  iv_cell : forall t, n_cell n = Allocated t -> f_tables f !! f_name f = Some t;
  iv_have : match n_cli n with CFinish | CDone Ok | CWrite2 => n_out n <> None | _ => True end;
  iv_gone : forall st, n_srv n = VGone st -> forall t, n_cell n <> Allocated t;
  iv_up : n_up n = [] \/ ((1 <= sent (n_cli n))%nat /\ n_up n = [first f]) \/ (sent (n_cli n) = 2%nat /\ (n_up n = [second f] \/ n_up n = [first f; second f]));
  iv_first : n_cell n <> Unallocated -> (1 <= sent (n_cli n))%nat /\ (n_up n = [] \/ n_up n = [second f]);
  iv_resp : n_resp n <> None -> n_cell n <> Unallocated;
  iv_crash : n_srv n <> VCrash }.

Lemma inv_new f : inv f (n_new f).
Proof. split; cbn; try done; [by left|by destruct (f_local f)..]. Qed.

Lemma up_tail f n r up : inv f n -> n_up n = r :: up -> (r = first f /\ (up = [] \/ (sent (n_cli n) = 2%nat /\ up = [second f])) /\ n_cell n = Unallocated /\ (1 <= sent (n_cli n))%nat) \/ (r = second f /\ up = [] /\ sent (n_cli n) = 2%nat).
Proof.
  intros [Ho Hc Hh Hg Hu Hf Hr Hx] E. rewrite E in Hu. destruct Hu as [Hu|[[Hs Hu]|[Hs [Hu|Hu]]]]; [done| | |]; injection Hu as -> ->.
  - left. split; [done|]. split; [by left|]. split; [|done]. destruct (n_cell n); [done|..]; exfalso; (destruct Hf as [_ [Hf|Hf]]; [done|by rewrite E in Hf|by rewrite E in Hf]).
  - by right.
  - left. split; [done|]. split; [by right|]. split; [|lia]. destruct (n_cell n); [done|..]; exfalso; (destruct Hf as [_ [Hf|Hf]]; [done|by rewrite E in Hf|by rewrite E in Hf]).
Qed.

Lemma inv_srv f n v : inv f n -> v <> VCrash -> (forall st, v <> VGone st) -> inv f (set_srv n v).
Proof. intros [Ho Hc Hh Hg Hu Hf Hr Hx] Hv1 Hv2. split; try done. intros st E. by destruct (Hv2 st). Qed.
Lemma inv_down f n d : inv f n -> inv f (set_down n d).
Proof. intros [Ho Hc Hh Hg Hu Hf Hr Hx]. by split. Qed.
Lemma sent_max c : (sent c <= 2)%nat.
Proof. destruct c; cbn; lia. Qed.
Lemma inv_cli f n c : inv f n -> (sent (n_cli n) <= sent c)%nat -> match c with CFinish | CDone Ok | CWrite2 => n_out n <> None | _ => True end -> inv f (set_cli n c).
Proof.
  intros [Ho Hc Hh Hg Hu Hf Hr Hx] Hs Hk. pose proof (sent_max c). split; try done; cbn.
  - destruct Hu as [Hu|[[H1 Hu]|[H1 Hu]]]; [by left|right; left; split; [lia|done]|right; right; split; [lia|done]].
  - intros Hcc. destruct (Hf Hcc) as [H1 H2]. split; [lia|done].
Qed.
Lemma inv_copy f n t : inv f n -> n_cell n = Allocated t -> f_server f = f_client f -> n_cli n = CCopy ->
  inv f (mkNet (n_srv n) (n_resp n) (n_cell n) CWrite2 (Some t) (n_up n) (n_down n) (n_broken n)).
Proof.
  intros [Ho Hc Hh Hg Hu Hf Hr Hx] Ec Hp El. rewrite El in *. split; cbn; try done. intros t' [= <-]. split; [by apply Hc|done].
Qed.
Lemma inv_send f n r c : inv f n -> (n_cli n = CWrite1 /\ r = first f /\ c = CRead) \/ (n_cli n = CWrite2 /\ r = second f /\ c = CFinish) -> inv f (set_cli (set_up n (n_up n ++ [r])) c).
Proof.
  intros [Ho Hc Hh Hg Hu Hf Hr Hx] H. destruct H as [(E & -> & ->)|(E & -> & ->)]; rewrite E in *; cbn [sent] in *.
  - assert (n_up n = []) as Eu by (destruct Hu as [?|[[? _]|[? _]]]; [done|lia|lia]). rewrite Eu. split; cbn; try done; [right; left; split; [lia|done]|]. intros Hcc. destruct (Hf Hcc). lia.
  - assert (n_up n = [] \/ n_up n = [first f]) as Eu by (destruct Hu as [?|[[_ ?]|[? _]]]; [by left|by right|lia]).
    split; cbn; try done.
    + right. right. split; [done|]. destruct Eu as [Eu|Eu]; rewrite Eu; [by left|by right].
    + intros Hcc. split; [lia|]. destruct (Hf Hcc) as [_ [Eu2|Eu2]]; rewrite Eu2; [by right|]. rewrite Eu2 in Eu. by destruct Eu.
Qed.

Ltac fin := repeat match goal with H : Some _ = Some _ |- _ => injection H as <- | H : None = Some _ |- _ => discriminate H end; try done.

Lemma inv_step f n e n' : (forall r, e <> HForeign r) -> inv f n -> h_step f n e = Some n' -> inv f n'.
Proof.
  intros Hne Hi Hs. pose proof Hi as [Ho Hc Hh Hg Hu Hf Hr Hx]. destruct e; cbn [h_step] in Hs.
  - (* a request arrives *)
    destruct (n_srv n) eqn:Ev; try done. destruct (n_up n) as [|r up] eqn:Eu; [done|]. injection Hs as <-.
    destruct (up_tail f n r up Hi Eu) as [(-> & Hup & Hun & Hs1)|(-> & -> & Hs2)].
    + unfold on_request. cbn [set_up n_cell]. rewrite Hun. assert (Hall : up = [] \/ up = [second f]) by (destruct Hup as [?|[_ ?]]; auto).
      assert (Hup' : up = [] \/ ((1 <= sent (n_cli n))%nat /\ up = [first f]) \/ (sent (n_cli n) = 2%nat /\ (up = [second f] \/ up = [first f; second f]))) by (destruct Hup as [?|[? ?]]; auto).
      assert (G : forall b, inv f (if b : bool then mkNet VWrite None Unallocated (n_cli n) (n_out n) up (n_down n) (n_broken n)
        else match f_tables f !! f_name f with None => set_srv (set_up n up) (VFinish NotFound) | Some t => mkNet VWrite (Some tt) (Allocated t) (n_cli n) (n_out n) up (n_down n) (n_broken n) end)).
      { intros []; [split; cbn; try done|]. destruct (f_tables f !! f_name f) as [t|] eqn:Et; split; cbn; try done; rewrite ?Hun; try done; try (by intros ? [= <-]); rewrite ?Et; try done; by rewrite Hun in Hr. }
      specialize (G (negb (r_pid (first f) =? f_pid f (f_server f)))). cbn [r_name first] in *. by destruct (f_impl f), (negb _).
    + unfold on_request. cbn [set_up n_cell].
      assert (A : forall v c rs, (c = n_cell n /\ (rs = n_resp n \/ rs = None) \/ exists t, c = Allocated t /\ f_tables f !! f_name f = Some t) -> v <> VCrash -> (forall st, v <> VGone st) -> inv f (mkNet v rs c (n_cli n) (n_out n) [] (n_down n) (n_broken n))).
      { intros v c rs Hcc Hv1 Hv2. split; cbn; try done.
        - intros t ->. destruct Hcc as [[E _]|(t' & [= <-] & ?)]; [by apply Hc|done].
        - intros st ->. by destruct (Hv2 st).
        - by left.
        - intros _. split; [lia|by left].
        - intros Hrs. destruct Hcc as [[E [E2|E2]]|(t & E & _)]; [rewrite E; apply Hr; by rewrite <- E2|by rewrite E2 in Hrs|by rewrite E]. }
      destruct (f_impl f); [destruct (n_cell n) as [|t0|] eqn:Ec; [|apply A; [by left; auto|done|done]|]|];
      (destruct (negb _); [apply A; [left; auto|done|done]|]); try (destruct (n_cell n) as [|t0|] eqn:Ec);
      try (cbn [r_name second]; destruct (f_tables f !! f_name f) as [t|] eqn:Et; apply A; [right; by exists t|done|done|left; auto|done|done]);
      cbn [r_transferred second]; apply A; try done; left; auto.
  - (* the read of the server fails *)
    destruct (n_srv n); try done. destruct (_ || _); [|done]. injection Hs as <-. by apply inv_srv.
  - destruct (n_srv n); try done. destruct (_ || _); [|done]. injection Hs as <-. unfold on_written.
    assert (inv f (if ok then set_down n (n_down n ++ [n_resp n]) else n)) as Hd by (destruct ok; [by apply inv_down|done]).
    revert Hd. generalize (if ok then set_down n (n_down n ++ [n_resp n]) else n). intros m Hd. destruct (n_resp m); [destruct ok|]; by apply inv_srv.
  - destruct (n_srv n) as [| |st|st|] eqn:Ev; try done. injection Hs as <-. split; cbn; try done.
    + intros t. destruct (n_cell n); try done.
    + intros st' _ t. by destruct (n_cell n).
    + intros Hcc. apply Hf. by destruct (n_cell n).
    + intros Hcc. specialize (Hr Hcc). by destruct (n_cell n).
  - destruct (n_cli n) eqn:El; try done. destruct ok; [|destruct (_ || _); [|done]]; injection Hs as <-; [apply inv_send; [done|by left]|apply inv_cli; [done|rewrite El; cbn; lia|done]].
  - destruct (n_cli n) eqn:El; try done. destruct (n_down n) as [|a d]; [done|]. injection Hs as <-. apply inv_cli; [by apply inv_down| |by destruct a]. cbn. rewrite El. destruct a; cbn; lia.
  - destruct (n_cli n) eqn:El; try done. destruct (n_down n); [destruct (_ || _)|destruct (n_broken n)]; try done; injection Hs as <-; (apply inv_cli; [done|rewrite El; cbn; lia|done]).
  - destruct (n_cli n) eqn:El; try done. injection Hs as <-. destruct (n_cell n) as [|t|] eqn:Ec; [apply inv_cli; [done|rewrite El; cbn; lia|done]| |apply inv_cli; [done|rewrite El; cbn; lia|done]].
    destruct (Z.eqb_spec (f_server f) (f_client f)); [rewrite <- Ec; by apply inv_copy|apply inv_cli; [done|rewrite El; cbn; lia|done]].
  - destruct (n_cli n) eqn:El; try done. destruct ok; [|destruct (_ || _); [|done]]; injection Hs as <-; [apply inv_send; [done|by right]|apply inv_cli; [done|rewrite El; cbn; lia|done]].
  - destruct (n_cli n) eqn:El; try done.
    + destruct (server_over n) as [st|]; [|destruct (n_broken n); [|done]]; injection Hs as <-; (apply inv_cli; [done|rewrite El; cbn; lia|]); [|done]. by repeat case_match.
    + destruct (server_over n) as [st|]; [|destruct (n_broken n); [|done]]; injection Hs as <-; (apply inv_cli; [done|rewrite El; cbn; lia|]); [|done]. destruct (n_broken n); [done|].
      destruct (bool_decide_reflect (st = Ok)) as [->|Hn]; [done|]. by destruct st.
  - injection Hs as <-. by split.
  - destruct (n_broken n); [|done]. destruct (n_up n) as [|r up] eqn:Eu; [done|]. injection Hs as <-.
    destruct (up_tail f n r up Hi Eu) as [(-> & Hup & Hun & Hs1)|(-> & -> & Hs2)]; split; cbn; try done.
    + destruct Hup as [->|[H2 ->]]; [by left|]. right. right. split; [done|by left].
    + by left.
    + intros _. split; [lia|by left].
  - destruct (n_broken n); [|done]. destruct (n_down n); [done|]. injection Hs as <-. by apply inv_down.
  - by destruct (Hne r).
Qed.
Lemma inv_reach f es n : proper es -> h_reach f es n -> inv f n.
Proof.
  intros Hp H. induction H as [|es n e n' H IH Hs]; [apply inv_new|]. eapply inv_step; [|apply IH|exact Hs].
  - intros r ->. apply (Hp r). apply elem_of_app. right. by apply elem_of_list_singleton.
  - intros r Hr. apply (Hp r). apply elem_of_app. by left.
Qed.

(** A client that is told Ok has the table that it asked for. *)
Theorem C72_result f es n : proper es -> h_reach f es n -> n_cli n = CDone Ok ->
  exists t, n_out n = Some t /\ f_tables f !! f_name f = Some t /\ f_server f = f_client f.
Proof.
  intros Hp Hr Hc. destruct (inv_reach f es n Hp Hr) as [Ho _ Hh _ _ _ _ _]. rewrite Hc in Hh. destruct (n_out n) as [t|] eqn:E; [|done]. exists t. by destruct (Ho t eq_refl).
Qed.
(** The server calls Finish once, and once it is done nothing that it has allocated is left. *)
Theorem C72_server f es n : proper es -> h_reach f es n -> n_srv n <> VCrash /\ forall st, n_srv n = VGone st -> forall t, n_cell n <> Allocated t.
Proof. intros Hp Hr. by destruct (inv_reach f es n Hp Hr). Qed.

(** ** Calls that are not broken *)

Inductive over (st : status) : vpos -> Prop := over_finish : over st (VFinish st) | over_gone : over st (VGone st).
Definition same f : Prop := f_pid f (f_server f) = f_pid f (f_client f).
Definition left_cell t (v : vpos) (c : cell T) : Prop := match v with VGone _ => c = Deleted | _ => c = Allocated t end.

(** All states of a call that is not broken. *)
Inductive calm_state f : net T -> Prop :=
| cs_far v c up : f_local f = false -> over Ok v -> c <> CFinish -> (c = CWrite1 \/ c = CRead \/ c = CFail \/ c = CDone Internal) -> calm_state f (mkNet v None Unallocated c None up [] false)
| cs_start : f_local f = true -> calm_state f (mkNet VRead None Unallocated CWrite1 None [] [] false)
| cs_asked : f_local f = true -> calm_state f (mkNet VRead None Unallocated CRead None [first f] [] false)
| cs_other : f_local f = true -> ~ same f -> calm_state f (mkNet VWrite None Unallocated CRead None [] [] false)
| cs_other_sent v : f_local f = true -> ~ same f -> over Ok v -> calm_state f (mkNet v None Unallocated CRead None [] [None] false)
| cs_other_done v : f_local f = true -> ~ same f -> over Ok v -> calm_state f (mkNet v None Unallocated (CDone FailedPrecondition) None [] [] false)
| cs_missing v c : f_local f = true -> same f -> f_tables f !! f_name f = None -> over NotFound v -> (c = CRead \/ c = CFail \/ c = CDone NotFound) -> calm_state f (mkNet v None Unallocated c None [] [] false)
| cs_found t : f_local f = true -> same f -> f_tables f !! f_name f = Some t -> calm_state f (mkNet VWrite (Some tt) (Allocated t) CRead None [] [] false)
| cs_address t : f_local f = true -> same f -> f_tables f !! f_name f = Some t -> calm_state f (mkNet VRead (Some tt) (Allocated t) CRead None [] [Some tt] false)
| cs_copy t : f_local f = true -> same f -> f_tables f !! f_name f = Some t -> calm_state f (mkNet VRead (Some tt) (Allocated t) CCopy None [] [] false)
| cs_copied t : f_local f = true -> same f -> f_tables f !! f_name f = Some t -> calm_state f (mkNet VRead (Some tt) (Allocated t) CWrite2 (Some t) [] [] false)
| cs_confirmed t : f_local f = true -> same f -> f_tables f !! f_name f = Some t -> calm_state f (mkNet VRead (Some tt) (Allocated t) CFinish (Some t) [second f] [] false)
| cs_end t v cl c : f_local f = true -> same f -> f_tables f !! f_name f = Some t -> over Ok v -> left_cell t v cl -> (c = CFinish \/ c = CDone Ok) -> calm_state f (mkNet v (Some tt) cl c (Some t) [] [] false).

Lemma calm_new f : calm_state f (n_new f).
Proof. unfold n_new. destruct (f_local f) eqn:E; [by apply cs_start|]. apply cs_far; [done|constructor|done|by left]. Qed.

Lemma calm_step f n e n' : ids_differ f -> (forall r, e <> HForeign r) -> e <> HBreak -> calm_state f n -> h_step f n e = Some n' -> calm_state f n'.
Proof.
  intros Hid Hf Hb Hc Hs. destruct Hc as [v c up Hl Hv Hnf Hc|Hl|Hl|Hl Hp|v Hl Hp Hv|v Hl Hp Hv|v c Hl Hp Ht Hv Hc|t Hl Hp Ht|t Hl Hp Ht|t Hl Hp Ht|t Hl Hp Ht|t Hl Hp Ht|t v cl c Hl Hp Ht Hv Hcl Hc].
  - destruct e; cbn in Hs; try done; try (by destruct (Hf r));
      try (by destruct Hv); try (destruct Hv; cbn in Hs; try done); try (destruct Hc as [->|[->|[->| ->]]]; cbn in Hs; try done);
      try (destruct ok); try done; injection Hs as <-; apply cs_far; try done; first [apply over_finish | apply over_gone | auto].
  - destruct e; cbn in Hs; try done; try (by destruct (Hf r)). destruct ok; [|done]. injection Hs as <-. by apply cs_asked.
  - destruct e; cbn in Hs; try done; try (by destruct (Hf r)). injection Hs as <-. unfold on_request. cbn.
    destruct (Z.eqb_spec (f_pid f (f_client f)) (f_pid f (f_server f))) as [Ep|Ep]; cbn [negb].
    + assert (same f) by done. destruct (f_tables f !! f_name f) as [t|] eqn:Et; destruct (f_impl f); try (by apply cs_found); (apply cs_missing; [done|done|done|constructor|by left]).
    + assert (~ same f) by (unfold same; congruence). by destruct (f_impl f); apply cs_other.
  - destruct e; cbn in Hs; try done; try (by destruct (Hf r)). destruct ok; [|done]. injection Hs as <-. cbn. apply cs_other_sent; try done. constructor.
  - destruct Hv; destruct e; cbn in Hs; try done; try (by destruct (Hf r)); injection Hs as <-; try (apply cs_other_sent; try done; constructor); apply cs_other_done; try done; constructor.
  - destruct Hv; destruct e; cbn in Hs; try done; try (by destruct (Hf r)); injection Hs as <-; apply cs_other_done; try done; constructor.
  - destruct Hv; destruct Hc as [->|[->| ->]]; destruct e; cbn in Hs; try done; try (by destruct (Hf r)); injection Hs as <-; apply cs_missing; try done; first [apply over_finish | apply over_gone | auto].
  - destruct e; cbn in Hs; try done; try (by destruct (Hf r)). destruct ok; [|done]. injection Hs as <-. by apply cs_address.
  - destruct e; cbn in Hs; try done; try (by destruct (Hf r)). injection Hs as <-. by apply cs_copy.
  - destruct e; cbn in Hs; try done; try (by destruct (Hf r)). injection Hs as <-. rewrite (Hid Hp), Z.eqb_refl. by apply cs_copied.
  - destruct e; cbn in Hs; try done; try (by destruct (Hf r)). destruct ok; [|done]. injection Hs as <-. by apply cs_confirmed.
  - destruct e; cbn in Hs; try done; try (by destruct (Hf r)). injection Hs as <-. unfold on_request. cbn. unfold same in Hp. rewrite Hp, Z.eqb_refl. cbn.
    destruct (f_impl f); (apply (cs_end f t); try done; [constructor|by left]).
  - destruct Hv; destruct Hc as [->| ->]; destruct e; cbn in Hs; try done; try (by destruct (Hf r)); injection Hs as <-; cbn in Hcl; subst cl; (apply (cs_end f t); try done; first [apply over_finish | apply over_gone | auto]).
Qed.
Lemma calm_reach f es n : ids_differ f -> proper es -> calm es -> h_reach f es n -> calm_state f n.
Proof.
  intros Hid Hp Hc H. induction H as [|es n e n' H IH Hs]; [apply calm_new|]. eapply calm_step; [done| | |apply IH|exact Hs].
  - intros r ->. apply (Hp r). apply elem_of_app. right. by apply elem_of_list_singleton.
  - intros ->. apply Hc. apply elem_of_app. right. by apply elem_of_list_singleton.
  - intros r Hr. apply (Hp r). apply elem_of_app. by left.
  - intros Hr. apply Hc. apply elem_of_app. by left.
Qed.

(** If the call is not broken and no other process has the same id: no memory is read that does not hold a
    pointer to a table, and when the client is done it has been told what is to be expected. *)
Theorem C72_safe_partial f es n : ids_differ f -> proper es -> calm es -> h_reach f es n ->
  n_cli n <> CUse /\ forall st, n_cli n = CDone st -> expected f st (n_out n).
Proof.
  intros Hid Hp Hc Hr. pose proof (calm_reach f es n Hid Hp Hc Hr) as H. unfold expected.
  destruct H as [v c up Hl Hv Hnf [->|[->|[->| ->]]]|Hl|Hl|Hl Hs|v Hl Hs Hv|v Hl Hs Hv|v c Hl Hs Ht Hv [->|[->| ->]]|t Hl Hs Ht|t Hl Hs Ht|t Hl Hs Ht|t Hl Hs Ht|t Hl Hs Ht|t v cl c Hl Hs Ht Hv Hcl [->| ->]];
    cbn; (split; [done|]); intros st [= <-]; rewrite Hl; try done; unfold same in Hs.
  - by rewrite (proj2 (Z.eqb_neq _ _)).
  - by rewrite Hs, Z.eqb_refl, Ht.
  - by rewrite Hs, Z.eqb_refl, Ht.
Qed.

(** Such a call always comes to its end: as long as client or server is not done a step is possible, and
    there are at most 11 of them. *)
Definition rank_v (v : vpos) (c : cell T) : nat := match v with VRead => match c with Unallocated => 5 | _ => 3 end | VWrite => 4 | VFinish _ => 1 | _ => 0 end.
Definition rank_c (c : cpos) : nat := match c with CWrite1 => 6 | CRead => 5 | CCopy => 4 | CWrite2 => 3 | CFinish | CFail => 1 | _ => 0 end.
Theorem C72_progress_partial f es n : ids_differ f -> proper es -> calm es -> h_reach f es n ->
  ((exists st st', n_cli n = CDone st /\ n_srv n = VGone st') \/ exists e n', h_step f n e = Some n' /\ e <> HBreak /\ forall r, e <> HForeign r) /\ (length es <= 11)%nat.
Proof.
  intros Hid Hp Hc Hr. split.
  - pose proof (calm_reach f es n Hid Hp Hc Hr) as H.
    destruct H as [v c up Hl Hv Hnf Hcc|Hl|Hl|Hl Hs|v Hl Hs Hv|v Hl Hs Hv|v c Hl Hs Ht Hv Hcc|t Hl Hs Ht|t Hl Hs Ht|t Hl Hs Ht|t Hl Hs Ht|t Hl Hs Ht|t v cl c Hl Hs Ht Hv Hcl Hcc].
    + destruct Hv; [right; by exists HServerDone; eexists|]. destruct Hcc as [->|[->|[->| ->]]]; [right; by exists (HClientWrite true); eexists|right; by exists HClientReadFail; eexists|right; by exists HClientFinish; eexists|left; by eexists _, _].
    + right. by exists (HClientWrite true); eexists.
    + right. by exists HServerRead; eexists.
    + right. by exists (HServerWrite true); eexists.
    + right. by exists HClientRead; eexists.
    + destruct Hv; [right; by exists HServerDone; eexists|left; by eexists _, _].
    + destruct Hv; [right; by exists HServerDone; eexists|]. destruct Hcc as [->|[->| ->]]; [right; by exists HClientReadFail; eexists|right; by exists HClientFinish; eexists|left; by eexists _, _].
    + right. by exists (HServerWrite true); eexists.
    + right. by exists HClientRead; eexists.
    + right. by exists HCopy; eexists.
    + right. by exists (HClientWrite2 true); eexists.
    + right. by exists HServerRead; eexists.
    + destruct Hcc as [->| ->]; [right; exists HClientFinish; destruct Hv; by eexists|]. destruct Hv; [right; by exists HServerDone; eexists|left; by eexists _, _].
  - assert (G : (length es + (rank_v (n_srv n) (n_cell n) + rank_c (n_cli n)) <= 11)%nat); [|lia].
    induction Hr as [|es n e n' Hr IH Hs]; [unfold n_new; cbn; destruct (f_local f); cbn; lia|].
    assert (Hp' : proper es) by (intros r Hin; apply (Hp r); apply elem_of_app; by left). assert (Hc' : calm es) by (intros Hin; apply Hc; apply elem_of_app; by left).
    specialize (IH Hp' Hc'). pose proof (calm_reach f es n Hid Hp' Hc' Hr) as H. rewrite app_length. cbn [length].
    assert (Hf : forall r, e <> HForeign r) by (intros r ->; apply (Hp r); apply elem_of_app; right; by apply elem_of_list_singleton).
    assert (Hb : e <> HBreak) by (intros ->; apply Hc; apply elem_of_app; right; by apply elem_of_list_singleton).
    enough (rank_v (n_srv n') (n_cell n') + rank_c (n_cli n') < rank_v (n_srv n) (n_cell n) + rank_c (n_cli n))%nat by lia. clear IH Hr Hp Hc Hp' Hc'.
    destruct H as [v c up Hl Hv Hnf Hcc|Hl|Hl|Hl Hs1|v Hl Hs1 Hv|v Hl Hs1 Hv|v c Hl Hs1 Ht Hv Hcc|t Hl Hs1 Ht|t Hl Hs1 Ht|t Hl Hs1 Ht|t Hl Hs1 Ht|t Hl Hs1 Ht|t v cl c Hl Hs1 Ht Hv Hcl Hcc];
      try (destruct Hv); try (destruct Hcc as [->|[->|[->| ->]]]); try (destruct Hcc as [->|[->| ->]]); try (destruct Hcc as [->| ->]); destruct e; cbn in Hs; try done; try (by destruct (Hf r)); try (destruct ok); try done; injection Hs as <-; cbn; try lia.
    + unfold on_request. cbn. destruct (f_impl f), (negb _), (f_tables f !! f_name f); cbn; lia.
    + destruct (f_server f =? f_client f); cbn; lia.
    + unfold on_request. cbn. unfold same in Hs1. rewrite Hs1, Z.eqb_refl. destruct (f_impl f); cbn; lia.
Qed.

(** *** Clients that send something else *)

(** The synchronous server calls Finish once whatever it is sent. *)
Theorem C72_sync f es n : f_impl f = Sync -> h_reach f es n -> n_srv n <> VCrash /\ forall st, n_srv n = VGone st -> forall t, n_cell n <> Allocated t.
Proof.
  intros Hi H. assert (G : n_srv n <> VCrash /\ (n_cell n = Deleted -> exists st, n_srv n = VGone st) /\ (forall st, n_srv n = VGone st -> forall t, n_cell n <> Allocated t)); [|by destruct G as (? & _ & ?)].
  induction H as [|es n e n' H IH Hs]; [unfold n_new; cbn; split; [by destruct (f_local f)|]; split; [done|]; by destruct (f_local f)|].
  destruct IH as (I1 & I2 & I3). destruct e; cbn [h_step] in Hs.
  - destruct (n_srv n) eqn:Ev; try done. destruct (n_up n) as [|r up]; [done|]. injection Hs as <-. unfold on_request. rewrite Hi. cbn [set_up n_cell].
    destruct (n_cell n) as [|t|] eqn:Ec; [destruct (negb _); [done|]; destruct (f_tables f !! r_name r); cbn; try done; by rewrite Ec|cbn; by rewrite Ec|]. destruct (I2 eq_refl); done.
  - destruct (n_srv n) eqn:Ev; try done. destruct (_ || _); [|done]. injection Hs as <-. split; [done|]. split; [|done]. cbn. intros Hd. by destruct (I2 Hd).
  - destruct (n_srv n) eqn:Ev; try done. destruct (_ || _); [|done]. injection Hs as <-. unfold on_written.
    assert (forall m, n_cell m = n_cell n -> n_srv (match n_resp m with None => set_srv m (VFinish Ok) | Some _ => set_srv m (if ok then VRead else VFinish Internal) end) <> VCrash /\
      (n_cell (match n_resp m with None => set_srv m (VFinish Ok) | Some _ => set_srv m (if ok then VRead else VFinish Internal) end) = Deleted -> exists st, n_srv (match n_resp m with None => set_srv m (VFinish Ok) | Some _ => set_srv m (if ok then VRead else VFinish Internal) end) = VGone st) /\
      forall st, n_srv (match n_resp m with None => set_srv m (VFinish Ok) | Some _ => set_srv m (if ok then VRead else VFinish Internal) end) <> VGone st) as G.
    { intros m Em. destruct (n_resp m); cbn; rewrite Em; (split; [by destruct ok|]); (split; [intros Hd; by destruct (I2 Hd)|by destruct ok]). }
    destruct (G (if ok then set_down n (n_down n ++ [n_resp n]) else n) ltac:(by destruct ok)) as (G1 & G2 & G3). split; [done|]. split; [done|]. intros st E. by destruct (G3 st).
  - destruct (n_srv n) eqn:Ev; try done. injection Hs as <-. cbn. split; [done|]. split; [by eexists|]. intros st' _ t. by destruct (n_cell n).
  - destruct (n_cli n); try done. destruct ok; [|destruct (_ || _); [|done]]; by injection Hs as <-.
  - destruct (n_cli n); try done. destruct (n_down n); [done|]. by injection Hs as <-.
  - destruct (n_cli n); try done. destruct (n_down n); [destruct (_ || _)|destruct (n_broken n)]; try done; by injection Hs as <-.
  - destruct (n_cli n); try done. injection Hs as <-. destruct (n_cell n) eqn:Ec; cbn; try (by rewrite Ec). destruct (_ =? _); cbn; rewrite ?Ec; done.
  - destruct (n_cli n); try done. destruct ok; [|destruct (_ || _); [|done]]; by injection Hs as <-.
  - destruct (n_cli n); try done; destruct (server_over n); [|destruct (n_broken n); [|done]| |destruct (n_broken n); [|done]]; by injection Hs as <-.
  - by injection Hs as <-.
  - destruct (n_broken n); [|done]. destruct (n_up n); [done|]. by injection Hs as <-.
  - destruct (n_broken n); [|done]. destruct (n_down n); [done|]. by injection Hs as <-.
  - by injection Hs as <-.
Qed.
End C72.

(** ** Examples *)

Lemma run_reach {T} (f : conf T) es n : h_run f es = Some n -> h_reach f es n.
Proof.
  unfold h_run. revert n. induction es as [|e es IH] using rev_ind; intros n; [cbn; intros [= <-]; constructor|]. rewrite foldl_app. cbn.
  destruct (foldl _ _ es) as [m|] eqn:E; [|done]. cbn. intros H. econstructor; [by apply IH|done].
Qed.

(** A server with one table, a client that asks for it in the same process, and one that is in
    another process with the same id (two containers with a common network). *)
Definition hx (i : impl) (same_process : bool) : conf Z := mkConf i {[ 5 := 77 ]} true 5 1 (if same_process then 1 else 2) (fun _ => 8).
Definition hx_run : list hev := [HClientWrite true; HServerRead; HServerWrite true; HClientRead; HCopy; HClientWrite2 true; HServerRead; HServerDone; HClientFinish].
Example C72_example i : exists n, h_reach (hx i true) hx_run n /\ ids_differ (hx i true) /\ proper hx_run /\ calm hx_run /\ n_cli n = CDone Ok /\ n_out n = Some 77 /\ (exists st, n_srv n = VGone st) /\ n_cell n = Deleted.
Proof.
  destruct i; (eexists; split; [apply run_reach; vm_compute; reflexivity|]; split; [done|]; split; [intros r H; repeat (apply elem_of_cons in H as [H|H]; [discriminate H|]); by apply elem_of_nil in H|];
    split; [intros H; repeat (apply elem_of_cons in H as [H|H]; [discriminate H|]); by apply elem_of_nil in H|]; split; [reflexivity|]; split; [reflexivity|]; split; [by eexists|reflexivity]).
Qed.

(** *** What is not so *)

(** The call is broken (by the shutdown of the server, for instance) after the address has been sent: the
    server deletes the pointer, and the client copies it. *)
Theorem C72_broken_refuted : ~ (forall (f : conf Z) es n, ids_differ f -> proper es -> h_reach f es n -> n_cli n <> CUse).
Proof.
  intros H. eapply (H (hx Async true) [HClientWrite true; HServerRead; HServerWrite true; HClientRead; HBreak; HServerReadFail; HServerDone; HCopy]); [done| |apply run_reach; vm_compute; reflexivity|reflexivity].
  intros r Hr. repeat (apply elem_of_cons in Hr as [Hr|Hr]; [discriminate Hr|]). by apply elem_of_nil in Hr.
Qed.
(** Processes are told apart by their ids: if these are not unique the client uses an address of another
    process. *)
Theorem C72_namespace_refuted : ~ (forall (f : conf Z) es n, proper es -> calm es -> h_reach f es n -> n_cli n <> CUse).
Proof.
  intros H. eapply (H (hx Sync false) [HClientWrite true; HServerRead; HServerWrite true; HClientRead; HCopy]); [| |apply run_reach; vm_compute; reflexivity|reflexivity].
  - intros r Hr. repeat (apply elem_of_cons in Hr as [Hr|Hr]; [discriminate Hr|]). by apply elem_of_nil in Hr.
  - intros Hr. repeat (apply elem_of_cons in Hr as [Hr|Hr]; [discriminate Hr|]). by apply elem_of_nil in Hr.
Qed.
(** A client that sends its first request twice makes the asynchronous server call Finish twice. *)
Theorem C72_foreign_refuted : ~ (forall (f : conf Z) es n, h_reach f es n -> n_srv n <> VCrash).
Proof.
  intros H. eapply (H (hx Async true) [HForeign (mkReq 8 5 false); HServerRead; HServerWrite true; HForeign (mkReq 8 5 false); HServerRead]); [apply run_reach; vm_compute; reflexivity|reflexivity].
Qed.

Print Assumptions C72_result.
Print Assumptions C72_server.
Print Assumptions C72_safe_partial.
Print Assumptions C72_progress_partial.
Print Assumptions C72_sync.
Print Assumptions C72_broken_refuted.
Print Assumptions C72_namespace_refuted.
Print Assumptions C72_foreign_refuted.
