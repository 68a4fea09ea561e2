(** C98: timeouts and failures reach the Python caller as what they are. *)
From Verif Require Import Base PyErrors.
From Coq Require Import Strings.String Strings.Ascii.
From stdpp Require Import pretty.
Open Scope string_scope.
Open Scope Z_scope.

(** ** Specification *)

Definition ok (s : xstatus) : Prop := x_code s = 0.
(** The text occurs in the message. *)
Definition says (text : string) (s : xstatus) : Prop := exists a b, x_msg s = a ++ text ++ b.
(** What a call waits for, happening at [ready], happens before the timeout is over. *)
Definition in_time (timeout ready : option Z) : Prop :=
  exists r, ready = Some r /\ forall t, timeout = Some t -> r <= Z.max 0 t.

(** ** Texts *)

Lemma prefix_app s b : String.prefix s (s ++ b) = true.
Proof. induction s as [|c s IH]; [by destruct b|]. change (String c s ++ b) with (String c (s ++ b)). cbn. destruct (ascii_dec c c); [exact IH|done]. Qed.
Lemma prefix_spec sub : forall s, String.prefix sub s = true <-> exists b, s = sub ++ b.
Proof.
  intros s. split; [|intros (b & ->); apply prefix_app]. revert s.
  induction sub as [|c sub IH]; intros s; cbn; [by exists s|].
  destruct s as [|c' s]; [done|]. cbn. destruct (ascii_dec c c') as [->|]; [|done].
  intros H. apply IH in H as (b & ->). by exists b.
Qed.
Lemma contains_spec sub s : contains sub s = true <-> exists a b, s = a ++ sub ++ b.
Proof.
  induction s as [|c s IH]; cbn [contains]; rewrite orb_true_iff, prefix_spec.
  - split; [intros [(b & E)|?]; [by exists "", b|done]|].
    intros (a & b & E). left. destruct a; [by exists b|done].
  - rewrite IH. split.
    + intros [(b & E)|(a & b & ->)]; [by exists "", b|by exists (String c a), b].
    + intros (a & b & E). destruct a as [|c' a]; [left; by exists b|]. right. injection E as -> ->. by exists a, b.
Qed.
Lemma says_dec text s : contains text (x_msg s) = true <-> says text s.
Proof. apply contains_spec. Qed.
Lemma not_says text s : ~ says text s -> contains text (x_msg s) = false.
Proof. rewrite <- says_dec. by destruct (contains _ _). Qed.

(** ** gRPC *)

(** A status of the server arrives with its code and its message; the one exception
    is the status that gRPC makes when a stream is removed, which becomes UNAVAILABLE. *)
Theorem C98_wire s : (ok s -> x_msg s = "") ->
  let s' := from_grpc (to_grpc s) in
  (ok s' <-> ok s) /\ x_msg s' = x_msg s /\
  (x_code s' = x_code s \/ x_code s = 2 /\ x_msg s = "Stream removed" /\ x_code s' = 14).
Proof.
  intros H. unfold ok in *. destruct s as [c m]. cbn in H |- *. unfold to_grpc. cbn.
  destruct (Z.eqb_spec c 0) as [->|Hc]; [cbn; rewrite H by done; auto|].
  unfold from_grpc, stream_removed. cbn. destruct (Z.eqb_spec c 0); [done|].
  destruct (Z.eqb_spec c 2) as [->|H2]; cbn; [|auto].
  case_bool_decide; cbn; [|auto]. split; [done|]. auto.
Qed.

(** An iterator ends exactly if it has a rate limiter timeout and the table of the server
    reported the timeout of its rate limiter; it gives an element exactly if the status is OK. *)
Theorem C98_dataset limited s : (ok s -> x_msg s = "") ->
  (next_of limited (from_grpc (to_grpc s)) = NEnd <-> limited = true /\ x_code s = 4 /\ says rate_text s) /\
  (next_of limited (from_grpc (to_grpc s)) = NElement <-> ok s).
Proof.
  intros H. destruct (C98_wire s H) as (Hok & Hm & Hc). cbv zeta in *.
  set (s' := from_grpc (to_grpc s)) in *. unfold next_of, is_rate_limiter_timeout, ok in *.
  rewrite <- says_dec, <- Hm. destruct (Z.eqb_spec (x_code s') 0) as [E|E].
  - split; [|tauto]. split; [done|]. intros (_ & H4 & _). lia.
  - destruct limited; cbn; [|split; [by split; [|intros [? _]]|split; [done|tauto]]].
    destruct (Z.eqb_spec (x_code s') 4) as [E4|E4]; cbn.
    + destruct (contains _ _); [|split; [by split; [|intros (_ & _ & ?)]|split; [done|tauto]]].
      split; [|split; [done|tauto]]. split; [|done]. intros _. split; [done|]. split; [lia|done].
    + split; [|split; [done|tauto]]. split; [done|]. intros (_ & H4 & _). lia.
Qed.

(** ** Calls *)

Lemma handle_spec text given s : (~ says text s \/ given = false) ->
  match handle text given s with
  | Returns => ok s
  | Raises e => ~ ok s /\ maybe_raise s = Some e /\ e <> DeadlineExceededError
  | Hangs => False
  end.
Proof.
  intros H. unfold handle. destruct (maybe_raise s) as [e|] eqn:E.
  - assert (Hne : e <> DeadlineExceededError /\ (forall t, caught e = Some t -> t = x_msg s) /\ ~ ok s).
    { unfold maybe_raise in E. unfold ok. destruct (Z.eqb_spec (x_code s) 0); [done|]. injection E as <-.
      split; [repeat case_match; done|]. split; [|done]. intros t. repeat case_match; cbn; by intros [= <-]. }
    destruct Hne as (Hne & Ht & Ho). destruct (caught e) as [t|]; [|done].
    rewrite (Ht t eq_refl). destruct H as [H| ->]; [rewrite (not_says _ _ H)|rewrite andb_false_r]; done.
  - unfold maybe_raise in E. unfold ok. by destruct (Z.eqb_spec (x_code s) 0).
Qed.
Lemma handle_timeout nq nf : handle "Timeout exceeded" true (timeout_status nq nf) = Raises DeadlineExceededError.
Proof. reflexivity. Qed.

Lemma flush_locked_spec timeout forced ready u nq nf :
  match flush_locked timeout forced ready u nq nf with
  | None => ok forced /\ timeout = None /\ ready = None
  | Some s =>
    (s = forced /\ ~ ok forced) \/ (ok forced /\ in_time timeout ready /\ s = u) \/
    (ok forced /\ ~ in_time timeout ready /\ is_Some timeout /\ s = timeout_status nq nf)
  end.
Proof.
  unfold flush_locked, ok, in_time. destruct (Z.eqb_spec (x_code forced) 0) as [E|E]; cbn; [|by left].
  destruct timeout as [t|], ready as [r|]; [destruct (Z.leb_spec r (Z.max 0 t))| | |]; try (by split_and!); right.
  - left. split; [done|]. split; [|done]. exists r. split; [done|]. intros t' [= <-]. done.
  - right. split; [done|]. split; [|by eauto]. intros (r' & [= <-] & Hr). specialize (Hr _ eq_refl). lia.
  - right. split; [done|]. split; [|by eauto]. by intros (r' & ? & _).
  - left. split; [done|]. split; [|done]. by exists r.
Qed.

(** flush with no timeout, or a positive one, when the failures, if any, do not speak of
    timeouts: it raises DeadlineExceededError exactly if a timeout was given and the items
    were not confirmed in time; it returns exactly if they were; it waits for ever only if
    that was asked for; and every other exception is the one of the failure. *)
Theorem C98_flush_partial block timeout forced ready u nq nf :
  0 <= block -> (forall t, timeout = Some t -> 0 < t) ->
  ~ says "Timeout exceeded" forced -> ~ says "Timeout exceeded" u ->
  let o := py_flush block timeout forced ready u nq nf in
  (o = Raises DeadlineExceededError <-> ok forced /\ is_Some timeout /\ ~ in_time timeout ready) /\
  (o = Returns <-> ok forced /\ in_time timeout ready /\ ok u) /\
  (o = Hangs <-> ok forced /\ timeout = None /\ ready = None) /\
  (forall e, o = Raises e -> e = DeadlineExceededError \/ maybe_raise forced = Some e \/ maybe_raise u = Some e).
Proof.
  intros Hb Ht Hf Hu. cbv zeta. unfold py_flush. rewrite (proj2 (Z.ltb_ge _ _) Hb).
  assert (Hd : (if 0 <? default (-1) timeout then Some (default (-1) timeout) else None) = timeout).
  { destruct timeout as [t|]; [|done]. cbn. specialize (Ht t eq_refl). by rewrite (proj2 (Z.ltb_lt _ _) Ht). }
  rewrite Hd. pose proof (flush_locked_spec timeout forced ready u nq nf) as S.
  destruct (flush_locked _ _ _ _ _ _) as [s|].
  - destruct S as [[-> Hno]|[(Ho & Hi & ->)|(Ho & Hi & Hs & ->)]].
    + pose proof (handle_spec "Timeout exceeded" true forced (or_introl Hf)) as S.
      destruct (handle _ _ _) as [|e|]; [done| |done]. destruct S as (_ & Hr & Hne).
      split; [split; [congruence|intros (? & _); done]|]. split; [split; [done|intros (? & _); done]|].
      split; [split; [done|intros (? & _); done]|]. intros e' [= <-]. auto.
    + pose proof (handle_spec "Timeout exceeded" true u (or_introl Hu)) as S.
      destruct (handle _ _ _) as [|e|]; [| |done].
      * split; [split; [done|intros (_ & _ & ?); done]|]. split; [done|]. split; [|done].
        split; [done|]. intros (_ & _ & ->). by destruct Hi as (r & ? & _).
      * destruct S as (Hnu & Hr & Hne). split; [split; [congruence|intros (_ & _ & ?); done]|].
        split; [split; [done|intros (_ & _ & ?); done]|]. split; [|intros e' [= <-]; auto].
        split; [done|]. intros (_ & _ & ->). by destruct Hi as (r & ? & _).
    + rewrite handle_timeout. split; [done|]. split; [split; [done|intros (_ & ? & _); done]|].
      split; [split; [done|intros (_ & -> & _); by destruct Hs]|]. intros e [= <-]. auto.
  - destruct S as (Ho & -> & ->). split; [split; [done|intros (_ & [? ?] & _); done]|].
    split; [split; [done|intros (_ & (r & ? & _) & _); done]|]. done.
Qed.

(** end_episode in the same way, for every timeout, also 0 and negative ones (which mean
    that it does not wait), and without the condition on texts if there is no timeout. *)
Theorem C98_end_episode_partial timeout u0 forced ready u nq nf ends :
  (is_Some timeout -> forall s, s = u0 \/ s = forced \/ s = u \/ s = ends -> ~ says "Timeout exceeded" s) ->
  let o := py_end_episode timeout u0 forced ready u nq nf ends in
  (o = Raises DeadlineExceededError <-> ok u0 /\ ok forced /\ is_Some timeout /\ ~ in_time timeout ready) /\
  (o = Returns <-> ok u0 /\ ok forced /\ in_time timeout ready /\ ok u /\ ok ends) /\
  (o = Hangs <-> ok u0 /\ ok forced /\ timeout = None /\ ready = None) /\
  (forall e, o = Raises e -> e = DeadlineExceededError \/ exists s, (s = u0 \/ s = forced \/ s = u \/ s = ends) /\ maybe_raise s = Some e).
Proof.
  intros Hq. cbv zeta. unfold py_end_episode. set (given := bool_decide (is_Some timeout)).
  assert (Hg : forall s, s = u0 \/ s = forced \/ s = u \/ s = ends -> ~ says "Timeout exceeded" s \/ given = false).
  { intros s Hs. unfold given. case_bool_decide as Hx; [left; by apply Hq|by right]. }
  destruct (Z.eqb_spec (x_code u0) 0) as [E0|E0]; cbn [negb].
  2:{ pose proof (handle_spec "Timeout exceeded" given u0 (Hg u0 (or_introl eq_refl))) as S.
      destruct (handle _ _ _) as [|e|]; [done| |done]. destruct S as (Hn & Hr & Hne).
      split; [split; [congruence|intros (? & _); done]|]. split; [split; [done|intros (? & _); done]|].
      split; [split; [done|intros (? & _); done]|]. intros e' [= <-]. right. exists u0. auto. }
  change (ok u0) in E0.
  pose proof (flush_locked_spec timeout forced ready u nq nf) as S.
  destruct (flush_locked _ _ _ _ _ _) as [s|].
  - destruct S as [[-> Hno]|[(Ho & Hi & ->)|(Ho & Hi & Hs & ->)]].
    + rewrite (proj2 (Z.eqb_neq _ _) Hno).
      pose proof (handle_spec "Timeout exceeded" given forced (Hg forced ltac:(auto))) as S.
      destruct (handle _ _ _) as [|e|]; [done| |done]. destruct S as (_ & Hr & Hne).
      split; [split; [congruence|intros (_ & ? & _); done]|]. split; [split; [done|intros (_ & ? & _); done]|].
      split; [split; [done|intros (_ & ? & _); done]|]. intros e' [= <-]. right. exists forced. auto.
    + assert (Hh : forall v, (v = u /\ ~ ok u) \/ (v = ends /\ ok u) ->
        match handle "Timeout exceeded" given v with
        | Returns => ok u /\ ok ends
        | Raises e => ~ (ok u /\ ok ends) /\ e <> DeadlineExceededError /\ exists s, (s = u0 \/ s = forced \/ s = u \/ s = ends) /\ maybe_raise s = Some e
        | Hangs => False
        end).
      { intros v [[-> Hv]|[-> Hv]].
        - pose proof (handle_spec "Timeout exceeded" given u (Hg u ltac:(auto))) as S.
          destruct (handle _ _ _) as [|e|]; [done| |done]. destruct S as (_ & Hr & Hne).
          split; [by intros [? _]|]. split; [done|]. exists u. auto.
        - pose proof (handle_spec "Timeout exceeded" given ends (Hg ends ltac:(auto))) as S.
          destruct (handle _ _ _) as [|e|]; [done| |done]. destruct S as (Hn & Hr & Hne).
          split; [by intros [_ ?]|]. split; [done|]. exists ends. auto. }
      specialize (Hh (if x_code u =? 0 then ends else u)).
      destruct (handle _ _ _) as [|e|].
      * destruct Hh as [Hu He]; [destruct (Z.eqb_spec (x_code u) 0); auto|].
        split; [split; [done|intros (_ & _ & _ & ?); done]|]. split; [done|]. split; [|done].
        split; [done|]. intros (_ & _ & _ & ->). by destruct Hi as (r & ? & _).
      * destruct Hh as (Hn & Hne & He); [destruct (Z.eqb_spec (x_code u) 0); auto|].
        split; [split; [congruence|intros (_ & _ & _ & ?); done]|].
        split; [split; [done|intros (_ & _ & _ & ?); done]|]. split; [|intros e' [= <-]; auto].
        split; [done|]. intros (_ & _ & _ & ->). by destruct Hi as (r & ? & _).
      * exfalso. apply Hh. destruct (Z.eqb_spec (x_code u) 0); auto.
    + cbn [x_code timeout_status]. change (4 =? 0) with false. cbv iota.
      assert (given = true) as -> by (unfold given; by apply bool_decide_eq_true_2).
      rewrite handle_timeout. split; [done|]. split; [split; [done|intros (_ & _ & ? & _); done]|].
      split; [split; [done|intros (_ & _ & -> & _); by destruct Hs]|]. intros e [= <-]. auto.
  - destruct S as (Ho & -> & ->). split; [split; [done|intros (_ & _ & [? ?] & _); done]|].
    split; [split; [done|intros (_ & _ & (r & ? & _) & _); done]|]. done.
Qed.

(** server_info with no timeout or a positive one, if the errors of the server do not
    contain the words by which client.py knows a timeout of gRPC. *)
Theorem C98_server_info_partial timeout answer cache :
  (forall t, timeout = Some t -> 0 < t) ->
  (forall r g, answer = Some (r, g) -> ~ says "Deadline Exceeded" (from_grpc g)) -> ~ says "Deadline Exceeded" cache ->
  let ready := fst <$> answer in
  let o := py_server_info timeout answer cache in
  (o = Raises DeadlineExceededError <-> is_Some timeout /\ ~ in_time timeout ready) /\
  (o = Returns <-> in_time timeout ready /\ (exists r g, answer = Some (r, g) /\ ok (from_grpc g)) /\ ok cache) /\
  (o = Hangs <-> timeout = None /\ answer = None).
Proof.
  intros Ht Ha Hc. cbv zeta. unfold py_server_info. cbv zeta.
  assert (Hd : (if 0 <? default 0 timeout then Some (default 0 timeout) else None) = timeout).
  { destruct timeout as [t|]; [|done]. cbn. specialize (Ht t eq_refl). by rewrite (proj2 (Z.ltb_lt _ _) Ht). }
  rewrite Hd. set (given := bool_decide (is_Some timeout)).
  assert (Hlate : is_Some timeout -> handle "Deadline Exceeded" given (if x_code (from_grpc (mkG 4 "Deadline Exceeded")) =? 0 then cache else from_grpc (mkG 4 "Deadline Exceeded")) = Raises DeadlineExceededError).
  { intros Hs. unfold given. rewrite bool_decide_eq_true_2 by done. reflexivity. }
  assert (Hans : forall r g, answer = Some (r, g) -> in_time timeout (Some r) ->
     let o := handle "Deadline Exceeded" given (if x_code (from_grpc g) =? 0 then cache else from_grpc g) in
     (o = Raises DeadlineExceededError <-> is_Some timeout /\ ~ in_time timeout (fst <$> answer)) /\
     (o = Returns <-> in_time timeout (fst <$> answer) /\ (exists r g, answer = Some (r, g) /\ ok (from_grpc g)) /\ ok cache) /\
     (o = Hangs <-> timeout = None /\ answer = None)).
  { intros r g Eg Hi. cbv zeta. specialize (Ha r g Eg). subst answer. cbn [fmap option_fmap option_map fst].
    assert (Hw : ~ says "Deadline Exceeded" (if x_code (from_grpc g) =? 0 then cache else from_grpc g)) by (destruct (x_code (from_grpc g) =? 0); assumption).
    pose proof (handle_spec "Deadline Exceeded" given _ (or_introl Hw)) as S.
    revert S. match goal with |- context [handle ?a ?b ?c] => destruct (handle a b c) as [|e|] end; intros S; [| |done].
    - split; [split; [done|intros (_ & ?); done]|]. split; [|split; [done|intros (_ & ?); done]].
      split; [|done]. intros _. destruct (Z.eqb_spec (x_code (from_grpc g)) 0) as [E|E]; [|done].
      split; [done|]. split; [|done]. by exists r, g.
    - destruct S as (Hn & _ & Hne). split; [split; [congruence|intros (_ & ?); done]|].
      split; [|split; [done|intros (_ & ?); done]]. split; [done|]. intros (_ & (r' & g' & [= <- <-] & Ho) & Hoc). exfalso.
      apply Hn. unfold ok in Ho. by rewrite Ho. }
  destruct timeout as [t|], answer as [[r g]|].
  - destruct (Z.leb_spec r t) as [Hr|Hr].
    + apply (Hans r g eq_refl). exists r. split; [done|]. intros t' [= <-]. lia.
    + rewrite Hlate by done. assert (Hn : ~ in_time (Some t) (Some r)).
      { intros (r' & [= <-] & H). specialize (H _ eq_refl). specialize (Ht _ eq_refl). lia. }
      split; [done|]. split; [split; [done|intros (? & _); done]|]. split; [done|intros (? & _); done].
  - rewrite Hlate by done. split; [split; [|done]; intros _; split; [done|]; by intros (r & ? & _)|].
    split; [split; [done|]; by intros ((r & ? & _) & _)|]. split; [done|by intros (? & _)].
  - apply (Hans r g eq_refl). exists r. split; done.
  - split; [split; [done|by intros ([? ?] & _)]|]. split; [|done]. split; [done|]. by intros ((r & ? & _) & _).
Qed.

(** ** Cases *)

(** A timeout of 0: flush waits for ever, end_episode not at all; server_info waits for
    ever. *)
Theorem C98_zero_refuted :
  py_flush 0 (Some 0) x_ok None x_ok 1 0 = Hangs /\
  py_end_episode (Some 0) x_ok x_ok None x_ok 1 0 x_ok = Raises DeadlineExceededError /\
  py_server_info (Some 0) None x_ok = Hangs.
Proof. by vm_compute. Qed.
(** The server does not know the table, whose name speaks of timeouts: flush without a
    timeout raises DeadlineExceededError after 5 milliseconds. *)
Theorem C98_text_refuted :
  py_flush 0 None x_ok (Some 5) (from_grpc (to_grpc (mkX 5 "Priority table Timeout exceeded was not found"))) 0 1 = Raises DeadlineExceededError.
Proof. by vm_compute. Qed.
(** So does the timeout of the rate limiter itself. *)
Theorem C98_limiter_text_refuted :
  py_flush 0 None x_ok (Some 5) (from_grpc (to_grpc rate_limiter_timeout)) 0 1 = Raises DeadlineExceededError.
Proof. by vm_compute. Qed.

Lemma says_no text s : contains text (x_msg s) = false -> ~ says text s.
Proof. rewrite <- says_dec. by intros ->. Qed.
Definition gone : xstatus := mkX 5 "Priority table a was not found".
Example C98_example :
  ~ says "Timeout exceeded" gone /\ ~ says "Timeout exceeded" x_ok /\ ~ says "Deadline Exceeded" x_ok /\
  in_time (Some 50) (Some 20) /\ ~ in_time (Some 10) (Some 20) /\
  py_flush 0 (Some 10) x_ok (Some 20) gone 2 1 = Raises DeadlineExceededError /\
  py_flush 0 (Some 50) x_ok (Some 20) gone 2 1 = Raises (RuntimeError "Priority table a was not found") /\
  py_flush 0 None x_ok (Some 20) x_ok 2 1 = Returns /\
  x_msg (timeout_status 2 1) = "Timeout exceeded with 2 items waiting to be written and 1 items awaiting confirmation." /\
  py_end_episode (Some 10) x_ok x_ok (Some 0) x_ok 0 0 x_ok = Returns /\
  py_server_info (Some 1) (Some (3, mkG 0 "")) x_ok = Raises DeadlineExceededError /\
  py_server_info (Some 5) (Some (3, mkG 0 "")) x_ok = Returns /\
  next_of true (from_grpc (to_grpc rate_limiter_timeout)) = NEnd /\
  next_of true (from_grpc (mkG 4 "Deadline Exceeded")) = NError (mkX 4 "Deadline Exceeded").
Proof.
  do 3 (split; [by apply says_no|]). split. { exists 20. split; [done|]. intros t [= <-]. done. }
  split. { intros (r & [= <-] & H). specialize (H _ eq_refl). lia. }
  by vm_compute.
Qed.

Print Assumptions C98_wire.
Print Assumptions C98_dataset.
Print Assumptions C98_flush_partial.
Print Assumptions C98_end_episode_partial.
Print Assumptions C98_server_info_partial.
Print Assumptions C98_zero_refuted.
Print Assumptions C98_text_refuted.
Print Assumptions C98_limiter_text_refuted.
