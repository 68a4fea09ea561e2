(** C92: the sinks below Snappy.  Whatever pieces the library delivers its output
    in, a string receives exactly these bytes; a tensor receives the first of them
    that fit, and no byte outside of the tensor is written, also when the
    compressed data is wrong. *)
From Verif Require Import Base Snappy.

(** ** Specification *)

(** The bytes that a list of calls delivers. *)
Definition piece (c : call) : list Z := match c with Direct _ _ w n => take (Z.to_nat n) w | Own _ bs => bs end.
Definition delivered (cs : list call) : list Z := concat (map piece cs).

(** [x] belongs to memory that the library uses itself in this call. *)
Definition library (c : call) (x : Z) : Prop :=
  match c with
  | Direct scratch len _ _ => scratch <= x < scratch + len
  | Own a bs => a <= x < a + Z.of_nat (length bs)
  end.
(** The protocol: no more is appended than was written, no more written than
    asked for. *)
Definition protocol (c : call) : Prop :=
  match c with Direct _ len w n => 0 <= n <= Z.of_nat (length w) /\ Z.of_nat (length w) <= len | Own _ _ => True end.
(** The memory of the library is not that between [lo] and [hi]. *)
Definition apart (lo hi : Z) (c : call) : Prop := forall x, library c x -> ~ lo <= x < hi.

(** ** Memory *)

Lemma read_length m a n : length (read m a n) = Z.to_nat n.
Proof. unfold read. by rewrite map_length, seq_length. Qed.
Lemma read_lookup m a n i : (i < Z.to_nat n)%nat -> read m a n !! i = Some (m (a + Z.of_nat i)).
Proof.
  intros H. unfold read. rewrite list_lookup_fmap.
  change (seq 0 (Z.to_nat n)) with (seq 0 (Z.to_nat n)). by rewrite lookup_seq_lt by done.
Qed.
Lemma read_ext m m' a n : (forall x, a <= x < a + n -> m' x = m x) -> read m' a n = read m a n.
Proof.
  intros H. apply list_eq. intros i. destruct (decide (i < Z.to_nat n)%nat) as [Hi|Hi].
  - rewrite !read_lookup by done. f_equal. apply H. lia.
  - rewrite !lookup_ge_None_2; [done| |]; rewrite read_length; lia.
Qed.
Lemma store_out m a bs x : ~ (a <= x < a + Z.of_nat (length bs)) -> store m a bs x = m x.
Proof.
  intros H. unfold store. destruct (Z.leb_spec a x); [|done]. destruct (Z.ltb_spec x (a + Z.of_nat (length bs))); [|done]. cbn. lia.
Qed.
Lemma store_in m a bs i v : bs !! i = Some v -> store m a bs (a + Z.of_nat i) = v.
Proof.
  intros H. pose proof (lookup_lt_Some _ _ _ H) as Hl. unfold store.
  destruct (Z.leb_spec a (a + Z.of_nat i)); [|lia]. destruct (Z.ltb_spec (a + Z.of_nat i) (a + Z.of_nat (length bs))); [|lia]. cbn.
  replace (Z.to_nat (a + Z.of_nat i - a)) with i by lia. by apply nth_lookup_Some.
Qed.
Lemma read_store m a bs n : 0 <= n <= Z.of_nat (length bs) -> read (store m a bs) a n = take (Z.to_nat n) bs.
Proof.
  intros H. apply list_eq. intros i. destruct (decide (i < Z.to_nat n)%nat) as [Hi|Hi].
  - rewrite read_lookup by done. rewrite lookup_take by done.
    destruct (lookup_lt_is_Some_2 bs i) as [v Hv]; [lia|]. rewrite Hv. f_equal. by apply store_in.
  - rewrite lookup_ge_None_2 by (rewrite read_length; lia). rewrite lookup_ge_None_2; [done|]. rewrite take_length. lia.
Qed.
Lemma read_app m a n k : 0 <= n -> 0 <= k -> read m a (n + k) = read m a n ++ read m (a + n) k.
Proof.
  intros Hn Hk. apply list_eq. intros i. destruct (decide (i < Z.to_nat n)%nat) as [Hi|Hi].
  - rewrite lookup_app_l by (by rewrite read_length). rewrite !read_lookup by lia. done.
  - rewrite lookup_app_r by (rewrite read_length; lia). rewrite read_length.
    destruct (decide (i < Z.to_nat (n + k))%nat) as [Hj|Hj].
    + rewrite !read_lookup by lia. do 2 f_equal. lia.
    + rewrite !lookup_ge_None_2; [done| |]; rewrite read_length; lia.
Qed.
Lemma read_take m a n k : 0 <= k <= n -> take (Z.to_nat k) (read m a n) = read m a k.
Proof.
  intros H. replace n with (k + (n - k)) by lia. rewrite read_app by lia. rewrite take_app_le by (rewrite read_length; lia).
  apply take_ge. rewrite read_length. lia.
Qed.
Lemma size_sub_small a b : 0 <= b <= a -> a < 2 ^ 64 -> size_sub a b = a - b.
Proof. intros H1 H2. unfold size_sub. apply Z.mod_small. lia. Qed.

(** ** The sink over a tensor *)

Definition cinv (out cap : Z) (m : mem) (k : csink) (ds : list Z) : Prop :=
  k_out k = out /\ k_cap k = cap /\ k_size k = Z.min cap (Z.of_nat (length ds)) /\
  k_over k = (cap <? Z.of_nat (length ds)) /\ read m out (k_size k) = take (Z.to_nat cap) ds.

Lemma cinv_append out cap m k ds p n : 0 <= cap < 2 ^ 64 -> cinv out cap m k ds -> 0 <= n ->
  (p = out + k_size k /\ n <= cap - k_size k) \/ (forall x, p <= x < p + n -> ~ out <= x < out + cap) ->
  exists m' k', csink_append m k p n = Some (m', k') /\ cinv out cap m' k' (ds ++ read m p n) /\
    (forall x, ~ out <= x < out + cap -> m' x = m x).
Proof.
  intros Hc (Ho & Hk & Hs & Hv & Hr) Hn Hp. unfold csink_append.
  assert (Hle : 0 <= k_size k <= cap) by lia.
  rewrite Hk, Ho, size_sub_small by lia.
  set (n' := if cap - k_size k <? n then cap - k_size k else n).
  assert (Hn' : 0 <= n' /\ n' = Z.min n (cap - k_size k)) by (unfold n'; destruct (Z.ltb_spec (cap - k_size k) n); lia).
  clearbody n'. destruct Hn' as [Hn0 Hn'].
  assert (HL : Z.of_nat (length (ds ++ read m p n)) = Z.of_nat (length ds) + n)
    by (rewrite app_length, read_length; lia).
  set (k' := mkCsink out cap (k_size k + n') _).
  assert (Hinv : forall m', (forall x, out <= x < out + k_size k -> m' x = m x) -> read m' (out + k_size k) n' = read m p n' ->
     cinv out cap m' k' (ds ++ read m p n)).
  { intros m' He Hx. unfold cinv, k'. cbn [k_out k_cap k_size k_over]. rewrite HL. split; [done|]. split; [done|].
    split; [lia|]. split.
    - rewrite Hv. destruct (Z.ltb_spec (cap - k_size k) n), (Z.ltb_spec cap (Z.of_nat (length ds))), (Z.ltb_spec cap (Z.of_nat (length ds) + n)); cbn; try done; lia.
    - rewrite read_app by lia. rewrite Hx, (read_ext _ _ _ _ He), Hr.
      destruct (decide (Z.of_nat (length ds) <= cap)) as [Hd|Hd].
      + rewrite (take_ge ds) by lia. rewrite take_app_ge by lia. f_equal.
        replace (Z.to_nat cap - length ds)%nat with (Z.to_nat (cap - k_size k)) by lia.
        destruct (decide (n <= cap - k_size k)) as [Hn1|Hn1].
        * rewrite take_ge by (rewrite read_length; lia). f_equal. lia.
        * rewrite read_take by lia. f_equal. lia.
      + rewrite take_app_le by lia. replace n' with 0 by lia. unfold read. cbn. by rewrite app_nil_r. }
  destruct (Z.ltb_spec 0 n') as [Hpos|Hpos]; cbn [andb].
  2: { exists m, k'. split; [done|]. split; [|done]. apply Hinv; [done|]. replace n' with 0 by lia. done. }
  destruct (Z.eqb_spec p (out + k_size k)) as [Hpe|Hpe]; cbn [negb].
  { exists m, k'. split; [done|]. split; [|done]. apply Hinv; [done|]. by rewrite Hpe. }
  destruct Hp as [[? _]|Hp]; [done|].
  assert (Hpa : ~ out <= p < out + cap) by (apply Hp; lia).
  destruct (Z.leb_spec out p); cbn [andb]; [destruct (Z.ltb_spec p (out + cap)); [lia|]|].
  all: eexists _, k'; split; [reflexivity|]; unfold memcpy; split; [apply Hinv|].
  all: try (intros x Hx; apply store_out; rewrite read_length; lia).
  all: rewrite read_store by (rewrite read_length; lia); apply take_ge; rewrite read_length; lia.
Qed.

Lemma cinv_call out cap m k ds c : 0 <= cap < 2 ^ 64 -> cinv out cap m k ds -> protocol c -> apart out (out + cap) c ->
  exists m' k', csink_call m k c = Some (m', k') /\ cinv out cap m' k' (ds ++ piece c) /\
    (forall x, ~ out <= x < out + cap -> ~ library c x -> m' x = m x).
Proof.
  intros Hc HI Hp Ha. pose proof HI as (Ho & Hk & Hs & Hv & Hr). destruct c as [s len w n|a bs]; cbn [csink_call piece protocol] in *.
  - destruct Hp as [Hn Hw]. unfold csink_buffer. rewrite Ho, Hk, size_sub_small by lia.
    assert (Hrd : forall p, read (store m p w) p n = take (Z.to_nat n) w) by (intros p; apply read_store; lia).
    destruct (Z.leb_spec len (cap - k_size k)) as [Hl|Hl].
    + destruct (cinv_append out cap (store m (out + k_size k) w) k ds (out + k_size k) n) as (m' & k' & E & HI' & Hx).
      { done. }
      { split; [done|]. split; [done|]. split; [done|]. split; [done|]. rewrite <- Hr. apply read_ext. intros x Hx. apply store_out. lia. }
      { lia. } { left. split; [done|lia]. }
      exists m', k'. split; [exact E|]. rewrite Hrd in HI'. split; [exact HI'|].
      intros x H1 H2. rewrite Hx by done. apply store_out. lia.
    + unfold apart in Ha. cbn [library] in Ha.
      destruct (cinv_append out cap (store m s w) k ds s n) as (m' & k' & E & HI' & Hx).
      { done. }
      { split; [done|]. split; [done|]. split; [done|]. split; [done|]. rewrite <- Hr. apply read_ext. intros x Hx. apply store_out.
        intros Hy. apply (Ha x); lia. }
      { lia. } { right. intros x Hx. apply Ha. lia. }
      exists m', k'. split; [exact E|]. rewrite Hrd in HI'. split; [exact HI'|].
      intros x H1 H2. cbn [library] in H2. rewrite Hx by done. apply store_out. lia.
  - unfold apart in Ha. cbn [library] in Ha.
    destruct (cinv_append out cap (store m a bs) k ds a (Z.of_nat (length bs))) as (m' & k' & E & HI' & Hx).
    { done. }
    { split; [done|]. split; [done|]. split; [done|]. split; [done|]. rewrite <- Hr. apply read_ext. intros x Hx. apply store_out.
      intros Hy. apply (Ha x); lia. }
    { lia. } { right. intros x Hx. apply Ha. lia. }
    exists m', k'. split; [exact E|]. rewrite read_store in HI' by lia. rewrite take_ge in HI' by lia. split; [exact HI'|].
    intros x H1 H2. cbn [library] in H2. rewrite Hx by done. apply store_out. lia.
Qed.

Lemma cinv_run out cap cs : 0 <= cap < 2 ^ 64 -> Forall protocol cs -> Forall (apart out (out + cap)) cs -> forall m k ds,
  cinv out cap m k ds ->
  exists m' k', csink_run m k cs = Some (m', k') /\ cinv out cap m' k' (ds ++ delivered cs) /\
    (forall x, ~ out <= x < out + cap -> (forall c, c ∈ cs -> ~ library c x) -> m' x = m x).
Proof.
  intros Hc. induction cs as [|c cs IH]; intros Hp Ha m k ds HI.
  - exists m, k. unfold delivered. cbn. rewrite app_nil_r. done.
  - apply Forall_cons in Hp as [Hp1 Hp], Ha as [Ha1 Ha].
    destruct (cinv_call out cap m k ds c Hc HI Hp1 Ha1) as (m1 & k1 & E1 & HI1 & Hx1).
    destruct (IH Hp Ha _ _ _ HI1) as (m2 & k2 & E2 & HI2 & Hx2).
    exists m2, k2. cbn [csink_run]. rewrite E1. cbn [mbind option_bind]. split; [exact E2|].
    unfold delivered in *. cbn [map concat]. rewrite <- app_assoc in HI2. split; [exact HI2|].
    intros x H1 H2. rewrite Hx2; [apply Hx1; [done|]|done|].
    + apply H2. by left.
    + intros c' Hc'. apply H2. by right.
Qed.

(** The tensor receives the first bytes that fit; the sink knows how many and
    whether some were dropped; no assert fails; nothing outside of the tensor and
    the memory of the library changes. *)
Theorem C92_tensor_sink out cap m cs : 0 <= cap < 2 ^ 64 ->
  Forall protocol cs -> Forall (apart out (out + cap)) cs ->
  exists m' k, csink_run m (csink_init out cap) cs = Some (m', k) /\
    k_size k = Z.min cap (Z.of_nat (length (delivered cs))) /\
    (k_over k = true <-> cap < Z.of_nat (length (delivered cs))) /\
    read m' out (k_size k) = take (Z.to_nat cap) (delivered cs) /\
    (forall x, ~ out <= x < out + cap -> (forall c, c ∈ cs -> ~ library c x) -> m' x = m x).
Proof.
  intros Hc Hp Ha. destruct (cinv_run out cap cs Hc Hp Ha m (csink_init out cap) []) as (m' & k & E & HI & Hx).
  { unfold cinv, csink_init. cbn [k_out k_cap k_size k_over length]. split; [done|]. split; [done|]. split; [lia|].
    split; [destruct (Z.ltb_spec cap (Z.of_nat 0)); [lia|done]|]. rewrite take_nil. done. }
  destruct HI as (_ & _ & Hs & Hv & Hr). rewrite app_nil_l in *. exists m', k. split; [exact E|]. split; [exact Hs|].
  split; [rewrite Hv; by rewrite Z.ltb_lt|]. split; [exact Hr|exact Hx].
Qed.

(** ** The sink over a string *)

(** The allocator gives enough memory, in a part [A] of the memory that belongs
    to the string. *)
Definition in_heap (A : Z -> Prop) (s : str) : Prop :=
  0 <= s_size s <= s_cap s /\ forall x, s_data s <= x <= s_data s + s_cap s -> A x.
Definition alloc_ok (A : Z -> Prop) (alloc : str -> Z -> Z * Z) : Prop :=
  forall s need, need <= snd (alloc s need) /\
    forall x, fst (alloc s need) <= x <= fst (alloc s need) + snd (alloc s need) -> A x.

Section string_sink.
Context (A : Z -> Prop) (alloc : str -> Z -> Z * Z) (Hal : alloc_ok A alloc).

Lemma read_store_out m a b bs n : (forall x, b <= x < b + n -> ~ a <= x < a + Z.of_nat (length bs)) ->
  read (store m a bs) b n = read m b n.
Proof. intros H. apply read_ext. intros x Hx. apply store_out. by apply H. Qed.

Lemma grow_ok m s need m' s' : in_heap A s -> grow alloc m s need = (m', s') ->
  in_heap A s' /\ s_size s' = s_size s /\ need <= s_cap s' /\ content m' s' = content m s /\ (forall x, ~ A x -> m' x = m x).
Proof.
  intros [Hs HA] E. unfold grow in E. destruct (Z.leb_spec need (s_cap s)) as [Hn|Hn].
  - injection E as <- <-. split; [by split|]. split; [done|]. split; [lia|]. by split.
  - destruct (Hal s need) as [Hc Hx]. destruct (alloc s need) as [a c] eqn:Ea. cbn [fst snd] in *. injection E as <- <-.
    unfold in_heap, content. cbn [s_size s_cap s_data]. split; [split; [lia|done]|]. split; [done|]. split; [done|]. split.
    + unfold memcpy. rewrite read_store by (rewrite read_length; lia). apply take_ge. rewrite read_length. lia.
    + intros x Hnx. unfold memcpy. apply store_out. rewrite read_length. intros Hy. apply Hnx, Hx. lia.
Qed.
Lemma set_size_ok m s n m' s' : in_heap A s -> 0 <= n <= s_cap s -> set_size m s n = (m', s') ->
  in_heap A s' /\ s_size s' = n /\ s_cap s' = s_cap s /\ s_data s' = s_data s /\ content m' s' = read m (s_data s) n /\
  (forall x, ~ A x -> m' x = m x) /\ (forall x, x <> s_data s + n -> m' x = m x).
Proof.
  intros [Hs HA] Hn E. injection E as <- <-. unfold in_heap, content. cbn [s_size s_cap s_data].
  split; [by split|]. split; [done|]. split; [done|]. split; [done|]. split; [|split].
  - apply read_store_out. cbn [length]. lia.
  - intros x Hx. apply store_out. cbn [length]. intros Hy. apply Hx, HA. lia.
  - intros x Hx. apply store_out. cbn [length]. lia.
Qed.

Lemma ssink_append_ok nt m s p n m' s' : in_heap A s -> 0 <= n ->
  (nt = true /\ p = s_data s + s_size s /\ s_size s + n <= s_cap s) \/ (forall x, p <= x < p + n -> ~ A x) ->
  ssink_append nt alloc m s p n = (m', s') ->
  in_heap A s' /\ content m' s' = content m s ++ read m p n /\ (forall x, ~ A x -> m' x = m x).
Proof.
  intros Hh Hn Hp E. unfold ssink_append in E. pose proof Hh as [Hs HA].
  destruct (nt && (p =? s_data s + s_size s)) eqn:Ez.
  - apply andb_true_iff in Ez as [-> Ez]. apply Z.eqb_eq in Ez.
    assert (Hfit : s_size s + n <= s_cap s).
    { destruct Hp as [(_ & _ & ?)|Hp]; [done|]. destruct (decide (n = 0)) as [->|Hn0]; [lia|].
      exfalso. apply (Hp p); [lia|]. apply HA. lia. }
    unfold resize_uninit, grow in E. destruct (Z.leb_spec (s_size s + n) (s_cap s)); [|lia].
    destruct (set_size_ok _ s (s_size s + n) _ _ Hh ltac:(lia) E) as (H1 & H2 & _ & H3 & H4 & H5 & _).
    split; [exact H1|]. split; [|exact H5]. rewrite H4, read_app by lia. by rewrite Ez.
  - destruct Hp as [(-> & -> & _)|Hp]; [rewrite Z.eqb_refl in Ez; discriminate Ez|].
    unfold string_append in E. destruct (grow alloc m s (s_size s + n)) as [m1 s1] eqn:Eg.
    destruct (grow_ok _ _ _ _ _ Hh Eg) as (Hh1 & Hz1 & Hc1 & Hct1 & Hf1). rewrite Hz1 in E.
    pose proof Hh1 as [Hs1 HA1].
    destruct (set_size_ok _ s1 (s_size s + n) _ _ Hh1 ltac:(lia) E) as (H1 & H2 & _ & H3 & H4 & H5 & _).
    assert (Hrd : read m1 p n = read m p n).
    { apply read_ext. intros x Hx. apply Hf1. by apply Hp. }
    split; [exact H1|]. split.
    + rewrite H4, read_app by lia. f_equal.
      * unfold memcpy. rewrite read_store_out by lia. rewrite <- Hct1. unfold content. by rewrite Hz1.
      * unfold memcpy. rewrite read_store by (rewrite read_length; lia). rewrite take_ge by (rewrite read_length; lia). exact Hrd.
    + intros x Hx. rewrite H5 by done. unfold memcpy. rewrite store_out; [by apply Hf1|]. rewrite read_length.
      intros Hy. apply Hx, HA1. lia.
Qed.

Lemma ssink_buffer_ok nt m s len scratch m' s' p : in_heap A s -> 0 <= len -> ssink_buffer nt alloc m s len scratch = (m', s', p) ->
  in_heap A s' /\ content m' s' = content m s /\ (forall x, ~ A x -> m' x = m x) /\
  ((nt = true /\ p = s_data s' + s_size s' /\ s_size s' + len <= s_cap s') \/ (p = scratch /\ nt = false)).
Proof.
  intros Hh Hlen E. pose proof Hh as [Hs HA]. unfold ssink_buffer in E. destruct nt; cbn [negb] in E.
  2: { injection E as <- <- <-. split; [done|]. split; [done|]. split; [done|]. by right. }
  destruct (Z.ltb_spec (s_cap s) (len + s_size s)) as [Hl|Hl].
  2: { injection E as <- <- <-. split; [done|]. split; [done|]. split; [done|]. left. split; [done|]. split; [done|lia]. }
  unfold resize_uninit in E. destruct (grow alloc m s (len + s_size s)) as [m1 s1] eqn:Eg.
  destruct (grow_ok _ _ _ _ _ Hh Eg) as (Hh1 & Hz1 & Hc1 & Hct1 & Hf1). pose proof Hh1 as [Hs1 HA1].
  destruct (set_size m1 s1 (len + s_size s)) as [m2 s2] eqn:E2.
  destruct (set_size_ok _ s1 (len + s_size s) _ _ Hh1 ltac:(lia) E2) as (Hh2 & Hz2 & Hc2 & Hd2 & Hct2 & Hf2 & _).
  assert (Eg2 : grow alloc m2 s2 (s_size s) = (m2, s2)) by (unfold grow; destruct (Z.leb_spec (s_size s) (s_cap s2)); [done|lia]).
  rewrite Eg2 in E. destruct (set_size m2 s2 (s_size s)) as [m3 s3] eqn:E3.
  destruct (set_size_ok _ s2 (s_size s) _ _ Hh2 ltac:(lia) E3) as (Hh3 & Hz3 & Hc3 & Hd3 & Hct3 & Hf3 & _).
  injection E as <- <- <-. split; [done|]. split; [|split].
  - rewrite Hct3, Hd2, <- Hct1. unfold content. rewrite Hz1.
    transitivity (read m2 (s_data s1) (s_size s)); [done|].
    rewrite <- (read_take m2 (s_data s1) (len + s_size s)) by lia.
    unfold content in Hct2. rewrite Hd2, Hz2 in Hct2. rewrite Hct2. apply read_take. lia.
  - intros x Hx. rewrite Hf3, Hf2, Hf1; done.
  - left. split; [done|]. split; [congruence|lia].
Qed.

Lemma ssink_call_ok nt m s c m' s' : in_heap A s -> protocol c -> (forall x, library c x -> ~ A x) ->
  ssink_call nt alloc m s c = (m', s') ->
  in_heap A s' /\ content m' s' = content m s ++ piece c /\ (forall x, ~ A x -> ~ library c x -> m' x = m x).
Proof.
  intros Hh Hp Hl E. destruct c as [scr len w n|a bs]; cbn [ssink_call piece protocol library] in *.
  - destruct Hp as [Hn Hw]. destruct (ssink_buffer nt alloc m s len scr) as [[m1 s1] p] eqn:Eb.
    destruct (ssink_buffer_ok nt m s len scr _ _ _ Hh ltac:(lia) Eb) as (Hh1 & Hct1 & Hf1 & Hp1). pose proof Hh1 as [Hs1 HA1].
    assert (Hw1 : forall x, s_data s1 <= x < s_data s1 + s_size s1 -> ~ p <= x < p + Z.of_nat (length w)).
    { intros x Hx Hy. destruct Hp1 as [(_ & -> & _)|[-> _]]; [lia|]. apply (Hl x); [lia|]. apply HA1. lia. }
    destruct (ssink_append_ok nt _ s1 p n _ _ Hh1 (proj1 Hn) ltac:(destruct Hp1 as [(-> & -> & ?)|[-> ->]]; [left; split; [done|]; split; [done|lia] | right; intros x Hx; apply Hl; lia]) E) as (H1 & H2 & H3).
    split; [exact H1|]. split.
    + rewrite H2, read_store by lia. f_equal. rewrite <- Hct1. unfold content. by apply read_store_out.
    + intros x Hx Hy. rewrite H3 by done. rewrite store_out; [by apply Hf1|]. intros Hz.
      destruct Hp1 as [(_ & -> & ?)|[-> _]]; [apply Hx, HA1; lia|apply Hy; lia].
  - destruct (ssink_append_ok nt _ s a (Z.of_nat (length bs)) _ _ Hh ltac:(lia) (or_intror Hl) E) as (H1 & H2 & H3). destruct Hh as [Hs HA].
    split; [exact H1|]. split.
    + rewrite H2, read_store by lia. rewrite take_ge by lia. f_equal. unfold content. apply read_store_out.
      intros x Hx Hy. apply (Hl x Hy), HA. lia.
    + intros x Hx Hy. rewrite H3 by done. by apply store_out.
Qed.
End string_sink.

(** The string receives exactly the delivered bytes, after what it held before,
    with either kind of standard library and whenever it has to be moved. *)
Theorem C92_string_sink A nt alloc cs : alloc_ok A alloc -> Forall protocol cs -> (forall c x, c ∈ cs -> library c x -> ~ A x) ->
  forall m s m' s', in_heap A s -> ssink_run nt alloc m s cs = (m', s') ->
  in_heap A s' /\ content m' s' = content m s ++ delivered cs /\
  (forall x, ~ A x -> (forall c, c ∈ cs -> ~ library c x) -> m' x = m x).
Proof.
  intros Hal. induction cs as [|c cs IH]; intros Hp Hl m s m' s' Hh E; cbn [ssink_run] in E.
  - injection E as <- <-. unfold delivered. cbn. by rewrite app_nil_r.
  - apply Forall_cons in Hp as [Hp1 Hp]. destruct (ssink_call nt alloc m s c) as [m1 s1] eqn:E1.
    destruct (ssink_call_ok A alloc Hal nt m s c m1 s1 Hh Hp1) as (Hh1 & Hct1 & Hf1); [|done|].
    { intros x. apply Hl. by left. }
    destruct (IH Hp (fun c' x Hc' => Hl c' x ltac:(by right)) _ _ _ _ Hh1 E) as (Hh2 & Hct2 & Hf2).
    split; [exact Hh2|]. split; [|].
    + rewrite Hct2, Hct1. unfold delivered. cbn [map concat]. by rewrite app_assoc.
    + intros x Hx Hy. rewrite Hf2; [apply Hf1; [done|apply Hy; by left]|done|]. intros c' Hc'. apply Hy. by right.
Qed.

(** ** Tensors *)

(** A correct library: it follows the protocol, and what Uncompress delivers for
    the output of Compress is its input. *)
Definition library_ok {env} (sn : snappy env) : Prop :=
  (forall e d, Forall protocol (compress sn e d)) /\ (forall e d, Forall protocol (fst (uncompress sn e d))) /\
  (forall e e' d, delivered (fst (uncompress sn e' (delivered (compress sn e d)))) = d).

(** Decompressing what was compressed gives the tensor back. *)
Theorem C92_roundtrip {env} (sn : snappy env) e e' nt alloc A m s0 m' out t p : library_ok sn ->
  (x_string (x_ty t) = false -> Z.of_nat (length (x_data t)) = x_bytes (x_ty t) (x_shape t) /\ x_bytes (x_ty t) (x_shape t) < 2 ^ 64) ->
  alloc_ok A alloc -> in_heap A s0 -> s_size s0 = 0 ->
  (forall c x, c ∈ compress sn e (x_data t) -> library c x -> ~ A x) ->
  compress_tensor sn e nt alloc m s0 t = p ->
  Forall (apart out (out + x_bytes (x_ty t) (x_shape t))) (fst (uncompress sn e' (xp_content p))) ->
  exists m'', decompress_tensor sn e' m' out p = Some (t, m'').
Proof.
  intros (Hp & Hu & Hd) Hlen Hal Hh Hz Hl <-. unfold compress_tensor, decompress_tensor. destruct t as [ty sh data]. cbn [x_ty x_shape x_data] in *.
  destruct (x_string ty) eqn:Es.
  { cbn [xp_ty xp_shape xp_content]. rewrite Es. by exists m'. }
  destruct (ssink_run nt alloc m s0 (compress sn e data)) as [m1 s1] eqn:E1.
  destruct (C92_string_sink A nt alloc _ Hal (Hp e data) Hl _ _ _ _ Hh E1) as (_ & Hct & _).
  assert (H0 : content m s0 = []) by (unfold content; rewrite Hz; done). rewrite H0, app_nil_l in Hct. cbn [xp_ty xp_shape xp_content].
  rewrite Hct, Es. intros Ha. destruct (Hlen eq_refl) as [Hlen1 Hlen2].
  destruct (C92_tensor_sink out (x_bytes ty sh) m' _ ltac:(lia) (Hu e' _) Ha) as (m2 & k & E & Hs & _ & Hr & _).
  rewrite E. cbn [mbind option_bind]. exists m2. rewrite Hd in Hs, Hr. do 2 f_equal. f_equal.
  replace (x_bytes ty sh) with (k_size k) by lia. rewrite Hr. apply take_ge. lia.
Qed.

(** Whatever bytes arrive as a proto, from whoever: no assert fails, nothing but
    the tensor (and the library's own memory) is written, and the tensor begins
    with what the library delivered. *)
Theorem C92_untrusted {env} (sn : snappy env) e m out p :
  (forall e d, Forall protocol (fst (uncompress sn e d))) -> 0 <= x_bytes (xp_ty p) (xp_shape p) < 2 ^ 64 ->
  Forall (apart out (out + x_bytes (xp_ty p) (xp_shape p))) (fst (uncompress sn e (xp_content p))) ->
  exists t m', decompress_tensor sn e m out p = Some (t, m') /\ x_ty t = xp_ty p /\ x_shape t = xp_shape p /\
    (x_string (xp_ty p) = false ->
      let ds := delivered (fst (uncompress sn e (xp_content p))) in
      Z.of_nat (length (x_data t)) = x_bytes (xp_ty p) (xp_shape p) /\
      take (length ds) (x_data t) = take (length (x_data t)) ds) /\
    (forall x, ~ out <= x < out + x_bytes (xp_ty p) (xp_shape p) ->
       (forall c, c ∈ fst (uncompress sn e (xp_content p)) -> ~ library c x) -> m' x = m x).
Proof.
  intros Hu Hc Ha. unfold decompress_tensor. destruct p as [ty sh ct]. cbn [xp_ty xp_shape xp_content] in *.
  destruct (x_string ty) eqn:Es.
  { eexists _, _. split; [reflexivity|]. by repeat split. }
  destruct (C92_tensor_sink out (x_bytes ty sh) m _ Hc (Hu e ct) Ha) as (m2 & k & E & Hs & _ & Hr & Hf).
  rewrite E. cbn [mbind option_bind]. eexists _, m2. split; [reflexivity|]. cbn [x_ty x_shape x_data]. split; [done|]. split; [done|].
  split; [|exact Hf]. intros _. set (ds := delivered _) in *. rewrite read_length. split; [lia|].
  rewrite <- Hr. rewrite Hs. destruct (decide (Z.of_nat (length ds) <= x_bytes ty sh)) as [Hd|Hd].
  - rewrite Z.min_r by lia. rewrite <- (read_take m2 out (x_bytes ty sh) (Z.of_nat (length ds))) by lia. by rewrite Nat2Z.id.
  - rewrite Z.min_l by lia. apply take_ge. rewrite read_length. lia.
Qed.

(** ** Data that is wrong is not noticed *)

(** What one would like: a proto whose content the library cannot decompress, or
    which decompresses to another number of bytes than the tensor has, is not
    turned into a tensor.  It is: the result of Uncompress is dropped, Overflowed
    is never asked, and the bytes that were not delivered are those that the
    memory of the tensor happened to hold. *)
Definition runs (e : bool) (d : list Z) : list call :=
  if e then map (fun b => Own 1000 [b]) d else [Direct 2000 (Z.of_nat (length d) + 3) (d ++ [77; 78; 79]) (Z.of_nat (length d))].
(** A library for the examples: compressed data begins with a byte 9; the calls
    are of one kind or of the other. *)
Definition toy : snappy bool := mkSnappy bool
  (fun e d => Own 3000 [9] :: runs e d)
  (fun e d => match d with 9 :: d => (runs e d, true) | _ => ([], false) end).

Lemma runs_protocol e d : Forall protocol (runs e d).
Proof.
  destruct e; cbn [runs]; [by apply Forall_forall; intros c (b & -> & _)%elem_of_list_fmap|].
  apply Forall_singleton. cbn [protocol]. rewrite app_length. cbn [length]. lia.
Qed.
Lemma runs_delivered e d : delivered (runs e d) = d.
Proof.
  unfold delivered. destruct e; cbn [runs].
  - rewrite map_map. cbn [piece]. induction d as [|b d IH]; [done|]. cbn. by f_equal.
  - cbn. rewrite app_nil_r, Nat2Z.id. by rewrite take_app.
Qed.
Lemma toy_ok : library_ok toy.
Proof.
  split; [|split].
  - intros e d. cbn [toy compress]. constructor; [done|]. apply runs_protocol.
  - intros e d. cbn [toy uncompress]. repeat (case_match; try apply Forall_nil_2). apply runs_protocol.
  - intros e e' d. cbn [toy compress]. unfold delivered. cbn [map concat piece app]. fold (delivered (runs e d)). rewrite runs_delivered.
    cbn [toy uncompress fst]. apply runs_delivered.
Qed.

Definition i32 : xtype := mkXtype 3 false 4.
Theorem C92_corrupt_refuted :
  (exists m m' p, snd (uncompress toy true (xp_content p)) = false /\
     exists t t' m1 m2, decompress_tensor toy true m 0 p = Some (t, m1) /\ decompress_tensor toy true m' 0 p = Some (t', m2) /\ t <> t') /\
  (exists m p t m1, length (delivered (fst (uncompress toy true (xp_content p)))) <> length (x_data t) /\
     decompress_tensor toy true m 0 p = Some (t, m1)).
Proof.
  split.
  - exists (fun _ => 1), (fun _ => 2), (mkXproto i32 [2%nat] [8; 1; 2; 3]). split; [done|].
    eexists _, _, _, _. split; [reflexivity|]. split; [reflexivity|]. vm_compute. congruence.
  - exists (fun _ => 1), (mkXproto i32 [1%nat] [9; 1; 2; 3; 4; 5]). eexists _, _. split; [|reflexivity]. vm_compute. congruence.
Qed.

(** ** Concrete cases *)

(** A string that moves at 5000, 5000 + 100, ... with twice the memory asked for. *)
Definition walk (s : str) (need : Z) : Z * Z := (s_data s + s_cap s + 1, 2 * need).
Definition tens : xtensor := mkXtensor i32 [2%nat] [1; 2; 3; 4; 5; 6; 7; 8].
Definition start : str := mkStr 5000 0 2.

(** Pieces of one byte or a buffer of the sink, strings of both kinds. *)
Example C92_example : forall e nt,
  xp_content (compress_tensor toy e nt walk (fun _ => 255) start tens) = 9 :: x_data tens /\
  forall e', option_map fst (decompress_tensor toy e' (fun _ => 255) 0 (compress_tensor toy e nt walk (fun _ => 255) start tens)) = Some tens.
Proof. intros [] []; (split; [vm_compute; reflexivity|intros []; vm_compute; reflexivity]). Qed.

(** The hypotheses of C92_string_sink and C92_untrusted hold here: the memory of
    the string is above 4000, that of the library between 1000 and 4000, the
    tensor below 1000. *)
Definition room (s : str) (need : Z) : Z * Z := (Z.max 5000 (s_data s + s_cap s + 1), Z.max 0 (2 * need)).
Example C92_example_hyps : alloc_ok (fun x => 4000 <= x) room /\ in_heap (fun x => 4000 <= x) start /\
  (forall e c x, c ∈ compress toy e (x_data tens) -> library c x -> ~ 4000 <= x) /\
  (forall e, Forall (apart 0 (0 + x_bytes i32 [2%nat])) (fst (uncompress toy e (9 :: x_data tens)))).
Proof.
  split; [|split; [|split]].
  - intros s need. unfold room. cbn [fst snd]. split; [lia|]. intros x. lia.
  - split; cbn [start s_size s_cap s_data]; [lia|]. intros x. lia.
  - intros e c x Hc Hx. assert (HF : Forall (fun c => forall x, library c x -> x < 4000) (compress toy e (x_data tens))).
    { destruct e; cbn; repeat apply Forall_cons_2; try apply Forall_nil_2; intros y; cbn; lia. }
    rewrite Forall_forall in HF. pose proof (HF c Hc x Hx). lia.
  - change (x_bytes i32 [2%nat]) with 8.
    intros []; cbn; repeat apply Forall_cons_2; try apply Forall_nil_2; unfold apart; cbn; intros y; lia.
Qed.

Print Assumptions C92_tensor_sink.
Print Assumptions C92_string_sink.
Print Assumptions C92_roundtrip.
Print Assumptions C92_untrusted.
Print Assumptions C92_corrupt_refuted.
