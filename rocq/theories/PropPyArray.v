(** C93: an array given to Reverb comes back as it was, whatever its memory layout
    (but not its byte order). *)
From Verif Require Import Base Snappy PropSnappy PyArray.

(** ** Specification *)

(** Indices of a shape. *)
Definition index_of (idx sh : list nat) : Prop := Forall2 lt idx sh.

(** Where the element with an index is, for any strides. *)
Fixpoint dot (idx : list nat) (st : list Z) : Z :=
  match idx, st with i :: idx, s :: st => Z.of_nat i * s + dot idx st | _, _ => 0 end.
Definition address (x : nda) (idx : list nat) : Z := n_data x + dot idx (n_strides x).

(** The bytes of an element in the byte order of the machine: parts of an element
    of the other byte order are reversed. *)
Fixpoint swap_parts (part : nat) (n : nat) (bs : list Z) : list Z :=
  match n with O => [] | S n => rev (take part bs) ++ swap_parts part n (drop part bs) end.
Definition elem (x : nda) (idx : list nat) : list Z :=
  let w := np_width (n_ty x) in
  let bs := read (n_mem x) (address x idx) (Z.of_nat w) in
  if n_swapped x then swap_parts (np_part (n_ty x)) (w / np_part (n_ty x)) bs else bs.
Definition object (x : nda) (idx : list nat) : pyobj := n_obj x (address x idx).

(** Types of strings; types of numbers that are supported. *)
Definition is_string (t : npt) : bool := match t with NObject | NString _ | NUnicode _ => true | _ => false end.
Definition is_number (t : npt) : bool :=
  match t with NObject | NString _ | NUnicode _ | NVoid _ | NOther _ _ => false | _ => true end.
(** The type that comes back: long long is int64, which it is the same as. *)
Definition back_type (t : npt) : npt :=
  match t with NLongLong => NInt64 | NULongLong => NUInt64 | NString _ | NUnicode _ => NObject | _ => t end.
(** Decoding of UTF-8 (RFC 3629), without the check for needlessly long forms. *)
Fixpoint decode (bs : list Z) : option (list Z) :=
  match bs with
  | [] => Some []
  | a :: r =>
    if a <? 128 then cons a <$> decode r
    else if a <? 224 then
      match r with b :: r => cons ((a - 192) * 64 + (b - 128)) <$> decode r | _ => None end
    else if a <? 240 then
      match r with b :: c :: r => cons ((a - 224) * 4096 + (b - 128) * 64 + (c - 128)) <$> decode r | _ => None end
    else
      match r with b :: c :: d :: r => cons ((a - 240) * 262144 + (b - 128) * 4096 + (c - 128) * 64 + (d - 128)) <$> decode r | _ => None end
  end.
(** Bytes come back as they were, a str as bytes that decode to it.  The code
    points of a str are below 0x110000. *)
Definition comes_back (o o' : pyobj) : Prop :=
  match o with
  | OBytes bs => o' = OBytes bs
  | OStr cps => Forall (fun c => 0 <= c < 1114112) cps -> exists bs, o' = OBytes bs /\ decode bs = Some cps
  | OAny _ => False
  end.
(** Objects that have an encoding: no surrogates. *)
Definition has_string (o : pyobj) : Prop :=
  match o with OBytes _ => True | OStr cps => Forall (fun c => ~ 55296 <= c < 57344) cps | OAny _ => False end.

(** An array has a stride for each dimension and elements of at least one byte. *)
Definition array_ok (x : nda) : Prop := length (n_strides x) = length (n_shape x) /\ (0 < np_width (n_ty x))%nat.

(** ** Row-major order *)

Fixpoint indices (sh : list nat) : list (list nat) :=
  match sh with [] => [[]] | d :: sh => concat (map (fun i => map (cons i) (indices sh)) (seq 0 d)) end.

Lemma elem_concat_map {A B} (f : A -> list B) l b : b ∈ concat (map f l) <-> exists a, a ∈ l /\ b ∈ f a.
Proof.
  induction l as [|a l IH]; cbn [map concat].
  - split; [intros H; by apply elem_of_nil in H|intros (a & H & _); by apply elem_of_nil in H].
  - rewrite elem_of_app, IH. split.
    + intros [H|(a' & H1 & H2)]; [exists a; split; [by left|done]|exists a'; split; [by right|done]].
    + intros (a' & [->|H1]%elem_of_cons & H2); [by left|right; by exists a'].
Qed.
Lemma indices_spec sh idx : idx ∈ indices sh <-> index_of idx sh.
Proof.
  unfold index_of. revert idx. induction sh as [|d sh IH]; intros idx; cbn [indices].
  - rewrite elem_of_list_singleton. split; [intros ->; constructor|by intros ->%Forall2_nil_inv_r].
  - rewrite elem_concat_map. split.
    + intros (i & Hi & Hx). apply elem_of_list_fmap in Hx as (r & -> & Hr). apply elem_of_seq in Hi. constructor; [lia|]. by apply IH.
    + intros H. apply Forall2_cons_inv_r in H as (i & r & Hi & Hr & ->). exists i. split; [apply elem_of_seq; lia|].
      apply elem_of_list_fmap. exists r. split; [done|]. by apply IH.
Qed.
Lemma concat_map_map {A B} (f : A -> B) (ls : list (list A)) : map f (concat ls) = concat (map (map f) ls).
Proof. induction ls as [|l ls IH]; [done|]. cbn. by rewrite map_app, IH. Qed.
Lemma addrs_indices sh : forall st a, length st = length sh -> addrs sh st a = map (fun idx => a + dot idx st) (indices sh).
Proof.
  induction sh as [|d sh IH]; intros [|s st] a Hl; cbn [addrs indices]; try done.
  - cbn. by rewrite Z.add_0_r.
  - rewrite concat_map_map, map_map. f_equal. apply map_ext. intros i. rewrite IH by (by injection Hl). rewrite map_map.
    apply map_ext. intros idx. cbn [dot]. lia.
Qed.
Lemma length_indices sh : length (indices sh) = nelems sh.
Proof.
  induction sh as [|d sh IH]; [done|]. cbn [indices nelems foldr]. fold (nelems sh). generalize 0%nat.
  induction d as [|d IHd]; intros s; [done|]. cbn [seq map concat]. rewrite app_length, map_length, IH, IHd. lia.
Qed.
Lemma n_addrs_eq x : array_ok x -> n_addrs x = map (address x) (indices (n_shape x)).
Proof. intros [H _]. by apply addrs_indices. Qed.

(** Strides of consecutive elements. *)
Lemma c_strides_length w sh : length (c_strides w sh) = length sh.
Proof. induction sh as [|d sh IH]; [done|]. cbn. by rewrite IH. Qed.
Lemma seq_blocks (w n : nat) a d : concat (map (fun i => map (fun j => a + Z.of_nat i * Z.of_nat (w * n) + Z.of_nat j * Z.of_nat w) (seq 0 n)) (seq 0 d)) =
  map (fun j => a + Z.of_nat j * Z.of_nat w) (seq 0 (d * n)).
Proof.
  induction d as [|d IH]; [done|]. rewrite seq_S, map_app, concat_app, IH. cbn [map concat]. rewrite app_nil_r.
  replace (S d * n)%nat with (d * n + n)%nat by lia. rewrite seq_app, map_app. f_equal.
  change (0 + d * n)%nat with (d * n)%nat. rewrite <- (Nat.add_0_r (d * n)) at 1.
  replace (seq (d * n + 0) n) with (map (fun j => (d * n + j)%nat) (seq 0 n)).
  - rewrite map_map. apply map_ext. intros j. change (0 + d)%nat with d. lia.
  - rewrite <- fmap_add_seq. done.
Qed.
Lemma addrs_c w sh : forall a, addrs sh (c_strides w sh) a = map (fun j => a + Z.of_nat j * Z.of_nat w) (seq 0 (nelems sh)).
Proof.
  induction sh as [|d sh IH]; intros a.
  - cbn. f_equal. lia.
  - change (nelems (d :: sh)) with (d * nelems sh)%nat. cbn [addrs c_strides]. rewrite <- (seq_blocks w (nelems sh) a d). f_equal. apply map_ext. intros i. by rewrite IH.
Qed.

(** ** UTF-8 *)

Lemma utf8_char_decode c b r : 0 <= c < 1114112 -> utf8_char c = Some b -> decode (b ++ r) = cons c <$> decode r.
Proof.
  intros Hc. unfold utf8_char. destruct (Z.ltb_spec c 128) as [H1|H1].
  { intros [= <-]. cbn [app decode]. by destruct (Z.ltb_spec c 128); [|lia]. }
  destruct (Z.ltb_spec c 2048) as [H2|H2].
  { intros [= <-]. cbn [app decode]. pose proof (Z.div_mod c 64). pose proof (Z.mod_pos_bound c 64).
    destruct (Z.ltb_spec (192 + c / 64) 128); [lia|]. destruct (Z.ltb_spec (192 + c / 64) 224); [|lia]. do 2 f_equal. lia. }
  destruct ((55296 <=? c) && (c <? 57344)); [done|].
  pose proof (Z.div_mod c 64 ltac:(lia)). pose proof (Z.mod_pos_bound c 64 ltac:(lia)).
  pose proof (Z.div_mod (c / 64) 64 ltac:(lia)). pose proof (Z.mod_pos_bound (c / 64) 64 ltac:(lia)).
  replace (c / 4096) with (c / 64 / 64) by (by rewrite Z.div_div).
  destruct (Z.ltb_spec c 65536) as [Hb|Hb].
  { intros [= <-]. cbn [app decode].
    destruct (Z.ltb_spec (224 + c / 64 / 64) 128); [lia|]. destruct (Z.ltb_spec (224 + c / 64 / 64) 224); [lia|].
    destruct (Z.ltb_spec (224 + c / 64 / 64) 240); [|lia]. do 2 f_equal. lia. }
  intros [= <-]. cbn [app decode].
  pose proof (Z.div_mod (c / 64 / 64) 64 ltac:(lia)). pose proof (Z.mod_pos_bound (c / 64 / 64) 64 ltac:(lia)).
  replace (c / 262144) with (c / 64 / 64 / 64) by (by rewrite !Z.div_div).
  destruct (Z.ltb_spec (240 + c / 64 / 64 / 64) 128); [lia|]. destruct (Z.ltb_spec (240 + c / 64 / 64 / 64) 224); [lia|].
  destruct (Z.ltb_spec (240 + c / 64 / 64 / 64) 240); [lia|]. do 2 f_equal. lia.
Qed.
Lemma utf8_decode cps : forall bs, Forall (fun c => 0 <= c < 1114112) cps -> utf8 cps = Some bs -> decode bs = Some cps.
Proof.
  induction cps as [|c cps IH]; intros bs H E; cbn [utf8] in E; [by injection E as <-|]. apply Forall_cons in H as [Hc H].
  destruct (utf8_char c) as [b|] eqn:Eb; cbn [mbind option_bind] in E; [|done].
  destruct (utf8 cps) as [r|] eqn:Er; cbn [mbind option_bind] in E; [|done]. injection E as <-.
  rewrite (utf8_char_decode _ _ _ Hc Eb), (IH _ H eq_refl). done.
Qed.
Lemma utf8_some cps : is_Some (utf8 cps) <-> Forall (fun c => ~ 55296 <= c < 57344) cps.
Proof.
  assert (Hc : forall c, is_Some (utf8_char c) <-> ~ 55296 <= c < 57344).
  { intros c. unfold utf8_char. destruct (Z.ltb_spec c 128); [split; [lia|by eexists]|]. destruct (Z.ltb_spec c 2048); [split; [lia|by eexists]|].
    destruct (Z.leb_spec 55296 c); [|cbn [andb]; split; [lia|intros _; destruct (c <? 65536); by eexists]].
    destruct (Z.ltb_spec c 57344); cbn [andb]; [split; [by intros [? [=]]|lia]|]. split; [lia|]. intros _. destruct (c <? 65536); by eexists. }
  induction cps as [|c cps IH]; cbn [utf8]; [split; [constructor|by eexists]|]. rewrite Forall_cons, <- Hc, <- IH.
  destruct (utf8_char c); cbn [mbind option_bind]; [|by split; [intros [? [=]]|intros [[? [=]] _]]].
  destruct (utf8 cps); cbn [mbind option_bind]; [split; [by split; eexists|by eexists]|by split; [intros [? [=]]|intros [_ [? [=]]]]].
Qed.
Lemma object_string o bs : object_to_string o = Some bs -> comes_back o (OBytes bs).
Proof. destruct o as [b|cps|i]; cbn; [by intros [= ->]| |done]. intros E H. exists bs. split; [done|]. by apply utf8_decode. Qed.
Lemma object_some o : is_Some (object_to_string o) <-> has_string o.
Proof. destruct o as [b|cps|i]; cbn; [split; [done|by eexists]|apply utf8_some|split; [by intros [? [=]]|done]]. Qed.

(** ** The bytes of an array *)

Definition raw (x : nda) : list (list Z) := map (fun a => read (n_mem x) a (Z.of_nat (np_width (n_ty x)))) (n_addrs x).

Lemma concat_inj {A} (ls : list (list A)) : forall ls', Forall2 (fun a b => length a = length b) ls ls' -> concat ls = concat ls' -> ls = ls'.
Proof.
  induction ls as [|l ls IH]; intros ls' H; apply Forall2_cons_inv_l in H || apply Forall2_nil_inv_l in H.
  - by subst.
  - destruct H as (l' & r & Hl & Hr & ->). cbn. intros E. apply app_inj_1 in E as [-> E]; [|done]. f_equal. by apply IH.
Qed.
Lemma read_blocks m a (w : nat) k : read m a (Z.of_nat (w * k)) = concat (map (fun j => read m (a + Z.of_nat j * Z.of_nat w) (Z.of_nat w)) (seq 0 k)).
Proof.
  induction k as [|k IH].
  - rewrite Nat.mul_0_r. done.
  - rewrite seq_S, map_app, concat_app, <- IH. cbn [map concat]. rewrite app_nil_r.
    replace (Z.of_nat (w * S k)) with (Z.of_nat (w * k) + Z.of_nat w) by lia. rewrite read_app by lia. do 2 f_equal. lia.
Qed.
Lemma raw_length x : length (raw x) = length (n_addrs x).
Proof. unfold raw. by rewrite map_length. Qed.
Lemma addrs_length x : array_ok x -> length (n_addrs x) = nelems (n_shape x).
Proof. intros H. rewrite n_addrs_eq by done. by rewrite map_length, length_indices. Qed.
Lemma raw_widths x : Forall (fun l => length l = np_width (n_ty x)) (raw x).
Proof. apply Forall_forall. intros l (a & -> & _)%elem_of_list_fmap. rewrite read_length. lia. Qed.
Lemma raw_c x : n_strides x = c_strides (np_width (n_ty x)) (n_shape x) ->
  concat (raw x) = read (n_mem x) (n_data x) (Z.of_nat (np_width (n_ty x) * nelems (n_shape x))).
Proof. intros E. unfold raw, n_addrs. rewrite E, addrs_c, map_map, read_blocks. done. Qed.
Lemma same_lengths w (l1 l2 : list (list Z)) : length l1 = length l2 -> Forall (fun l => length l = w) l1 -> Forall (fun l => length l = w) l2 ->
  Forall2 (fun a b => length a = length b) l1 l2.
Proof.
  revert l2. induction l1 as [|a l1 IH]; intros [|b l2] Hl H1 H2; try done. apply Forall_cons in H1 as [? ?], H2 as [? ?].
  constructor; [congruence|]. apply IH; auto.
Qed.
Lemma concat_length (w : nat) (l : list (list Z)) : Forall (fun l => length l = w) l -> length (concat l) = (w * length l)%nat.
Proof. induction 1 as [|a l Ha Hl IH]; cbn; [lia|]. rewrite app_length, IH. lia. Qed.

(** A contiguous array that is made from the bytes of another one. *)
Lemma raw_copy t sw sh ls obj : let w := np_width t in length ls = nelems sh -> Forall (fun l => length l = w) ls ->
  raw (mkNda t sw sh (c_strides w sh) 0 (store (fun _ => 0) 0 (concat ls)) obj) = ls.
Proof.
  intros w Hl Hw. set (y := mkNda _ _ _ _ _ _ _).
  assert (Hy : array_ok y \/ w = 0%nat).
  { destruct (decide (w = 0%nat)) as [E|E]; [by right|]. left. split; [cbn; apply c_strides_length|cbn; fold w; lia]. }
  assert (Hn : length (n_addrs y) = nelems sh) by (unfold n_addrs; cbn [n_shape n_strides n_data y]; rewrite addrs_c, map_length, seq_length; done).
  apply concat_inj.
  - apply (same_lengths w); [rewrite raw_length; congruence|apply (raw_widths y)|done].
  - rewrite raw_c by done. cbn [n_mem n_data n_ty n_shape y]. fold w. rewrite <- Hl, <- (concat_length w ls Hw).
    rewrite read_store by lia. apply take_ge. lia.
Qed.

Lemma from_any_raw x : array_ok x -> raw (from_any x) = raw x.
Proof.
  intros Hx. unfold from_any. case_decide as E; [done|].
  apply raw_copy; [rewrite <- (addrs_length x Hx); apply (raw_length x)|apply raw_widths].
Qed.
Lemma from_any_fields x : n_ty (from_any x) = n_ty x /\ n_swapped (from_any x) = n_swapped x /\ n_shape (from_any x) = n_shape x /\
  n_strides (from_any x) = c_strides (np_width (n_ty x)) (n_shape x).
Proof. unfold from_any. by case_decide. Qed.

Lemma objects_copy {A} (l : list A) (f : A -> pyobj) (w : nat) sh : (0 < w)%nat -> length l = nelems sh ->
  map (fun a => nth (Z.to_nat (a / Z.of_nat w)) (map f l) (OAny 0)) (addrs sh (c_strides w sh) 0) = map f l.
Proof.
  intros Hw Hl. rewrite addrs_c, map_map, <- Hl. apply list_eq. intros i. rewrite list_lookup_fmap.
  destruct (decide (i < length l)%nat) as [Hi|Hi].
  - rewrite lookup_seq_lt by done. cbn [fmap option_fmap option_map].
    replace ((0 + Z.of_nat (0 + i) * Z.of_nat w) / Z.of_nat w) with (Z.of_nat i) by (rewrite Z.add_0_l, Z.div_mul by lia; done). rewrite Nat2Z.id.
    destruct (lookup_lt_is_Some_2 (map f l) i) as [v Hv]; [by rewrite map_length|]. rewrite Hv. f_equal. by apply nth_lookup_Some.
  - rewrite !lookup_ge_None_2; [done|rewrite map_length; lia|rewrite seq_length; lia].
Qed.
Lemma from_any_objects x : array_ok x -> map (n_obj (from_any x)) (n_addrs (from_any x)) = map (n_obj x) (n_addrs x).
Proof.
  intros Hx. unfold from_any. case_decide as E; [done|]. cbn [n_obj]. unfold n_addrs at 2. cbn [n_shape n_strides n_data].
  apply objects_copy; [apply Hx|by apply addrs_length].
Qed.

(** ** Theorems *)

Lemma number_width t d : tf_of_np t = Some d -> can_memcpy d = true -> tf_width d = np_width t.
Proof. by destruct t; intros [= <-]. Qed.
Lemma number_back t d : tf_of_np t = Some d -> np_of_tf d = Some (back_type t).
Proof. by destruct t; intros [= <-]. Qed.
Lemma number_kind t d : tf_of_np t = Some d -> dtype_supported d = true /\ can_memcpy d = is_number t /\ is_string t = negb (is_number t).
Proof. by destruct t; intros [= <-]. Qed.
Lemma back_width t : is_number t = true -> np_width (back_type t) = np_width t.
Proof. by destruct t. Qed.

Lemma to_tensor_eq x : array_ok x -> to_tensor x =
  match tf_of_np (n_ty x) with
  | None => CError
  | Some d => if is_number (n_ty x) then COk (mkTen d (n_shape x) (concat (raw x)) [])
              else match mapM object_to_string (map (n_obj x) (n_addrs x)) with
                   | Some ss => COk (mkTen d (n_shape x) [] ss)
                   | None => CError
                   end
  end.
Proof.
  intros Hx. unfold to_tensor. destruct (from_any_fields x) as (E1 & _ & E3 & E4).
  assert (Er := raw_c (from_any x)). rewrite E1, E3 in Er. specialize (Er E4). rewrite (from_any_raw x Hx) in Er.
  rewrite E1, E3. destruct (tf_of_np (n_ty x)) as [d|] eqn:Et; [|done].
  destruct (number_kind _ _ Et) as (Es & Ec & _). rewrite Es, Ec. cbn [negb].
  destruct (is_number (n_ty x)) eqn:En.
  - rewrite <- Er, (number_width _ _ Et) by congruence. unfold fill.
    assert (Hl : length (concat (raw x)) = (np_width (n_ty x) * nelems (n_shape x))%nat).
    { rewrite (concat_length (np_width (n_ty x))) by apply raw_widths. by rewrite raw_length, addrs_length. }
    rewrite Hl, Nat.ltb_irrefl, Nat.sub_diag. cbn [replicate]. by rewrite app_nil_r.
  - unfold bytes_array_map.
    replace (mapM (fun a => object_to_string (n_obj (from_any x) a)) (n_addrs (from_any x)))
      with (mapM object_to_string (map (n_obj (from_any x)) (n_addrs (from_any x)))).
    2: { generalize (n_addrs (from_any x)). intros l. induction l as [|a l IH]; [done|]. cbn. by rewrite IH. }
    rewrite (from_any_objects x Hx). destruct (mapM object_to_string (map (n_obj x) (n_addrs x))) as [ss|] eqn:Em; [|done].
    apply mapM_length in Em. rewrite map_length, addrs_length in Em by done. rewrite <- Em, Nat.eqb_refl. done.
Qed.

Lemma map_elem {A} (f g : list nat -> A) sh : map f (indices sh) = map g (indices sh) -> forall idx, index_of idx sh -> f idx = g idx.
Proof.
  intros E idx Hi. apply indices_spec in Hi. apply elem_of_list_lookup_1 in Hi as [i Hi].
  assert (E' : map f (indices sh) !! i = map g (indices sh) !! i) by (by rewrite E).
  rewrite !list_lookup_fmap, Hi in E'. by injection E'.
Qed.
Lemma raw_elem x idx : n_swapped x = false -> elem x idx = read (n_mem x) (address x idx) (Z.of_nat (np_width (n_ty x))).
Proof. intros E. unfold elem. by rewrite E. Qed.
Lemma raw_eq x : array_ok x -> raw x = map (fun idx => read (n_mem x) (address x idx) (Z.of_nat (np_width (n_ty x)))) (indices (n_shape x)).
Proof. intros H. unfold raw. rewrite n_addrs_eq by done. by rewrite map_map. Qed.

(** An array in the byte order of the machine, with any strides (transposed,
    sliced, reversed, broadcast), that is converted to a tensor and back has the
    same shape and type, and at every index the same element. *)
Theorem C93_lossless_partial x t : array_ok x -> n_swapped x = false -> to_tensor x = COk t ->
  exists y, to_ndarray t = COk y /\ n_shape y = n_shape x /\ n_ty y = back_type (n_ty x) /\ n_swapped y = false /\
    (is_string (n_ty x) = false -> forall idx, index_of idx (n_shape x) -> elem y idx = elem x idx) /\
    (is_string (n_ty x) = true -> forall idx, index_of idx (n_shape x) -> comes_back (object x idx) (object y idx)).
Proof.
  intros Hx Hn. rewrite (to_tensor_eq x Hx). destruct (tf_of_np (n_ty x)) as [d|] eqn:Et; [|done].
  destruct (number_kind _ _ Et) as (Es & Ec & Estr). pose proof (number_back _ _ Et) as Eb.
  destruct (is_number (n_ty x)) eqn:En.
  - intros [= <-]. unfold to_ndarray. cbn [tn_ty tn_shape tn_bytes]. rewrite Es, Eb, Ec. cbn [negb].
    pose proof (back_width _ En) as Ew. rewrite Ew.
    assert (Hl : length (concat (raw x)) = (np_width (n_ty x) * nelems (n_shape x))%nat).
    { rewrite (concat_length (np_width (n_ty x))) by apply raw_widths. by rewrite raw_length, addrs_length. }
    rewrite <- Hl, Nat.ltb_irrefl, (take_ge (concat (raw x))) by lia. eexists. split; [reflexivity|]. cbn [n_shape n_ty n_swapped].
    split; [done|]. split; [done|]. split; [done|]. split; [|intros H; rewrite Estr in H; discriminate H]. intros _.
    set (y := mkNda _ _ _ _ _ _ _).
    assert (Hy : array_ok y) by (split; cbn; [apply c_strides_length|rewrite Ew; apply Hx]).
    assert (E : raw y = raw x).
    { unfold y. rewrite <- Ew. apply raw_copy; [by rewrite raw_length, addrs_length|]. rewrite Ew. apply raw_widths. }
    rewrite (raw_eq y Hy), (raw_eq x Hx) in E. intros idx Hi. rewrite !raw_elem by done. by apply (map_elem _ _ _ E).
  - destruct (mapM object_to_string (map (n_obj x) (n_addrs x))) as [ss|] eqn:Em; [|done].
    intros [= <-]. unfold to_ndarray. cbn [tn_ty tn_shape tn_bytes tn_strs]. rewrite Es, Eb, Ec. cbn [negb].
    eexists. split; [reflexivity|]. cbn [n_shape n_ty n_swapped]. split; [done|]. split; [done|]. split; [done|].
    split; [intros H; rewrite Estr in H; discriminate H|]. intros _.
    set (y := mkNda _ _ _ _ _ _ _).
    assert (Ew : np_width (back_type (n_ty x)) = 8%nat) by (clear -En Et; destruct (n_ty x); cbn in *; try done).
    assert (Hy : array_ok y) by (split; cbn [y n_strides n_shape n_ty]; [apply c_strides_length|lia]).
    assert (Hls : length ss = nelems (n_shape x)) by (apply mapM_length in Em; rewrite map_length, addrs_length in Em by done; done).
    assert (E : map (n_obj y) (n_addrs y) = map OBytes ss).
    { unfold n_addrs. cbn [y n_obj n_shape n_strides n_data]. apply objects_copy; [lia|done]. }
    rewrite (n_addrs_eq y Hy), (n_addrs_eq x Hx), map_map in *. apply mapM_Some_1 in Em.
    intros idx Hi. apply indices_spec in Hi. apply elem_of_list_lookup_1 in Hi as [i Hi].
    destruct (Forall2_lookup_l _ _ _ i (object x idx) Em) as (bs & Hbs & Eo).
    { rewrite list_lookup_fmap, Hi. done. }
    assert (E' : map (fun idx => n_obj y (address y idx)) (indices (n_shape y)) !! i = map OBytes ss !! i) by (by rewrite E).
    rewrite !list_lookup_fmap in E'. cbn [y n_shape] in E'. rewrite Hi, Hbs in E'. cbn in E'. injection E' as E'. change (object y idx = OBytes bs) in E'. rewrite E'. by apply object_string.
Qed.

(** What is accepted: numbers of the listed types always; strings if every element
    is bytes or a str that has an encoding.  Nothing crashes. *)
Theorem C93_accepts x : array_ok x ->
  ((exists t, to_tensor x = COk t) <->
     is_number (n_ty x) = true \/
     (is_string (n_ty x) = true /\ forall idx, index_of idx (n_shape x) -> has_string (object x idx))) /\
  to_tensor x <> CCrash.
Proof.
  intros Hx. rewrite (to_tensor_eq x Hx). destruct (tf_of_np (n_ty x)) as [d|] eqn:Et.
  2: { split; [|done]. split; [by intros (t & [=])|]. destruct (n_ty x); try done; cbn; by intros [?|[? _]]. }
  destruct (number_kind _ _ Et) as (_ & _ & ->). destruct (is_number (n_ty x)) eqn:En; cbn [negb].
  { split; [|done]. split; [by left|]. intros _. by eexists. }
  assert (Hm : (exists ss, mapM object_to_string (map (n_obj x) (n_addrs x)) = Some ss) <->
               forall idx, index_of idx (n_shape x) -> has_string (object x idx)).
  { rewrite (n_addrs_eq x Hx), map_map. fold (object x). split.
    - intros (ss & Em) idx Hi. apply mapM_Some_1 in Em. apply indices_spec in Hi. apply elem_of_list_lookup_1 in Hi as [i Hi].
      destruct (Forall2_lookup_l _ _ _ i (object x idx) Em) as (bs & _ & Eo); [by rewrite list_lookup_fmap, Hi|]. apply object_some. by exists bs.
    - intros H. assert (HF : Forall (fun o => is_Some (object_to_string o)) (map (object x) (indices (n_shape x)))).
      { apply Forall_forall. intros o (idx & -> & Hi)%elem_of_list_fmap. apply indices_spec in Hi. apply object_some. by apply H. }
      apply mapM_is_Some_2 in HF as [ss E]. by exists ss. }
  split.
  - rewrite <- Hm. split.
    + intros (t & E). right. split; [done|]. destruct (mapM _ _) as [ss|]; [by exists ss|done].
    + intros [?|[_ (ss & ->)]]; [done|]. by eexists.
  - by destruct (mapM _ _).
Qed.

(** Tensors: what Python gets from a tensor converts back to this tensor. *)
Definition ten_ok (t : ten) : Prop :=
  if can_memcpy (tn_ty t) then length (tn_bytes t) = (tf_width (tn_ty t) * nelems (tn_shape t))%nat /\ tn_strs t = []
  else tn_bytes t = [] /\ length (tn_strs t) = nelems (tn_shape t).
Lemma blocks_exist (w k : nat) (bs : list Z) : length bs = (w * k)%nat ->
  exists ls, length ls = k /\ Forall (fun l => length l = w) ls /\ concat ls = bs.
Proof.
  revert bs. induction k as [|k IH]; intros bs Hl.
  - exists []. split; [done|]. split; [constructor|]. destruct bs; [done|cbn in Hl; lia].
  - destruct (IH (drop w bs)) as (ls & H1 & H2 & H3); [rewrite drop_length; lia|].
    exists (take w bs :: ls). split; [cbn; lia|]. split; [constructor; [rewrite take_length; lia|done]|]. cbn. rewrite H3. apply take_drop.
Qed.
Theorem C93_tensor t : ten_ok t ->
  match np_of_tf (tn_ty t) with
  | None => to_ndarray t = CError
  | Some _ => exists y, to_ndarray t = COk y /\ array_ok y /\ n_swapped y = false /\ n_shape y = tn_shape t /\ to_tensor y = COk t
  end.
Proof.
  intros Ht. destruct (np_of_tf (tn_ty t)) as [n|] eqn:En.
  2: { unfold to_ndarray. rewrite En. by destruct (negb _). }
  assert (Hk : dtype_supported (tn_ty t) = true /\ tf_of_np n = Some (tn_ty t) /\ can_memcpy (tn_ty t) = is_number n /\
               (is_number n = true -> tf_width (tn_ty t) = np_width n) /\ (0 < np_width n)%nat).
  { clear -En. destruct (tn_ty t); try discriminate En; injection En as <-; cbn; (split; [done|]); (split; [done|]); (split; [done|]); (split; [done|lia]). }
  destruct Hk as (H1 & H2 & H3 & H4 & H5). unfold ten_ok in Ht. rewrite H3 in Ht.
  unfold to_ndarray. rewrite H1, En, H3. cbn [negb]. destruct t as [ty sh bs ss]. cbn [tn_ty tn_shape tn_bytes tn_strs] in *.
  destruct (is_number n) eqn:Eis.
  - destruct Ht as [Hl ->]. rewrite H4 in Hl by done. rewrite Hl, Nat.ltb_irrefl, (take_ge bs) by lia.
    destruct (blocks_exist _ _ _ Hl) as (ls & L1 & L2 & <-).
    eexists. split; [reflexivity|]. assert (Hok : array_ok (mkNda n false sh (c_strides (np_width n) sh) 0 (store (λ _ : Z, 0) 0 (concat ls)) (λ _ : Z, OAny 0)))
      by (split; [cbn; apply c_strides_length|done]).
    split; [exact Hok|]. split; [done|]. split; [done|]. rewrite (to_tensor_eq _ Hok). cbn [n_ty n_shape]. rewrite H2, Eis.
    by rewrite raw_copy.
  - destruct Ht as [-> Hl]. eexists. split; [reflexivity|].
    set (y := mkNda _ _ _ _ _ _ _). assert (Hok : array_ok y) by (split; [cbn; apply c_strides_length|done]).
    split; [exact Hok|]. split; [done|]. split; [done|]. rewrite (to_tensor_eq _ Hok). cbn [y n_ty n_shape]. rewrite H2, Eis.
    assert (E : map (n_obj y) (n_addrs y) = map OBytes ss).
    { unfold n_addrs. cbn [y n_obj n_shape n_strides n_data]. by apply objects_copy. }
    fold y. rewrite E. replace (mapM object_to_string (map OBytes ss)) with (Some ss); [done|].
    clear. induction ss as [|s ss IH]; [done|]. cbn in *. by rewrite <- IH.
Qed.

(** ** Byte order *)

(** NPY_ARRAY_CARRAY_RO does not ask for the byte order of the machine and the type
    number does not tell it: the bytes of an array of the other byte order are
    copied as they are, and the numbers are other ones. *)
Definition big_endian : nda := mkNda NInt32 true [2%nat] [4] 100 (store (fun _ => 0) 100 [0; 0; 0; 1; 0; 0; 1; 0]) (fun _ => OAny 0).
Theorem C93_byte_order_refuted : exists x t y idx, array_ok x /\ n_ty x = NInt32 /\ to_tensor x = COk t /\ to_ndarray t = COk y /\
  index_of idx (n_shape x) /\ elem x idx = [1; 0; 0; 0] /\ elem y idx = [0; 0; 0; 1].
Proof.
  exists big_endian. eexists _, _, [0%nat]. split; [split; [done|cbn; lia]|]. split; [done|]. split; [reflexivity|]. split; [reflexivity|].
  split; [repeat constructor|]. split; vm_compute; reflexivity.
Qed.

(** ** Concrete cases *)

(** A 2 x 3 array of int16, seen transposed and with its rows reversed: strides 2
    and -6 from the element at 106. *)
Definition view : nda := mkNda NInt16 false [3; 2]%nat [2; -6] 106 (store (fun _ => 0) 100 [1; 0; 2; 0; 3; 0; 4; 0; 5; 0; 6; 0]) (fun _ => OAny 0).
Example C93_example : array_ok view /\ elem view [2; 0]%nat = [6; 0] /\ elem view [2; 1]%nat = [3; 0] /\
  to_tensor view = COk (mkTen DInt16 [3; 2]%nat [4; 0; 1; 0; 5; 0; 2; 0; 6; 0; 3; 0] []).
Proof. repeat split; vm_compute; try reflexivity. lia. Qed.

(** An array of a str and of bytes; the str has a letter outside of ASCII.  An
    object that is neither is refused. *)
Definition words (o : pyobj) : nda := mkNda NObject false [2%nat] [8] 0 (fun _ => 0) (fun a => if a =? 0 then OStr [104; 233] else o).
Example C93_example_strings : to_tensor (words (OBytes [0; 255; 0])) = COk (mkTen DString [2%nat] [] [[104; 195; 169]; [0; 255; 0]]) /\
  to_tensor (words (OAny 7)) = CError /\ to_tensor (words (OStr [55296])) = CError.
Proof. repeat split; vm_compute; reflexivity. Qed.

Print Assumptions C93_lossless_partial.
Print Assumptions C93_accepts.
Print Assumptions C93_tensor.
Print Assumptions C93_byte_order_refuted.
