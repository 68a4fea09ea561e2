(** C31: delta encoding is lossless. *)
From Verif Require Import Base Tensor.

(** ** What the loop computes *)

Lemma delta_loop_spec w enc c src todo dst out : (0 < c)%nat -> delta_loop w enc c src todo dst = Some out ->
  length out = (length dst + todo)%nat /\ dst `prefix_of` out /\
  forall n, (length dst <= n < length dst + todo)%nat -> exists v, out !! n = Some v /\ delta_at w enc c src out n = Some v.
Proof.
  intros Hc. revert dst. induction todo as [|todo IH]; intros dst; cbn [delta_loop].
  - intros [= ->]. split; [lia|]. split; [done|]. intros n Hn. lia.
  - destruct (delta_at w enc c src dst (length dst)) as [v|] eqn:Ev; cbn [mbind option_bind]; [|done].
    intros H. destruct (IH _ H) as (Hl & Hp & Hs). rewrite app_length in Hl, Hs. cbn [length] in Hl, Hs.
    assert (Hp2 : dst `prefix_of` out) by (etrans; [|exact Hp]; by eexists).
    split; [lia|]. split; [done|]. intros n Hn.
    destruct (decide (n = length dst)) as [->|Hne]; [|apply Hs; lia]. exists v. split.
    + apply (prefix_lookup (dst ++ [v])); [|done]. rewrite lookup_app_r by lia. by rewrite Nat.sub_diag.
    + rewrite <- Ev. unfold delta_at. destruct (Nat.ltb_spec (length dst) c) as [|Hge]; [done|].
      destruct (src !! length dst); cbn [mbind option_bind]; [|done]. destruct enc; [done|].
      destruct (lookup_lt_is_Some_2 dst (length dst - c)) as [p Ep]; [lia|]. rewrite Ep.
      by rewrite (prefix_lookup _ _ _ _ Ep Hp2).
Qed.

Lemma delta_loop_some w enc c src todo dst : (0 < c)%nat -> (length dst + todo <= length src)%nat ->
  is_Some (delta_loop w enc c src todo dst).
Proof.
  intros Hc. revert dst. induction todo as [|todo IH]; intros dst Hl; cbn [delta_loop]; [by eexists|].
  assert (Hv : is_Some (delta_at w enc c src dst (length dst))).
  { unfold delta_at. destruct (Nat.ltb_spec (length dst) c) as [|Hge]; [apply lookup_lt_is_Some_2; lia|].
    destruct (lookup_lt_is_Some_2 src (length dst)) as [x Ex]; [lia|]. rewrite Ex. cbn [mbind option_bind].
    destruct enc; [destruct (lookup_lt_is_Some_2 src (length dst - c)) as [p Ep]; [lia|]|destruct (lookup_lt_is_Some_2 dst (length dst - c)) as [p Ep]; [lia|]];
      rewrite Ep; by eexists. }
  destruct Hv as [v ->]. cbn [mbind option_bind]. apply IH. rewrite app_length. cbn. lia.
Qed.

Lemma rows_total r c : (1 <= r)%nat -> (c + (r - 1) * c = r * c)%nat.
Proof. intros H. destruct r as [|r]; [lia|]. replace (S r - 1)%nat with r by lia. lia. Qed.

Lemma delta_rows_spec w enc r c src : (1 <= r)%nat -> length src = (r * c)%nat ->
  exists out, delta_rows w enc r c src = Some out /\ length out = (r * c)%nat /\
    forall n, (n < r * c)%nat -> exists v, out !! n = Some v /\ delta_at w enc c src out n = Some v.
Proof.
  intros Hr Hl. unfold delta_rows. rewrite rows_total by done. destruct (decide (c = 0%nat)) as [->|Hc].
  - rewrite Nat.mul_0_r. cbn. exists []. split; [done|]. split; [done|]. intros n Hn. lia.
  - destruct (delta_loop_some w enc c src (r * c) []) as [out Ho]; [lia|cbn; lia|]. exists out. split; [done|].
    apply delta_loop_spec in Ho as (Ho1 & _ & Ho3); [|lia]. cbn [length] in *. split; [lia|]. intros n Hn. apply Ho3. lia.
Qed.

Lemma delta_at_range w enc c src dst n v : (forall x, x ∈ src -> (0 <= x < 2 ^ Zpos w)%Z) -> delta_at w enc c src dst n = Some v -> (0 <= v < 2 ^ Zpos w)%Z.
Proof.
  intros Hs. unfold delta_at. destruct (n <? c)%nat; [intros H; apply Hs; by apply elem_of_list_lookup_2 in H|].
  destruct (src !! n) as [x|]; cbn [mbind option_bind]; [|done].
  destruct ((if enc then src else dst) !! (n - c)%nat) as [p|]; cbn [mbind option_bind]; [|done].
  intros [= <-]. destruct enc; apply Z.mod_pos_bound; lia.
Qed.

(** ** C31 *)

(** The documented format: every element of the first row is kept, every other
    one is replaced by its difference from the one above it, modulo the width. *)
Theorem C31_format w s r d sh data : (1 <= r)%nat -> tensor_ok (mkTensor (TInt w s) (r :: d :: sh) data) ->
  exists data', delta_encode (mkTensor (TInt w s) (r :: d :: sh) data) true = Some (mkTensor (TInt w s) (r :: d :: sh) data') /\
    length data' = length data /\
    forall i j, (i < r)%nat -> (j < elements (d :: sh))%nat ->
      let c := elements (d :: sh) in exists x y, data !! (i * c + j)%nat = Some x /\ data' !! (i * c + j)%nat = Some y /\
      match i with
      | O => y = x
      | S i => exists p, data !! (i * c + j)%nat = Some p /\ (0 <= y < 2 ^ Zpos w)%Z /\ (y mod 2 ^ Zpos w = (x - p) mod 2 ^ Zpos w)%Z
      end.
Proof.
  intros Hr [Hl Hf]. cbn [t_ty t_shape t_data] in *. unfold delta_encode. cbn [t_ty t_shape t_data].
  change (elements (r :: d :: sh)) with (r * elements (d :: sh))%nat in Hl. set (c := elements (d :: sh)) in *. clearbody c.
  destruct (delta_rows_spec w true r c data Hr Hl) as (out & -> & Hlo & Ho). cbn [mbind option_bind].
  exists out. split; [done|]. split; [congruence|]. intros i j Hi Hj. cbn zeta.
  assert (Hn : (i * c + j < r * c)%nat) by nia. destruct (Ho _ Hn) as (v & Hv & Ev).
  unfold delta_at in Ev. destruct i as [|i].
  - cbn [Nat.mul Nat.add] in *. destruct (Nat.ltb_spec j c) as [_|]; [|lia]. by exists v, v.
  - destruct (Nat.ltb_spec (S i * c + j) c) as [|_]; [lia|].
    replace (S i * c + j - c)%nat with (i * c + j)%nat in Ev by lia.
    destruct (data !! (S i * c + j)%nat) as [x|] eqn:Ex; cbn [mbind option_bind] in Ev; [|done].
    destruct (data !! (i * c + j)%nat) as [p|] eqn:Ep; cbn [mbind option_bind] in Ev; [|done]. injection Ev as <-.
    exists x, ((x - p) mod 2 ^ Zpos w)%Z. split; [done|]. split; [done|]. exists p. split; [done|].
    split; [apply Z.mod_pos_bound; lia|]. by rewrite Z.mod_mod by lia.
Qed.

(** Decoding what was encoded gives the tensor back. *)
Theorem C31_lossless t r sh : tensor_ok t -> t_shape t = r :: sh -> (1 <= r)%nat ->
  exists e, delta_encode t true = Some e /\ tensor_ok e /\ t_ty e = t_ty t /\ t_shape e = t_shape t /\
            delta_encode e false = Some t.
Proof.
  destruct t as [ty sh' data]. cbn [t_ty t_shape t_data]. intros [Hl Hf] -> Hr. cbn [t_ty t_shape t_data] in *.
  assert (Hid : forall P : tensor -> Prop, P (mkTensor ty (r :: sh) data) -> exists e, Some (mkTensor ty (r :: sh) data) = Some e /\ P e) by (intros P HP; by eexists).
  destruct ty as [w s|id]; [|by exists (mkTensor (TOther id) (r :: sh) data)].
  destruct sh as [|d sh]; [by exists (mkTensor (TInt w s) [r] data)|]. clear Hid.
  unfold delta_encode. cbn [t_ty t_shape t_data].
  change (elements (r :: d :: sh)) with (r * elements (d :: sh))%nat in Hl. set (c := elements (d :: sh)) in *.
  assert (Hin : forall x, x ∈ data -> (0 <= x < 2 ^ Zpos w)%Z) by (by rewrite Forall_forall in Hf).
  destruct (delta_rows_spec w true r c data Hr Hl) as (e & -> & Hle & He). cbn [mbind option_bind].
  exists (mkTensor (TInt w s) (r :: d :: sh) e). split; [done|]. split.
  { split; [exact Hle|]. cbn [t_ty t_data]. apply Forall_lookup_2. intros n v Hv. cbn.
    destruct (He n) as (v' & Hv' & Ev'); [rewrite <- Hle; by apply lookup_lt_Some in Hv|].
    rewrite Hv in Hv'. injection Hv' as <-. by apply (delta_at_range _ _ _ _ _ _ _ Hin Ev'). }
  split; [done|]. split; [done|]. cbn [t_ty t_shape t_data]. fold c.
  destruct (delta_rows_spec w false r c e Hr Hle) as (o & -> & Hlo & Ho). cbn [mbind option_bind].
  f_equal. f_equal. apply list_eq. intros n. induction (lt_wf n) as [n _ IH].
  destruct (decide (n < r * c)%nat) as [Hn|Hn].
  2: { rewrite (lookup_ge_None_2 o) by lia. by rewrite (lookup_ge_None_2 data) by lia. }
  destruct (He n Hn) as (y & Hy & Ey). destruct (Ho n Hn) as (z & Hz & Ez). rewrite Hz.
  unfold delta_at in Ey, Ez. destruct (Nat.ltb_spec n c) as [Hc|Hc].
  - rewrite Ey. by rewrite <- Ez, Hy.
  - rewrite Hy in Ez. cbn [mbind option_bind] in Ez.
    destruct (data !! n) as [x|] eqn:Ex; cbn [mbind option_bind] in Ey; [|done].
    destruct (data !! (n - c)%nat) as [p|] eqn:Ep; cbn [mbind option_bind] in Ey; [|done]. injection Ey as <-.
    assert (Hc0 : c <> 0%nat) by (intros E; rewrite E, Nat.mul_0_r in Hn; lia).
    rewrite (IH (n - c)%nat ltac:(lia)), Ep in Ez. cbn [mbind option_bind] in Ez. injection Ez as <-.
    rewrite Zplus_mod_idemp_l. replace (x - p + p)%Z with x by lia. rewrite Z.mod_small; [done|]. apply Hin. by apply elem_of_list_lookup_2 in Ex.
Qed.

(** Tensors that are not integral or have less than two dimensions are left as
    they are, both ways. *)
Theorem C31_untouched t b : (forall w s, t_ty t <> TInt w s) \/ (length (t_shape t) < 2)%nat -> delta_encode t b = Some t.
Proof.
  destruct t as [[w s|id] [|r [|d sh]] data]; cbn; intros [H|H]; try done; [by destruct (H w s)|lia].
Qed.

(** The whole list of the columns of a chunk. *)
Theorem C31_list ts : Forall (fun t => tensor_ok t /\ exists r sh, t_shape t = r :: sh /\ (1 <= r)%nat) ts ->
  exists es, delta_encode_list ts true = Some es /\ Forall2 (fun t e => t_ty e = t_ty t /\ t_shape e = t_shape t) ts es /\
             delta_encode_list es false = Some ts.
Proof.
  induction 1 as [|t ts (Ht & r & sh & Hs & Hr) H IH]; [by exists []; repeat constructor|].
  destruct IH as (es & He & H2 & Hd). destruct (C31_lossless t r sh Ht Hs Hr) as (e & E1 & _ & E2 & E3 & E4).
  exists (e :: es). cbn [delta_encode_list]. rewrite E1. cbn [mbind option_bind]. rewrite He. cbn [mbind option_bind].
  split; [done|]. split; [by constructor|]. rewrite E4. cbn [mbind option_bind]. rewrite Hd. done.
Qed.

(** ** Concrete cases *)

Definition t1 : tensor := mkTensor (TInt 8 true) [3; 2]%nat [250; 1; 3; 0; 255; 128].
Example C31_example : tensor_ok t1 /\
  delta_encode t1 true = Some (mkTensor (TInt 8 true) [3; 2]%nat [250; 1; 9; 255; 252; 128]).
Proof. split; [|done]. split; [done|]. repeat constructor; cbn; lia. Qed.

(** With no rows the code reads and writes outside of the (empty) buffer. *)
Example C31_no_rows : delta_encode (mkTensor (TInt 8 false) [0; 2]%nat []) true = None.
Proof. done. Qed.

Print Assumptions C31_format.
Print Assumptions C31_lossless.
Print Assumptions C31_untouched.
Print Assumptions C31_list.
