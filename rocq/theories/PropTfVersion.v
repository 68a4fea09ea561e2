(** C103: import reverb and the version of TensorFlow. *)
From Coq Require Import Ascii String.
From Verif Require Import Base TfVersion.

(** ** Specification *)

(** [w] is the number [n] in decimal. *)
Inductive decimal : list ascii -> Z -> Prop :=
| dec_one d : 0 <= d <= 9 -> decimal [ascii_of_N (Z.to_N (48 + d))] d
| dec_more w n d : decimal w n -> 0 <= d <= 9 -> decimal (w ++ [ascii_of_N (Z.to_N (48 + d))]) (10 * n + d).
(** Release [x.y.z] is 2.3.0 or a later one. *)
Definition recent (x y z : Z) : Prop := x > 2 \/ (x = 2 /\ (y > 3 \/ (y = 3 /\ z >= 0))).
(** What may follow the number of a release: it does not go on with a digit. *)
Definition ends_number (rest : list ascii) : Prop :=
  match rest with [] => True | c :: _ => forall d, 0 <= d <= 9 -> c <> ascii_of_N (Z.to_N (48 + d)) end.

(** ** Proofs *)
Lemma digit_code d : 0 <= d <= 9 -> code (ascii_of_N (Z.to_N (48 + d))) = 48 + d.
Proof. intros H. unfold code. rewrite N_ascii_embedding; lia. Qed.
Lemma digit_class d : 0 <= d <= 9 -> class (ascii_of_N (Z.to_N (48 + d))) = CDigit.
Proof.
  intros H. unfold class. rewrite digit_code by done.
  destruct (48 <=? 48 + d) eqn:E1; [|lia]. destruct (48 + d <=? 57) eqn:E2; [done|lia].
Qed.
Lemma class_digit c : class c = CDigit -> exists d, 0 <= d <= 9 /\ c = ascii_of_N (Z.to_N (48 + d)).
Proof.
  unfold class. destruct (48 <=? code c) eqn:E1; [destruct (code c <=? 57) eqn:E2|]; cbn;
    [|by repeat case_match..].
  intros _. exists (code c - 48). split; [lia|].
  replace (48 + (code c - 48)) with (code c) by lia. unfold code. by rewrite N2Z.id, ascii_N_embedding.
Qed.
Lemma decimal_class w n : decimal w n -> Forall (fun c => class c = CDigit) w /\ w <> [].
Proof.
  induction 1 as [d Hd|w n d _ [IH _] Hd]; split; try done.
  - apply Forall_singleton. by apply digit_class.
  - apply Forall_app. split; [done|]. apply Forall_singleton. by apply digit_class.
  - by destruct w.
Qed.
Lemma decimal_digits w n : decimal w n -> digits w = n /\ 0 <= n.
Proof.
  induction 1 as [d Hd|w n d _ [IH Hn] Hd].
  - unfold digits. cbn [fold_left]. rewrite digit_code by done. lia.
  - unfold digits in *. rewrite fold_left_app. cbn [fold_left]. rewrite IH, digit_code by done. lia.
Qed.

(** What a text starts with. *)
Definition starts_digit (l : list (cls * list ascii)) : Prop := match l with (CDigit, _) :: _ => True | _ => False end.
Lemma split_head c s : exists w r, split (c :: s) = (class c, w) :: r.
Proof.
  cbn [split]. destruct (split s) as [|[k w] r]; [by eexists _, _|].
  destruct (decide (k = class c)) as [->|Hk].
  - rewrite bool_decide_eq_true_2 by done. cbn. destruct (negb _); by eexists _, _.
  - rewrite bool_decide_eq_false_2 by done. cbn. by eexists _, _.
Qed.
Lemma split_digits w s : Forall (fun c => class c = CDigit) w -> w <> [] -> ~ starts_digit (split s) ->
  split (w ++ s) = (CDigit, w) :: split s.
Proof.
  intros Hw Hne Hs. induction Hw as [|c w Hc Hw IH]; [done|]. clear Hne. destruct w as [|c2 w].
  - cbn [app split]. rewrite Hc. destruct (split s) as [|[k w] r]; [done|].
    rewrite bool_decide_eq_false_2; [done|]. intros ->. by apply Hs.
  - cbn [app] in *. change (split (c :: c2 :: w ++ s)) with
      (match split (c2 :: w ++ s) with
       | (k, w) :: r => if bool_decide (k = class c) && negb (bool_decide (k = CDot)) then (k, c :: w) :: r else (class c, [c]) :: (k, w) :: r
       | [] => [(class c, [c])]
       end).
    rewrite IH by done. rewrite Hc. done.
Qed.
Lemma split_dot s : split ("."%char :: s) = (CDot, ["."%char]) :: split s.
Proof. cbn [split]. change (class "."%char) with CDot. destruct (split s) as [|[k w] r]; [done|]. by destruct k. Qed.
Lemma ends_number_split s : ends_number s -> ~ starts_digit (split s).
Proof.
  destruct s as [|c s]; [by intros _ []|]. intros H. destruct (split_head c s) as (w & r & ->). cbn. intros Hd.
  destruct (class c) eqn:Ec; try done. apply class_digit in Ec as (d & Hr & ->). by apply (H d).
Qed.
Lemma dot_starts s : ~ starts_digit (split ("."%char :: s)).
Proof. rewrite split_dot. by intros []. Qed.

Lemma parse_release wx wy wz x y z rest : decimal wx x -> decimal wy y -> decimal wz z -> ends_number rest ->
  parse (wx ++ ["."%char] ++ wy ++ ["."%char] ++ wz ++ rest) = VInt x :: VInt y :: VInt z :: parse rest.
Proof.
  intros Hx Hy Hz Hr.
  destruct (decimal_class _ _ Hx) as [Cx Nx], (decimal_class _ _ Hy) as [Cy Ny], (decimal_class _ _ Hz) as [Cz Nz].
  apply decimal_digits in Hx as [<- _], Hy as [<- _], Hz as [<- _].
  unfold parse. cbn [app]. rewrite (split_digits wx), split_dot, (split_digits wy), split_dot, (split_digits wz);
    try done; try apply dot_starts. by apply ends_number_split.
Qed.

(** ** The property *)

(** Whatever follows the number of the release. *)
Theorem C103_release_partial wx wy wz x y z rest : decimal wx x -> decimal wy y -> decimal wz z -> ends_number rest ->
  (recent x y z -> ensure_tf_version (Some (wx ++ ["."%char] ++ wy ++ ["."%char] ++ wz ++ rest)) = Imported) /\
  (~ recent x y z -> ensure_tf_version (Some (wx ++ ["."%char] ++ wy ++ ["."%char] ++ wz ++ rest)) = ImportError).
Proof.
  intros Hx Hy Hz Hr. unfold ensure_tf_version. rewrite (parse_release _ _ _ x y z) by done.
  assert (Hz0 : 0 <= z) by by eapply decimal_digits.
  change (parse required) with [VInt 2; VInt 3; VInt 0].
  assert (L : list_lt (VInt x :: VInt y :: VInt z :: parse rest) [VInt 2; VInt 3; VInt 0] =
    Some (if decide (x = 2) then y <? 3 else x <? 2)).
  { cbn [list_lt]. destruct (decide (x = 2)) as [->|Nx].
    - rewrite bool_decide_eq_true_2 by done. destruct (decide (y = 3)) as [->|Ny].
      + rewrite bool_decide_eq_true_2 by done. destruct (decide (z = 0)) as [->|Nz].
        * rewrite bool_decide_eq_true_2 by done. by destruct (parse rest).
        * rewrite bool_decide_eq_false_2 by congruence. cbn. f_equal. lia.
      + rewrite bool_decide_eq_false_2 by congruence. done.
    - rewrite bool_decide_eq_false_2 by congruence. done. }
  assert (K : version_lt (VInt x :: VInt y :: VInt z :: parse rest) [VInt 2; VInt 3; VInt 0] =
    Some (if decide (x = 2) then y <? 3 else x <? 2)).
  { unfold version_lt. destruct (bool_decide _) eqn:E; [|done]. apply bool_decide_eq_true in E. by injection E as -> -> -> _. }
  rewrite K. unfold recent. destruct (decide (x = 2)) as [->|Nx].
  - destruct (y <? 3) eqn:E; split; intros H; try done; exfalso; lia.
  - destruct (x <? 2) eqn:E; split; intros H; try done; exfalso; lia.
Qed.

(** A preliminary version of the release that is required is accepted; the number of a release
    without its third part is refused; other names end with an exception that is not an
    ImportError. *)
Theorem C103_other_refuted :
  ensure_tf_version (Some (list_ascii_of_string "2.3.0-rc0")) = Imported /\
  ensure_tf_version (Some (list_ascii_of_string "2.3")) = ImportError /\
  ensure_tf_version (Some (list_ascii_of_string "v2.4.0")) = TypeError.
Proof. by vm_compute. Qed.

(** ** Example: numbers are compared as numbers. *)
Lemma decimal_2 : decimal ["2"%char] 2. Proof. apply (dec_one 2). lia. Qed.
Lemma decimal_10 : decimal ["1"%char; "0"%char] 10.
Proof. apply (dec_more ["1"%char] 1 0); [|lia]. apply (dec_one 1). lia. Qed.
Example C103_example :
  ensure_tf_version (Some (list_ascii_of_string "2.10.2-rc1")) = Imported /\
  ensure_tf_version (Some (list_ascii_of_string "2.2.10")) = ImportError.
Proof.
  split.
  - apply (C103_release_partial ["2"%char] ["1"%char; "0"%char] ["2"%char] 2 10 2 (list_ascii_of_string "-rc1"));
      [apply decimal_2|apply decimal_10|apply decimal_2| |unfold recent; lia].
    intros d Hd E. apply (f_equal code) in E. rewrite digit_code in E by done.
    change (code _) with 45 in E. lia.
  - apply (C103_release_partial ["2"%char] ["2"%char] ["1"%char; "0"%char] 2 2 10 []);
      [apply decimal_2|apply decimal_2|apply decimal_10|done|unfold recent; lia].
Qed.

Print Assumptions C103_release_partial.
Print Assumptions C103_other_refuted.
Print Assumptions C103_example.
