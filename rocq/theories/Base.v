(** Shared vocabulary of the model. *)
From Coq Require Export QArith Qabs Qround Lqa.
From stdpp Require Export gmap list numbers sorting.
Open Scope Z_scope.

(** Return codes (absl::StatusCode) that the modelled code distinguishes.
    RateLimiterTimeout is the DeadlineExceeded status built in
    reverb/cc/errors.cc. *)
Inductive status :=
| Ok | InvalidArgument | NotFound | DeadlineExceeded | Cancelled | Internal
| Unavailable | OutOfRange | ResourceExhausted | FailedPrecondition | DataLoss.

Global Instance status_eq_dec : EqDecision status.
Proof. solve_decision. Defined.

(** A C++ double used as a priority.  Finite values are exact rationals; the
    infinities are not modelled. *)
Inductive dbl := Fin (q : Q) | NaN.

(** C++ [a < b] on doubles: false as soon as one side is NaN. *)
Definition dlt (a b : dbl) : bool :=
  match a, b with Fin x, Fin y => negb (Qle_bool y x) | _, _ => false end.
(** C++ [a == b] on doubles. *)
Definition deq (a b : dbl) : bool :=
  match a, b with Fin x, Fin y => Qeq_bool x y | _, _ => false end.
(** C++ [a * sign] for sign in {1,-1}. *)
Definition dsign (neg : bool) (a : dbl) : dbl :=
  match a with Fin x => Fin (if neg then - x else x)%Q | NaN => NaN end.

(** Floating point arithmetic: every arithmetic result is passed through
    [rnd]; [pw] stands for std::pow.  Theorems quantify over both. *)
Class FP := { rnd : Q -> Q; pw : Q -> Q -> Q }.

(** What is assumed of a rounding: monotone and exact on 0. *)
Class FPLaws (fp : FP) := {
  rnd_mono : forall x y : Q, (x <= y -> rnd x <= rnd y)%Q;
  rnd_zero : (rnd 0 == 0)%Q;
  pw_nonneg : forall b e : Q, (0 <= b -> 0 <= e -> 0 <= pw b e)%Q }.

(** Exact arithmetic. *)
Class FPExact (fp : FP) := {
  rnd_exact : forall x : Q, (rnd x == x)%Q;
  pw_pos : forall b e : Q, (0 < b -> 0 <= e -> 0 < pw b e)%Q }.

(** A concrete exact arithmetic, for the examples: pow is only right for the
    exponents 0 and 1. *)
Definition fp_exact : FP :=
  {| rnd := Qred; pw := fun b e => if Qeq_bool e 0 then 1%Q else b |}.

Lemma fp_exact_laws : FPLaws fp_exact.
Proof.
  split; simpl.
  - intros x y H. rewrite !Qred_correct. exact H.
  - apply Qred_correct.
  - intros b e Hb He. destruct (Qeq_bool e 0); [discriminate|exact Hb].
Qed.

Lemma fp_exact_exact : FPExact fp_exact.
Proof.
  split; simpl.
  - intros x. apply Qred_correct.
  - intros b e Hb He. destruct (Qeq_bool e 0); [reflexivity|exact Hb].
Qed.

(** One random draw handed to a selector: an integer (absl::Uniform<size_t>)
    and a real in [0,1) (absl::Uniform<double>). *)
Record draw := mkDraw { d_int : nat; d_unit : Q }.
(** The third clause says that the real draw times a container size is not
    rounded up to that size; it follows from the second one in exact
    arithmetic ([draw_ok_exact]) and holds for binary64 draws and sizes below
    2^53. *)
Definition draw_ok {fp : FP} (d : draw) : Prop :=
  (0 <= d_unit d)%Q /\ (d_unit d < 1)%Q /\
  forall n : Z, 0 < n -> (rnd (d_unit d * inject_Z n) < inject_Z n)%Q.

Lemma draw_ok_exact {fp : FP} {exact : FPExact fp} d :
  (0 <= d_unit d)%Q -> (d_unit d < 1)%Q -> draw_ok d.
Proof.
  intros H0 H1. split; [done|]. split; [done|]. intros n Hn. rewrite rnd_exact.
  assert (Hn' : (0 < inject_Z n)%Q) by (unfold Qlt; simpl; lia).
  assert (H : (d_unit d * inject_Z n < 1 * inject_Z n)%Q) by (by apply Qmult_lt_compat_r).
  lra.
Qed.

Lemma dlt_irrefl a : dlt a a = false.
Proof.
  destruct a as [x|]; simpl; [|reflexivity].
  destruct (Qle_bool x x) eqn:E; [reflexivity|].
  exfalso. assert (H : Qle_bool x x = true) by (apply Qle_bool_iff; lra). congruence.
Qed.
