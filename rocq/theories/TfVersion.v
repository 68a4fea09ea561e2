(** The check of TensorFlow's version when reverb is imported:
    reverb/platform/default/ensure_tf_install.py and reverb/__init__.py. *)
From Coq Require Import Ascii String.
From Verif Require Import Base.

(** LooseVersion of Python's distutils.version splits its argument by the regular expression
    [(\d+ | [a-z]+ | \.)] and keeps the parts between the matches.  Characters are ASCII. *)
Inductive cls := CDigit | CLower | CDot | COther.
Global Instance cls_eq : EqDecision cls. Proof. solve_decision. Defined.
Definition code (c : ascii) : Z := Z.of_N (N_of_ascii c).
Definition class (c : ascii) : cls :=
  if (48 <=? code c) && (code c <=? 57) then CDigit
  else if (97 <=? code c) && (code c <=? 122) then CLower
  else if code c =? 46 then CDot else COther.
(** component_re.split without the empty parts: every match is as long as possible, but that
    of a dot. *)
Fixpoint split (s : list ascii) : list (cls * list ascii) :=
  match s with
  | [] => []
  | c :: s =>
    match split s with
    | (k, w) :: r =>
      if bool_decide (k = class c) && negb (bool_decide (k = CDot)) then (k, c :: w) :: r
      else (class c, [c]) :: (k, w) :: r
    | [] => [(class c, [c])]
    end
  end.
(** A component: int(x) if it can be computed, x otherwise. *)
Inductive vcomp := VInt (z : Z) | VStr (s : list ascii).
Global Instance vcomp_eq : EqDecision vcomp. Proof. solve_decision. Defined.
Definition digits (w : list ascii) : Z := fold_left (fun a c => 10 * a + (code c - 48)) w 0.
Definition component (x : cls * list ascii) : option vcomp :=
  match x with
  | (CDigit, w) => Some (VInt (digits w))
  | (CDot, _) => None
  | (_, w) => Some (VStr w)
  end.
(** LooseVersion.parse *)
Definition parse (s : list ascii) : list vcomp := omap component (split s).

(** Python's < on str, on components and on lists of them; [None] is a TypeError. *)
Fixpoint str_lt (a b : list ascii) : bool :=
  match a, b with
  | _, [] => false
  | [], _ :: _ => true
  | x :: a, y :: b => if code x =? code y then str_lt a b else code x <? code y
  end.
Definition comp_lt (x y : vcomp) : option bool :=
  match x, y with
  | VInt x, VInt y => Some (x <? y)
  | VStr x, VStr y => Some (str_lt x y)
  | _, _ => None
  end.
Fixpoint list_lt (a b : list vcomp) : option bool :=
  match a, b with
  | _, [] => Some false
  | [], _ :: _ => Some true
  | x :: a, y :: b => if bool_decide (x = y) then list_lt a b else comp_lt x y
  end.
(** LooseVersion._cmp and __lt__: equal lists are compared first. *)
Definition version_lt (a b : list vcomp) : option bool := if bool_decide (a = b) then Some false else list_lt a b.

(** Line 50 of ensure_tf_install.py. *)
Definition required : list ascii := list_ascii_of_string "2.3.0".
(** What [import reverb] does: [tf] is the version of TensorFlow, if it can be imported.
    Lines 26-60 and reverb/__init__.py, lines 19-21.  The imports after that are left out. *)
Inductive import_res := Imported | ImportError | TypeError.
Definition ensure_tf_version (tf : option (list ascii)) : import_res :=
  match tf with
  | None => ImportError
  | Some version =>
    match version_lt (parse version) (parse required) with
    | None => TypeError
    | Some true => ImportError
    | Some false => Imported
    end
  end.
