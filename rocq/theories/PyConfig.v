(** Model of the Python constructors of limiters and tables,
    reverb/rate_limiters.py and reverb/server.py. *)
From Verif Require Import Base RateLimiter Selector Trajectory Table.

(** The arguments given to pybind.RateLimiter. *)
Record lparams := mkLP { lp_spi : Q; lp_min_size : Z; lp_min_diff : Q; lp_max_diff : Q }.

(** sys.float_info.max. *)
Definition float_max : Q := inject_Z ((2 ^ 53 - 1) * 2 ^ 971).

(** rate_limiters.py:43-54.  [None]: ValueError. *)
Definition py_min_size (min_size : Z) : option lparams :=
  if min_size <? 1 then None else Some (mkLP 1 min_size (- float_max) float_max).

(** The argument error_buffer: a number or a pair. *)
Inductive error_buffer := EBNum (b : Q) | EBRange (lo hi : Q).

(** rate_limiters.py:87-145.  [None]: ValueError.  The warning of 121-126 has no
    effect.  Simplification: the arithmetic of Python floats is exact. *)
Definition py_ratio (spi : Q) (min_size : Z) (eb : error_buffer) : option lparams :=
  let offset := (spi * inject_Z min_size)%Q in
  let '(lo, hi) := match eb with
                   | EBNum b => ((offset - b)%Q, (offset + b)%Q)
                   | EBRange lo hi => (lo, hi)
                   end in
  if negb (Qle_bool (2 * (if Qle_bool spi 1 then 1 else spi))%Q (hi - lo)%Q) then None
  else if negb (Qle_bool lo offset) then None
  else if min_size <? 1 then None
  else Some (mkLP spi min_size lo hi).

(** rate_limiters.py:148-166 and 169-187. *)
Definition py_queue (n : Z) : lparams := mkLP 1 1 0 (inject_Z n).
Definition py_stack (n : Z) : lparams := mkLP 1 1 0 (inject_Z n).

(** server.py:100-163.  [None]: ValueError. *)
Definition py_table (sampler remover : sel_kind) (max_size : Z) (l : lparams) (max_times : Z)
  : option tcfg :=
  if max_size <=? 0 then None
  else Some (mkCfg max_size max_times sampler remover (lp_spi l) (lp_min_size l) (lp_min_diff l) (lp_max_diff l)).

(** server.py:165-189 and 191-215. *)
Definition py_table_queue (n : Z) : option tcfg := py_table KFifo KFifo n (py_queue n) 1.
Definition py_table_stack (n : Z) : option tcfg := py_table KLifo KLifo n (py_stack n) 1.
