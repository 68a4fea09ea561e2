(** Model of reverb/cc/rate_limiter.cc. *)
From Verif Require Import Base.

(** rate_limiter.h:252-307: the members.  The statistics managers are modelled
    separately in EventHistory.v.  [cancelled] is [cancelled_]. *)
Record limiter := mkLimiter {
  spi : Q; min_diff : Q; max_diff : Q; min_size : Z;
  l_inserts : Z; l_samples : Z; l_deletes : Z; l_cancelled : bool }.

(** rate_limiter.cc:50-63.  CHECK_GT(min_size_to_sample, 0) is the side
    condition [limiter_cfg_ok]. *)
Definition new_limiter (spi_ : Q) (min_size_ : Z) (min_diff_ max_diff_ : Q) : limiter :=
  mkLimiter spi_ min_diff_ max_diff_ min_size_ 0 0 0 false.

Definition limiter_cfg_ok (l : limiter) : Prop := 0 < min_size l.

(** rate_limiter.cc:150-157. *)
Definition can_sample (l : limiter) (n : Z) : bool :=
  if l_inserts l - l_deletes l <? min_size l then false
  else Qle_bool (min_diff l)
         (inject_Z (l_inserts l) * spi l - inject_Z (l_samples l) - inject_Z n)%Q.

(** rate_limiter.cc:171-180. *)
Definition can_insert (l : limiter) (n : Z) : bool :=
  if l_inserts l + n - l_deletes l <=? min_size l then true
  else Qle_bool
         (inject_Z (n + l_inserts l) * spi l - inject_Z (l_samples l))%Q (max_diff l).

(** rate_limiter.cc:112-115, without the signals. *)
Definition lim_insert (l : limiter) : limiter :=
  mkLimiter (spi l) (min_diff l) (max_diff l) (min_size l)
    (l_inserts l + 1) (l_samples l) (l_deletes l) (l_cancelled l).
(** rate_limiter.cc:117-120. *)
Definition lim_delete (l : limiter) : limiter :=
  mkLimiter (spi l) (min_diff l) (max_diff l) (min_size l)
    (l_inserts l) (l_samples l) (l_deletes l + 1) (l_cancelled l).
(** The [samples_++] of rate_limiter.cc:129-148 and 159-169. *)
Definition lim_sample (l : limiter) : limiter :=
  mkLimiter (spi l) (min_diff l) (max_diff l) (min_size l)
    (l_inserts l) (l_samples l + 1) (l_deletes l) (l_cancelled l).
(** rate_limiter.cc:122-127. *)
Definition lim_reset (l : limiter) : limiter :=
  mkLimiter (spi l) (min_diff l) (max_diff l) (min_size l) 0 0 0 (l_cancelled l).
(** rate_limiter.cc:186-190. *)
Definition lim_cancel (l : limiter) : limiter :=
  mkLimiter (spi l) (min_diff l) (max_diff l) (min_size l)
    (l_inserts l) (l_samples l) (l_deletes l) true.

(** What a blocking limiter call does when executed atomically. *)
Inductive await := AwProceed | AwCancelled | AwBlocked.

(** rate_limiter.cc:96-110: [while (!cancelled_ && !CanInsert(1)) wait]. *)
Definition await_can_insert (l : limiter) : await :=
  if l_cancelled l then AwCancelled
  else if can_insert l 1 then AwProceed else AwBlocked.

(** rate_limiter.cc:129-148. *)
Definition await_sample (l : limiter) : await :=
  if l_cancelled l then AwCancelled
  else if can_sample l 1 then AwProceed else AwBlocked.

(** rate_limiter.cc:159-169: does not look at [cancelled_]. *)
Definition maybe_commit_sample (l : limiter) : option limiter :=
  if can_sample l 1 then Some (lim_sample l) else None.
