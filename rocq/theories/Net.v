(** Choosing a port: reverb/cc/platform/default/net.cc. *)
From Verif Require Import Base.

(** What the operating system answers to the [t]-th attempt to bind.  [os_bind t tcp p]:
    whether port [p] can be bound, by a TCP or a UDP socket; [os_any t tcp]: the port that it
    gives to a socket that is bound to port 0.  The failures of socket, setsockopt, bind and
    getsockname are one.  [os_pid], [os_rand]: getpid and the calls of rand. *)
Record os := mkOs { os_bind : nat -> bool -> Z -> bool; os_any : nat -> bool -> option Z; os_pid : Z; os_rand : nat -> Z }.
(** The numbers of the operating system and of rand are what they should be.  A port that was
    given could be bound. *)
Record os_ok (s : os) : Prop := {
  ok_any : forall t tcp p, os_any s t tcp = Some p -> 1 <= p <= 65535 /\ os_bind s t tcp p = true;
  ok_pid : 0 <= os_pid s;
  ok_rand : forall i, 0 <= os_rand s i }.

(** IsPortAvailable, lines 33-91: [None]: a check fails; otherwise the result and the new value
    of *port. *)
Definition is_port_available (s : os) (t : nat) (port : Z) (is_tcp : bool) : option (bool * Z) :=
  if (port <? 0) || (65535 <? port) then None
  else if port =? 0 then
    match os_any s t is_tcp with
    | None => Some (false, port)
    | Some actual => if actual <=? 0 then None else Some (true, actual)
    end
  else Some (os_bind s t is_tcp port, port).

(** Lines 107-116. *)
Definition candidate (s : os) (trial : nat) : Z :=
  if (trial =? 1)%nat then os_pid s mod (65536 - 30000) + 30000
  else if (trial <=? 100)%nat then os_rand s trial mod (65536 - 30000) + 30000
  else 0.

(** The loop, lines 104-134.  [rest]: the number of trials that are left of the kMaximumTrials;
    [t] counts the attempts to bind.  The result is the port with the number of its trial and
    of the attempt that found it free first. *)
Fixpoint pick_loop (s : os) (chosen : gset Z) (rest trial t : nat) (is_tcp : bool) : option (Z * nat * nat) :=
  match rest with
  | O => None
  | S rest =>
    let port := candidate s trial in
    if bool_decide (port ∈ chosen) then pick_loop s chosen rest (S trial) t is_tcp
    else
      match is_port_available s t port is_tcp with
      | None => None
      | Some (false, _) => pick_loop s chosen rest (S trial) (S t) is_tcp
      | Some (true, port) =>
        if port <=? 0 then None
        else
          match is_port_available s (S t) port (negb is_tcp) with
          | None => None
          | Some (false, _) => pick_loop s chosen rest (S trial) (S (S t)) (negb is_tcp)
          | Some (true, port) => Some (port, trial, t)
          end
      end
  end.
(** PickUnusedPortOrDie, lines 98-137: the port and the new value of chosen_ports. *)
Definition pick_unused_port (s : os) (chosen : gset Z) : option (Z * nat * nat * gset Z) :=
  match pick_loop s chosen 1000 1 0 true with
  | Some (port, trial, t) => Some (port, trial, t, {[port]} ∪ chosen)
  | None => None
  end.

(** The calls of a process, one after the other, each with what the operating system does
    meanwhile.  (Line 99: chosen_ports is not protected against concurrent calls.) *)
Inductive picks : list (os * Z * nat) -> gset Z -> Prop :=
| pk_nil : picks [] ∅
| pk_snoc l chosen s port trial t chosen' : picks l chosen -> os_ok s ->
    pick_unused_port s chosen = Some (port, trial, t, chosen') -> picks (l ++ [(s, port, trial)]) chosen'.
