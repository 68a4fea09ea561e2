(** The Python TrajectoryWriter as a context manager: __enter__, __exit__, __del__ and
    close (reverb/trajectory_writer.py:136-144, 440-441) around the calls of the C++
    writer of TrajWriter.v. *)
From Verif Require Import Base Trajectory Tensor TrajUtil ChunkerOptions Sample Stream Reactor Chunker TrajWriter.

(** An exception: ReverbError or one of its subclasses (errors.py: there is
    DeadlineExceededError, raised by flush and end_episode) or any other, also
    KeyboardInterrupt. *)
Inductive pexc := XReverb | XOther.
(** How the with statement ends: normally, with the exception of its body, or with the
    exception that flush raises for a status. *)
Inductive wres := WNormal | WBody (x : pexc) | WFailed (st : status).
(** [PExit x]: __exit__ has called flush, after the body ended normally ([None]) or with
    [x]. *)
Inductive phase := PBody | PExit (x : option pexc) | PLeft (r : wres).
Record pyw := mkPyw { y_tw : tw; y_phase : phase; y_gone : bool }.

Inductive yev :=
| YBody (e : tev)                          (* the body, and whatever goes on meanwhile *)
| YLeave (x : option pexc) (nk : nat -> Z) (* the body ends *)
| YBack (e : tev)                          (* the stream worker and the server *)
| YReturn (nk : nat -> Z) (newep : Z)      (* the flush of __exit__ returns *)
| YDel.                                    (* __del__ *)

(** What is done by the user's thread. *)
Definition user_event (e : tev) : bool :=
  match e with
  | EAppend _ _ _ | EColumn _ | ECreate _ _ _ _ | EFlush _ _ | EEpisode _ _ | EDone _ _ _ | EConfigure _ _ | EClose => true
  | _ => false
  end.

(** Lines 139-141: is flush called? *)
Definition exit_flushes (x : option pexc) : bool :=
  match x with Some XReverb => false | _ => true end.
(** How the statement ends if __exit__ raises nothing: it returns None, so that an exception
    of the body goes on. *)
Definition body_result (x : option pexc) : wres :=
  match x with None => WNormal | Some x => WBody x end.
Definition after_flush (x : option pexc) (st : status) : wres :=
  if bool_decide (st = Ok) then body_result x else WFailed st.

Definition with_tw (y : pyw) (w : tw) : pyw := mkPyw w (y_phase y) (y_gone y).
(** The result is the new state with the actions of the writer.  [None]: not possible, or the
    process dies. *)
Definition ystep (y : pyw) (e : yev) : option (pyw * list (tev * option status)) :=
  match e with
  | YBody e =>
    match y_phase y, y_gone y with
    | PBody, false => match tw_step (y_tw y) e with TNext w r => Some (with_tw y w, [(e, r)]) | _ => None end
    | _, _ => None
    end
  | YLeave x nk =>
    match y_phase y, y_gone y, w_user (y_tw y) with
    | PBody, false, UIdle =>
      if exit_flushes x then
        match tw_step (y_tw y) (EFlush 0 nk) with
        | TNext w None => Some (mkPyw w (PExit x) false, [(EFlush 0 nk, None)])
        | TNext w (Some st) => Some (mkPyw w (PLeft (after_flush x st)) false, [(EFlush 0 nk, Some st)])
        | _ => None
        end
      else Some (mkPyw (y_tw y) (PLeft (body_result x)) false, [])
    | _, _, _ => None
    end
  | YBack e =>
    if user_event e then None
    else match tw_step (y_tw y) e with TNext w r => Some (with_tw y w, [(e, r)]) | _ => None end
  | YReturn nk newep =>
    match y_phase y with
    | PExit x =>
      match tw_step (y_tw y) (EDone false nk newep) with
      | TNext w (Some st) => Some (mkPyw w (PLeft (after_flush x st)) false, [(EDone false nk newep, Some st)])
      | _ => None
      end
    | _ => None
    end
  | YDel =>
    (* lines 143-144; the destructor of the C++ object then finds closed_ set and
       does not flush (trajectory_writer.cc:172-175) *)
    match y_phase y, y_gone y, w_user (y_tw y) with
    | PExit _, _, _ => None
    | _, false, UIdle =>
      match tw_step (y_tw y) EClose with
      | TNext w r => Some (mkPyw w (y_phase y) true, [(EClose, r)])
      | _ => None
      end
    | _, _, _ => None
    end
  end.

(** The restrictions on what is drawn at random and on tensors are those of the writer. *)
Definition yenabled (y : pyw) (e : yev) : Prop :=
  match e with
  | YBody e | YBack e => tw_enabled (y_tw y) e
  | YLeave _ nk => tw_enabled (y_tw y) (EFlush 0 nk)
  | YReturn nk newep => tw_enabled (y_tw y) (EDone false nk newep)
  | YDel => True
  end.

Definition pyw_new (o : copts) (sigs : option (gmap Z (option (list tspec)))) (ep : Z) : pyw :=
  mkPyw (tw_new o sigs ep) PBody false.

Inductive ytrace (y0 : pyw) : list (tev * option status) -> pyw -> Prop :=
| yt_nil : ytrace y0 [] y0
| yt_snoc tr y e y' l : ytrace y0 tr y -> yenabled y e -> ystep y e = Some (y', l) -> ytrace y0 (tr ++ l) y'.
