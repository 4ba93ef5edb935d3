(** Specification for C53: the rules of PortAudio and PortMidi, over sequences of calls. *)
From Verif Require Import Common Stream_Model.

(** The library: initialised? and its open streams, each with the parameters it was opened with and
    whether it is running (its callback may be called at any moment). *)
Record lib := Lib { l_on : bool; l_stream : handle -> option (open_args * bool) }.
Definition lib_start : lib := Lib false (fun _ => None).
Definition upd {A} (f : handle -> A) (h : handle) (x : A) : handle -> A :=
  fun k => if Nat.eqb k h then x else f k.
(** [None]: the call is not allowed. Initialise once, before everything else; a stream may only be
    used from its opening to its closing; nothing after Pa_Terminate. *)
Definition lib_step (l : lib) (c : pa_call) : option lib :=
  match c with
  | PaInitialize => if l_on l then None else Some (Lib true (l_stream l))
  | PaOpen a None => if l_on l then Some l else None
  | PaOpen a (Some h) =>
      match l_on l, l_stream l h with
      | true, None => Some (Lib true (upd (l_stream l) h (Some (a, false))))
      | _, _ => None
      end
  | PaStart h => match l_on l, l_stream l h with
                 | true, Some (a, _) => Some (Lib true (upd (l_stream l) h (Some (a, true))))
                 | _, _ => None
                 end
  | PaStop h => match l_on l, l_stream l h with
                | true, Some (a, _) => Some (Lib true (upd (l_stream l) h (Some (a, false))))
                | _, _ => None
                end
  | PaClose h => match l_on l, l_stream l h with
                 | true, Some _ => Some (Lib true (upd (l_stream l) h None))
                 | _, _ => None
                 end
  | PaInfo h | PaTime h | PaLoad h =>
      match l_on l, l_stream l h with true, Some _ => Some l | _, _ => None end
  | PaTerminate => if l_on l then Some lib_start else None
  end.
Fixpoint lib_run (l : lib) (cs : list pa_call) : option lib :=
  match cs with [] => Some l | c :: t => do l' <- lib_step l c; lib_run l' t end.

(** object [i] exists (its destruction has not ended) and is this stream *)
Definition exists_as (w : world) (i : nat) (s : astream) : Prop :=
  nth_error (w_objs w) i = Some (Alive s) \/ nth_error (w_objs w) i = Some (UserPartGone s).

(** The program stops a stream it started before it destroys the object. *)
Definition stops_first (acts : list act) : Prop :=
  forall i before after, acts = before ++ UserDtor i :: after ->
    (exists l1 l2, before = l1 ++ Call i Stop :: l2 /\ ~ In (Call i Start) l2) \/
    ~ In (Call i Start) before.

(** PortMidi: the same, without a notion of running; closing no stream is refused with an error code
    (pmBadPtr). [None]: not allowed. *)
Record mlib := MLib { ml_on : bool; ml_open : handle -> bool }.
Definition mlib_start : mlib := MLib false (fun _ => false).
Definition mlib_step (l : mlib) (c : pm_call) : option mlib :=
  match c with
  | PmInitialize => if ml_on l then None else Some (MLib true (ml_open l))
  | PmOpenInput _ None => if ml_on l then Some l else None
  | PmOpenInput _ (Some h) => if ml_on l && negb (ml_open l h) then Some (MLib true (upd (ml_open l) h true)) else None
  | PmRead h => if ml_on l && ml_open l h then Some l else None
  | PmClose (Some h) => if ml_on l && ml_open l h then Some (MLib true (upd (ml_open l) h false)) else None
  | PmClose None => None
  end.
Fixpoint mlib_run (l : mlib) (cs : list pm_call) : option mlib :=
  match cs with [] => Some l | c :: t => do l' <- mlib_step l c; mlib_run l' t end.
Definition closes_nothing (c : pm_call) : bool := match c with PmClose None => true | _ => false end.
(** the default device last set (0 at first) *)
Fixpoint last_default (id : Z) (l : list mact) : Z :=
  match l with [] => id | MSetDefault i :: t => last_default i t | _ :: t => last_default id t end.
