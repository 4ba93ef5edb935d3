(** What a noise gate's outputs are compared with. *)
From Coq Require Import Reals.
From Flocq Require Import Core.Core IEEE754.BinarySingleNaN.
From Verif Require Import Common Float Dyn_Model Cond_Model Gate_Model.

(** the samples of a history, each with the thresholds (onset, release) in force when it arrives;
    a level set in decibels counts as its amplitude, float(decibel) *)
Fixpoint in_force (on off : f32) (cs : list ng_call) : list (f32 * f32 * f32) :=
  match cs with
  | [] => []
  | GEnv e :: cs => (e, on, off) :: in_force on off cs
  | GOnset t :: cs => in_force t off cs
  | GRelease t :: cs => in_force on t cs
  | GOnsetDb t :: cs => in_force (match float_of_db t with Some x => x | None => on end) off cs
  | GReleaseDb t :: cs => in_force on (match float_of_db t with Some x => x | None => off end) cs
  end.
Definition samples (l : list (f32 * f32 * f32)) : list f32 := map (fun x => fst (fst x)) l.

(** whether the gate was open before sample t, given its outputs *)
Definition open_before (os : list bool) (t : nat) : bool :=
  match t with O => false | S r => nth r os false end.
(** the samples up to and including number t that arrived while the gate was closed *)
Definition heard (os : list bool) (es : list f32) (t : nat) : list f32 :=
  map (fun r => nth r es fzero) (filter (fun r => negb (open_before os r)) (seq 0 (S t))).
(** the element d places before the last one of a list, 0 if there are not that many *)
Definition back (l : list f32) (d : nat) : f32 := nth d (rev l) fzero.
(** the rise over the last W samples heard: the last of them minus the one W places earlier *)
Definition rise (l : list f32) (W : N) : R := (B2R (back l 0) - B2R (back l (N.to_nat W)))%R.

Definition env_all (P : f32 -> Prop) (Q : f32 -> Prop) (c : ng_call) : Prop :=
  match c with GEnv e => P e | GOnset t | GRelease t => Q t | GOnsetDb _ | GReleaseDb _ => True end.
