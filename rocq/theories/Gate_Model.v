(** Model of basic_noise_gate<attack_window> in binary32, fx/noise_gate.hpp:35-186: constructors,
    setters and both forms of operator().  Parts: differentiator (fx/special.hpp:108-122),
    moving_sum (MovSumF_Model), decibel conversion (Db_Model). *)
From Flocq Require Import Core.Core IEEE754.BinarySingleNaN.
From Verif Require Import Common Float MovSum_Model MovSumF_Model Dyn_Model Db_Model Cond_Model.

(** noise_gate.hpp:35-47, 74-77.  [ng_base]: the members of noise_gate_base<W> -- the last input of
    _diff, and _sum --, none for the specialisation noise_gate_base<0>. *)
Record ngate := mkNG { ng_state : bool; ng_on : f32; ng_off : f32; ng_base : option (f32 * movsum f32 f64) }.
(** noise_gate.hpp:38-39, special.hpp:110-111: _sum{attack_window}, x(0.0f) *)
Definition ng_base_make (W : N) : option (option (f32 * movsum f32 f64)) :=
  if (W =? 0)%N then Some None else do m <- fs_make W ; Some (Some (fzero, m)).
(** noise_gate.hpp:85-93 *)
Definition ng_make (W : N) (onset release : db) : option ngate :=
  do base <- ng_base_make W ;
  do off <- float_of_db release ;
  do on <- float_of_db onset ;
  Some (mkNG false on off base).
(** noise_gate.hpp:95-99; release_threshold + 12_dB is a double addition, decibel.hpp:46-49 *)
Definition ng_make1 (W : N) (release : db) : option ngate := ng_make W (fadd release (mk64 12 0)) release.

(** moving_average.hpp:34-40 for moving_sum = basic_moving_sum<float> *)
Definition sum_step (m : movsum f32 f64) (s : f32) : option (f32 * movsum f32 f64) :=
  ms_step (T:=f32) (Acc:=f64) (fun a s => Some (fadd a (to64 s))) (fun a s => Some (fsub a (to64 s))) to32 m s.

(** noise_gate.hpp:101-122; the argument s is not used; [&&] does not call _diff and _sum while the
    gate is open.  The returned bool is the new state. *)
Definition ng_step (g : ngate) (env : f32) : option ngate :=
  match ng_base g with
  | Some (x, m) =>
      if ng_state g then
        Some (mkNG (if flt env (ng_off g) then false else true) (ng_on g) (ng_off g) (ng_base g))
      else
        do r <- sum_step m (fsub env x) ;
        Some (mkNG (flt (ng_on g) (fst r)) (ng_on g) (ng_off g) (Some (env, snd r)))
  | None =>
      Some (mkNG (if negb (ng_state g) && flt (ng_on g) env then true
                  else if ng_state g && flt env (ng_off g) then false else ng_state g)
                 (ng_on g) (ng_off g) None)
  end.
(** noise_gate.hpp:130-152 *)
Definition ng_set_onset (g : ngate) (t : f32) : ngate := mkNG (ng_state g) t (ng_off g) (ng_base g).
Definition ng_set_release (g : ngate) (t : f32) : ngate := mkNG (ng_state g) (ng_on g) t (ng_base g).
Definition ng_set_onset_db (g : ngate) (t : db) : option ngate := do x <- float_of_db t ; Some (ng_set_onset g x).
Definition ng_set_release_db (g : ngate) (t : db) : option ngate := do x <- float_of_db t ; Some (ng_set_release g x).

(** a history of calls; the outputs are those of operator()(s, env) *)
Inductive ng_call := GEnv (e : f32) | GOnset (t : f32) | GRelease (t : f32) | GOnsetDb (t : db) | GReleaseDb (t : db).
Fixpoint ng_run (g : ngate) (cs : list ng_call) : option (list bool) :=
  match cs with
  | [] => Some []
  | GEnv e :: cs => do g <- ng_step g e ; do os <- ng_run g cs ; Some (ng_state g :: os)
  | GOnset t :: cs => ng_run (ng_set_onset g t) cs
  | GRelease t :: cs => ng_run (ng_set_release g t) cs
  | GOnsetDb t :: cs => do g <- ng_set_onset_db g t ; ng_run g cs
  | GReleaseDb t :: cs => do g <- ng_set_release_db g t ; ng_run g cs
  end.
