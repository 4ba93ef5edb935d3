(** Model of the remaining followers of fx/envelope.hpp:170-240: the smoothed fast envelope
    follower and the RMS follower, from the models of their parts (Env_Model, MovSumF_Model,
    Db_Model). *)
From Flocq Require Import Core.Core IEEE754.BinarySingleNaN.
From Verif Require Import Common Float Env_Model MovSum_Model MovSumF_Model Db_Model.

(** basic_smoothed_fast_envelope_follower, envelope.hpp:170-195: _fenv and _ma *)
Record smf := mkSmf { sm_fe : fenv; sm_ma : movsum f32 f64 }.
(** envelope.hpp:178-181 (173-176 computes the same number of samples for both) *)
Definition sm_make (div : nat) (hold : N) : option smf :=
  do ma <- fs_make hold ; Some (mkSmf (fe_make (S div) hold) ma).
(** envelope.hpp:188-191 [operator()() const]: the moving average's current value *)
Definition sm_value (s : smf) : f32 := fs_average (sm_ma s).
(** envelope.hpp:183-186 _ma(_fenv(s)); moving_average.hpp:34-40, 104-113 *)
Definition sm_step (st : smf) (s : f32) : option smf :=
  do fe <- fe_step (sm_fe st) s ;
  do r <- ms_step (T:=f32) (Acc:=f64) (fun a s => Some (fadd a (to64 s))) (fun a s => Some (fsub a (to64 s))) to32 (sm_ma st) (fe_peak fe) ;
  Some (mkSmf fe (snd r)).
Fixpoint sm_run (st : smf) (xs : list f32) : option smf :=
  match xs with [] => Some st | s :: t => do st' <- sm_step st s ; sm_run st' t end.

(** fast_rms_envelope_follower, envelope.hpp:211-240: div is 2; _db starts at 0_dB; the static
    threshold float(-120_dB) is [db2a] of -120 *)
Record rms := mkRms { rm_env : smf; rm_db : f64 }.
Definition rms_make (hold : N) : option rms := do e <- sm_make 2 hold ; Some (mkRms e fzero).
(** envelope.hpp:219-229; [None] also stands for a failed assertion of the decibel constructor *)
Definition rms_step (st : rms) (s : f32) : option rms :=
  do threshold <- db2a (mk32 (-120) 0) ;
  do env <- sm_step (rm_env st) (fmul s s) ;
  let e := if flt (sm_value env) threshold then fzero else sm_value env in
  do d <- decibel_of_amplitude (to64 e) ;
  Some (mkRms env (fdiv d (to64 (mk32 2 0)))).
Fixpoint rms_run (st : rms) (xs : list f32) : option rms :=
  match xs with [] => Some st | s :: t => do st' <- rms_step st s ; rms_run st' t end.
