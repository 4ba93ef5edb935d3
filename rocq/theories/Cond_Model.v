(** Model of fx/signal_conditioner.hpp: signal_conditioner and bl_signal_conditioner, on top of
    the models of the processors they are made of (Env_Model, Dyn_Model, Detect_Model, Db_Model,
    Filt_Model). *)
From Flocq Require Import Core.Core IEEE754.BinarySingleNaN.
From Verif Require Import Common Float Env_Model Dyn_Model Detect_Model Db_Model Filt_Model Val_Model.
Local Open Scope Z_scope.

(** decibel.hpp:26 [float(decibel)]: the level is narrowed to float by the call *)
Definition float_of_db (d : db) : option f32 := db2a (to32 d).

(** signal_conditioner.hpp:28-43; comp_release is not used by the code *)
Record cond_config := mkCfg {
  cc_env_release : f64; cc_comp_threshold : db; cc_comp_slope : f32; cc_comp_gain : f32;
  cc_gate_onset : db; cc_gate_release_threshold : db; cc_gate_release : f64 }.
(** signal_conditioner.hpp:28-43, the default values *)
Definition default_config : cond_config :=
  mkCfg (lit_ms 50) (mk64 (-27) 0) (mk32 1 (-2)) (mk32 10 0) (mk64 (-33) 0) (mk64 (-45) 0) (lit_ms 10).

(** signal_conditioner.hpp:62-68: _env (value, coefficient), _comp, _makeup_gain, _gate (state,
    thresholds), _gate_env (value, coefficients) *)
Record cond := mkCond {
  cn_env : f32; cn_env_r : f32; cn_comp : compressor; cn_makeup : f32;
  cn_gate : bool; cn_onset : f32; cn_release : f32;
  cn_genv : f32; cn_genv_a : f32; cn_genv_r : f32 }.
(** signal_conditioner.hpp:107-119; envelopes start at 0, the gate closed; 500_us is [lit_us 500] *)
Definition cond_make (c : cond_config) (sps : Z) : option cond :=
  do on <- float_of_db (cc_gate_onset c) ;
  do off <- float_of_db (cc_gate_release_threshold c) ;
  Some (mkCond fzero (env_coeff sps (cc_env_release c)) (comp_make (cc_comp_threshold c) (cc_comp_slope c))
    (cc_comp_gain c) false on off fzero (env_coeff sps (lit_us 500)) (env_coeff sps (cc_gate_release c))).

(** signal_conditioner.hpp:121-137; a bool argument converts to 1.0f or 0.0f; [None]: assertion
    failure in decibel(env) *)
Definition cond_step (k : cond) (s : f32) : option (cond * f32) :=
  let env := pf_step (cn_env_r k) (cn_env k) (Babs s) in
  let gate := fst (gate_step flt (cn_onset k) (cn_release k) (cn_gate k) env) in
  let ge := ef_step (cn_genv_a k) (cn_genv_r k) (cn_genv k) (if gate then mk32 1 0 else fzero) in
  let s1 := fmul s ge in
  do env_db <- decibel_of_amplitude (to64 env) ;
  do a <- float_of_db (comp_gain (cn_comp k) env_db) ;
  let gain := fmul a (cn_makeup k) in
  Some (mkCond env (cn_env_r k) (cn_comp k) (cn_makeup k) gate (cn_onset k) (cn_release k) ge (cn_genv_a k) (cn_genv_r k),
        fmul s1 gain).
(** signal_conditioner.hpp:139-152 *)
Definition cond_gate := cn_gate.
Definition cond_gate_env := cn_genv.
Definition cond_signal_env := cn_env.

(** signal_conditioner.hpp:154-172, noise_gate.hpp: the threshold setters *)
Definition cond_set_onset (k : cond) (t : f32) : cond :=
  mkCond (cn_env k) (cn_env_r k) (cn_comp k) (cn_makeup k) (cn_gate k) t (cn_release k) (cn_genv k) (cn_genv_a k) (cn_genv_r k).
Definition cond_set_release (k : cond) (t : f32) : cond :=
  mkCond (cn_env k) (cn_env_r k) (cn_comp k) (cn_makeup k) (cn_gate k) (cn_onset k) t (cn_genv k) (cn_genv_a k) (cn_genv_r k).
Definition cond_set_onset_db (k : cond) (t : db) : option cond := do x <- float_of_db t ; Some (cond_set_onset k x).
Definition cond_set_release_db (k : cond) (t : db) : option cond := do x <- float_of_db t ; Some (cond_set_release k x).

(** a history of calls, with what the caller sees after each: the output (the input of the
    signal_conditioner itself is kept beside it) and the three observers *)
Inductive cond_call := Process (s : f32) | Onset (t : f32) | Release (t : f32) | OnsetDb (t : db) | ReleaseDb (t : db).
Record cond_obs := mkObs { ob_out : f32; ob_gate : bool; ob_gate_env : f32; ob_signal_env : f32 }.
Definition cond_observe (k : cond) (o : f32) : cond_obs := mkObs o (cond_gate k) (cond_gate_env k) (cond_signal_env k).
Definition cond_call1 (k : cond) (c : cond_call) : option (cond * list cond_obs) :=
  match c with
  | Process s => do r <- cond_step k s ; Some (fst r, [cond_observe (fst r) (snd r)])
  | Onset t => Some (cond_set_onset k t, [])
  | Release t => Some (cond_set_release k t, [])
  | OnsetDb t => do k' <- cond_set_onset_db k t ; Some (k', [])
  | ReleaseDb t => do k' <- cond_set_release_db k t ; Some (k', [])
  end.
Fixpoint cond_run (k : cond) (cs : list cond_call) : option (list cond_obs) :=
  match cs with
  | [] => Some []
  | c :: cs => do r <- cond_call1 k c ; do l <- cond_run (fst r) cs ; Some (snd r ++ l)
  end.

(** bl_signal_conditioner, signal_conditioner.hpp:74-103: two one_pole_lowpass filters in front;
    x1, x2: the floats -2 pi f / sps for twice the highest and half the lowest frequency
    (lowpass.hpp:107-109, see [lowpass_arg] in Filt_Spec) *)
Record blcond := mkBl { bl_lp1 : f32; bl_a1 : f32; bl_lp2 : f32; bl_a2 : f32; bl_cond : cond }.
Definition bl_make (c : cond_config) (x1 x2 : f32) (sps : Z) : option blcond :=
  do k <- cond_make c sps ; Some (mkBl fzero (lowpass_coeff x1) fzero (lowpass_coeff x2) k).
(** signal_conditioner.hpp:91-98; s -= _lp2(s) *)
Definition bl_step (b : blcond) (s : f32) : option (blcond * f32) :=
  let s1 := lowpass_step (bl_a1 b) (bl_lp1 b) s in
  let y2 := lowpass_step (bl_a2 b) (bl_lp2 b) s1 in
  let s2 := fsub s1 y2 in
  do r <- cond_step (bl_cond b) s2 ;
  Some (mkBl s1 (bl_a1 b) y2 (bl_a2 b) (fst r), snd r).
Fixpoint bl_run (b : blcond) (xs : list f32) : option (list cond_obs) :=
  match xs with
  | [] => Some []
  | s :: xs => do r <- bl_step b s ; do l <- bl_run (fst r) xs ; Some (cond_observe (bl_cond (fst r)) (snd r) :: l)
  end.
