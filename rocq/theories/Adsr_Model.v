(** Model of synth/envelope.hpp, class [envelope] (the ADSR generator), in binary32.
    Members without an initialiser that the constructor does not set (_level,
    _legato_level, _start_sustain_level) are [None] until assigned; reading one of them
    is undefined behaviour and makes the call [None].  Not modelled: the conversion of the
    configured sustain level from decibel to float (the constructor takes the float). *)
From Flocq Require Import Core.Core IEEE754.BinarySingleNaN.
From Verif Require Import Common Float Env_Model.

(** envelope.hpp:27-36 *)
Inductive state_enum := note_off_state | attack_state | legato_state | decay_state |
  sustain_state | release_state | note_release_state.

(** envelope.hpp:25: static constexpr float hysteresis = 0.0001 *)
Definition hysteresis : f32 := to32 (fdiv (mk64 1 0) (mk64 10000 0)).
(** envelope.hpp:218: the literal 1.6f *)
Definition attack_target : f32 := fdiv (mk32 8 0) (mk32 5 0).

(** envelope.hpp:79-91: data members *)
Record adsr := mkAdsr {
  a_state : state_enum; a_y : f32; a_attack : f32; a_level : option f32; a_decay : f32;
  a_legato : option f32; a_sustain : f32; a_start : option f32; a_srate : f32; a_release : f32;
  a_off : f32; a_endoff : f32; a_auto : Z }.

(** envelope.hpp:97-103 *)
Definition adsr_make (sps : Z) (ad dd : f64) (sl : f32) (sd rd : f64) : adsr :=
  mkAdsr note_off_state fzero (env_coeff sps ad) None (env_coeff sps dd) None sl None
         (env_coeff sps sd) (env_coeff sps rd) fzero fzero 1.

(** field updates *)
Definition set_y (e : adsr) (y : f32) (s : state_enum) : adsr :=
  mkAdsr s y (a_attack e) (a_level e) (a_decay e) (a_legato e) (a_sustain e) (a_start e)
         (a_srate e) (a_release e) (a_off e) (a_endoff e) (a_auto e).

(** envelope.hpp:206-214 *)
Definition update_legato (e : adsr) : option adsr :=
  do l <- a_legato e ;
  let y := fadd l (fmul (a_attack e) (fsub (a_y e) l)) in
  Some (if flt y (fadd l hysteresis) then set_y e l sustain_state else set_y e y (a_state e)).
(** envelope.hpp:216-228 *)
Definition update_attack (e : adsr) : option adsr :=
  let y := fadd attack_target (fmul (a_attack e) (fsub (a_y e) attack_target)) in
  do l <- a_level e ;
  Some (if fgt y l
        then set_y e l (if (a_auto e =? 1)%Z then decay_state
                        else if (a_auto e =? -1)%Z then sustain_state else a_state e)
        else set_y e y (a_state e)).
(** envelope.hpp:230-240 *)
Definition update_decay (e : adsr) : option adsr :=
  do lv <- a_level e ;
  let l := fmul lv (a_sustain e) in
  let y := fadd l (fmul (a_decay e) (fsub (a_y e) l)) in
  Some (if flt y (fadd l hysteresis)
        then mkAdsr sustain_state l (a_attack e) (a_level e) (a_decay e) (a_legato e) (a_sustain e)
                    (Some l) (a_srate e) (a_release e) (a_off e) (a_endoff e) (a_auto e)
        else set_y e y (a_state e)).
(** envelope.hpp:242-245 *)
Definition update_sustain (e : adsr) : adsr := set_y e (fmul (a_y e) (a_srate e)) (a_state e).
(** envelope.hpp:253-264 *)
Definition update_release (e : adsr) : adsr :=
  let n := a_off e in
  let y := fadd n (fmul (a_release e) (fsub (a_y e) n)) in
  if flt y (fadd n hysteresis)
  then set_y e n (if flt n (a_endoff e) then note_release_state
                  else if flt n hysteresis then note_off_state else a_state e)
  else set_y e y (a_state e).

(** envelope.hpp:149-179, operator(): new object and returned value *)
Definition sample (e : adsr) : option (adsr * f32) :=
  match a_state e with
  | note_off_state => Some (e, fzero)
  | legato_state => do e' <- update_legato e ; Some (e', a_y e')
  | attack_state => do e' <- update_attack e ; Some (e', a_y e')
  | decay_state => do e' <- update_decay e ; Some (e', a_y e')
  | sustain_state => let e' := update_sustain e in Some (e', a_y e')
  | note_release_state | release_state => let e' := update_release e in Some (e', a_y e')
  end.

(** envelope.hpp:181-189 *)
Definition trigger (e : adsr) (l : f32) (auto : Z) : adsr :=
  if flt (a_y e) l
  then mkAdsr attack_state (a_y e) (a_attack e) (Some l) (a_decay e) (a_legato e) (a_sustain e)
              (a_start e) (a_srate e) (a_release e) (a_off e) (a_endoff e) auto
  else e.
(** envelope.hpp:191-199; && does not read _start_sustain_level outside sustain *)
Definition legato (e : adsr) : option adsr :=
  match a_state e with
  | sustain_state =>
      do s <- a_start e ;
      Some (if flt (a_y e) s
            then mkAdsr legato_state (a_y e) (a_attack e) (a_level e) (a_decay e) (Some s) (a_sustain e)
                        (Some s) (a_srate e) (a_release e) (a_off e) (a_endoff e) (-1)
            else e)
  | _ => Some e
  end.
(** envelope.hpp:201-204 *)
Definition decay (e : adsr) : adsr :=
  mkAdsr (a_state e) (a_y e) (a_attack e) (a_level e) (a_decay e) (a_legato e) (a_sustain e)
         (a_start e) (a_srate e) (a_release e) (a_off e) (a_endoff e) 1.
(** envelope.hpp:247-251 *)
Definition release (e : adsr) : adsr :=
  match a_state e with note_off_state => e | _ => set_y e (a_y e) release_state end.
(** envelope.hpp:140-147; level * 0.1 is a double product narrowed to float *)
Definition note_off_level (e : adsr) (l : f32) : adsr :=
  if flt l (a_y e)
  then mkAdsr (a_state e) (a_y e) (a_attack e) (a_level e) (a_decay e) (a_legato e) (a_sustain e)
              (a_start e) (a_srate e) (a_release e) l
              (to32 (fmul (to64 l) (fdiv (mk64 1 0) (mk64 10 0)))) (a_auto e)
  else e.
(** envelope.hpp:109-132: the rate and level setters *)
Definition set_rates (e : adsr) (ar dr sl sr rr : f32) : adsr :=
  mkAdsr (a_state e) (a_y e) ar (a_level e) dr (a_legato e) sl
         (a_start e) sr rr (a_off e) (a_endoff e) (a_auto e).
Definition set_attack_rate (e : adsr) (d : f64) (sps : Z) : adsr :=
  set_rates e (env_coeff sps d) (a_decay e) (a_sustain e) (a_srate e) (a_release e).
Definition set_decay_rate (e : adsr) (d : f64) (sps : Z) : adsr :=
  set_rates e (a_attack e) (env_coeff sps d) (a_sustain e) (a_srate e) (a_release e).
Definition set_sustain_level (e : adsr) (l : f32) : adsr :=
  set_rates e (a_attack e) (a_decay e) l (a_srate e) (a_release e).
Definition set_sustain_rate (e : adsr) (d : f64) (sps : Z) : adsr :=
  set_rates e (a_attack e) (a_decay e) (a_sustain e) (env_coeff sps d) (a_release e).
Definition set_release_rate (e : adsr) (d : f64) (sps : Z) : adsr :=
  set_rates e (a_attack e) (a_decay e) (a_sustain e) (a_srate e) (env_coeff sps d).
(** envelope.hpp:134-138 *)
Definition set_release_rate_f (e : adsr) (r : f32) : adsr :=
  if flt r (mk32 1 0) then set_rates e (a_attack e) (a_decay e) (a_sustain e) (a_srate e) r else e.

(** the public calls, for histories *)
Inductive call :=
  | CSample | CTrigger (l : f32) (auto : Z) | CLegato | CDecay | CRelease | CNoteOffLevel (l : f32)
  | CAttackRate (d : f64) (sps : Z) | CDecayRate (d : f64) (sps : Z) | CSustainLevel (l : f32)
  | CSustainRate (d : f64) (sps : Z) | CReleaseRate (d : f64) (sps : Z) | CReleaseRateF (r : f32).
Definition do_call (e : adsr) (c : call) : option adsr :=
  match c with
  | CSample => do r <- sample e ; Some (fst r)
  | CTrigger l a => Some (trigger e l a)
  | CLegato => legato e
  | CDecay => Some (decay e)
  | CRelease => Some (release e)
  | CNoteOffLevel l => Some (note_off_level e l)
  | CAttackRate d sps => Some (set_attack_rate e d sps)
  | CDecayRate d sps => Some (set_decay_rate e d sps)
  | CSustainLevel l => Some (set_sustain_level e l)
  | CSustainRate d sps => Some (set_sustain_rate e d sps)
  | CReleaseRate d sps => Some (set_release_rate e d sps)
  | CReleaseRateF r => Some (set_release_rate_f e r)
  end.
Fixpoint do_calls (e : adsr) (cs : list call) : option adsr :=
  match cs with [] => Some e | c :: t => do e' <- do_call e c ; do_calls e' t end.
