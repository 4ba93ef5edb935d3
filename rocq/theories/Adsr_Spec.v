(** Specification vocabulary for the ADSR envelope (C20). *)
From Coq Require Import Reals List.
From Flocq Require Import Core.Core IEEE754.BinarySingleNaN.
From Verif Require Import Common Float Env_Spec Adsr_Model.
Local Open Scope R_scope.

(** the documented phases, in the order they are passed through; the two release states
    are one phase *)
Definition phase (s : state_enum) : nat :=
  match s with
  | attack_state => 0 | decay_state => 1 | legato_state => 1 | sustain_state => 2
  | release_state => 3 | note_release_state => 3 | note_off_state => 4
  end%nat.

(** a level in [0,M] *)
Definition level_in (M : R) (l : f32) : Prop := is_finite l = true /\ 0 <= B2R l <= M.
(** a duration of at least two samples (and below 2^900 seconds) *)
Definition proper_rate (sps : Z) (d : f64) : Prop :=
  (0 < sps < 2 ^ 32)%Z /\ is_finite d = true /\ B2R d <= bpow radix2 900 /\ 2 <= IZR sps * B2R d.

(** calls with arguments in range: levels in [0,M], sustain level in [0,1], proper durations,
    a non-negative release coefficient *)
Definition call_ok (M : R) (c : call) : Prop :=
  match c with
  | CTrigger l _ => level_in M l
  | CNoteOffLevel l => level_in M l
  | CSustainLevel l => level_in 1 l
  | CAttackRate d sps | CDecayRate d sps | CSustainRate d sps | CReleaseRate d sps => proper_rate sps d
  | CReleaseRateF r => is_finite r = true /\ 0 <= B2R r
  | CSample | CLegato | CDecay | CRelease => True
  end.
(** a trigger that asks for no decay (auto_decay = -1) *)
Definition no_decay_trigger (c : call) : Prop :=
  match c with CTrigger _ a => a = (-1)%Z | _ => False end.
Definition is_trigger (c : call) : Prop := match c with CTrigger _ _ => True | _ => False end.

(** [n] calls of operator() in a row *)
Fixpoint samples (e : adsr) (n : nat) : option adsr :=
  match n with O => Some e | S m => do r <- sample e ; samples (fst r) m end.

(** the value set by the last call recognised by [f], [d] if there was none *)
Definition last_of {A} (f : call -> option A) (d : A) (cs : list call) : A :=
  fold_left (fun cur c => match f c with Some a => a | None => cur end) cs d.
Definition attack_arg (c : call) := match c with CAttackRate d sps => Some (sps, d) | _ => None end.
Definition decay_arg (c : call) := match c with CDecayRate d sps => Some (sps, d) | _ => None end.
Definition sustain_rate_arg (c : call) := match c with CSustainRate d sps => Some (sps, d) | _ => None end.
Definition sustain_arg (c : call) := match c with CSustainLevel l => Some l | _ => None end.
(** a release coefficient is accepted only if it is below 1 *)
Definition release_arg (c : call) : option (Z * f64 + f32) :=
  match c with
  | CReleaseRate d sps => Some (inl (sps, d))
  | CReleaseRateF r => if flt r (mk32 1 0) then Some (inr r) else None
  | _ => None
  end.
(** [c] is the decay factor per sample exp(-2/n), n the duration in samples, up to the
    third-order approximation and float rounding *)
Definition rate_for (c : f32) (p : Z * f64) : Prop :=
  let n := IZR (fst p) * B2R (snd p) in
  Rabs (B2R c - exp (- (2 / n))) <= (2 / n) ^ 4 / 24 + bpow radix2 (-20).
