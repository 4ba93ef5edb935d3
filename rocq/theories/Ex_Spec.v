(** Specification for C54: what the example programs are meant to do. *)
From Flocq Require Import Core.Core IEEE754.BinarySingleNaN.
From Verif Require Import Common Float Adsr_Model Ex_Model.

(** The feedback echo with a delay of [c] samples: y is the output for the input s. *)
Definition echo {T} (zero : T) (add mul : T -> T -> T) (c : nat) (fb : T) (s y : nat -> T) : Prop :=
  forall t, y t = add (s t) (if t <? c then zero else mul (y (t - c)) fb).
(** the samples of a list, zero beyond its end *)
Definition signal (l : list f32) (t : nat) : f32 := nth t l fzero.

(** Raw MIDI words: low byte status (high nibble: 9 = note on, 8 = note off), then key, then velocity. *)
Definition on_of (raw : N) : option (N * N) :=
  if (raw mod 256 / 16 =? 9)%N then Some (raw / 256 mod 256, raw / 65536 mod 256)%N else None.
Definition off_of (raw : N) : option N :=
  if (raw mod 256 / 16 =? 8)%N then Some (raw / 256 mod 256)%N else None.

(** velocity as a level *)
Definition level_of (vel : N) : f32 := fdiv (mk32 (Z.of_N vel) 0) (mk32 128 0).
(** What the events mean for the envelope: a note on triggers it, the note off of the key played last
    releases it, every frame samples it. *)
Fixpoint env_calls (key : N) (evs : list sy_event) : list call :=
  match evs with
  | [] => []
  | Frame :: t => CSample :: env_calls key t
  | Midi raw :: t =>
      match on_of raw with
      | Some (k, v) => CTrigger (level_of v) 1 :: env_calls k t
      | None => match off_of raw with
                | Some k => if (k =? key)%N then CRelease :: env_calls key t else env_calls key t
                | None => env_calls key t
                end
      end
  end.
(** the key played last *)
Fixpoint last_key (key : option N) (evs : list sy_event) : option N :=
  match evs with
  | [] => key
  | Frame :: t => last_key key t
  | Midi raw :: t => last_key (match on_of raw with Some (k, _) => Some k | None => key end) t
  end.
Definition is_frame (ev : sy_event) : bool := match ev with Frame => true | Midi _ => false end.
(** raw words are 32 bits; velocities (third byte of a note on) are MIDI data bytes *)
Definition proper_event (ev : sy_event) : Prop :=
  match ev with
  | Frame => True
  | Midi raw => (raw < 2 ^ 32)%N /\ forall k v, on_of raw = Some (k, v) -> (v < 128)%N
  end.
(** no note on with a positive velocity *)
Definition no_onset (ev : sy_event) : Prop := match ev with Midi raw => forall k v, on_of raw = Some (k, v) -> v = 0%N | Frame => True end.
