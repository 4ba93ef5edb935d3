(** Specifications for two-threshold latches, pulses and medians. *)
From Verif Require Import Common.

(** "The latch is on at time t": it was switched on at some s <= t and not switched
    off since (or it started on and was never switched off). *)
Definition latch_on {E} (up down : E -> bool) (init : bool) (evs : list E) (t : nat) : Prop :=
  (exists s e, nth_error evs s = Some e /\ s <= t /\ up e = true /\
     forall r e', s < r <= t -> nth_error evs r = Some e' -> down e' = false) \/
  (init = true /\ forall r e', r <= t -> nth_error evs r = Some e' -> down e' = false).

(** Output of a monostable of length n: false while idle; a true input starts n
    outputs of true followed by one of false, during which inputs are ignored. *)
Inductive pulses (n : nat) : list bool -> list bool -> Prop :=
| pulses_nil : pulses n [] []
| pulses_idle xs ys : pulses n xs ys -> pulses n (false :: xs) (false :: ys)
| pulses_full ign xs ys : length ign = n -> pulses n xs ys ->
    pulses n (true :: ign ++ xs) (repeat true n ++ false :: ys)
| pulses_cut ign : length ign < n -> pulses n (true :: ign) (repeat true (S (length ign))).

(** m is a median of a, b, c for the order [lt]: one of them, with at least two
    not above it and at least two not below it. *)
Definition is_median {F} (lt : F -> F -> bool) (m a b c : F) : Prop :=
  (m = a \/ m = b \/ m = c) /\
  2 <= length (filter (fun x => negb (lt m x)) [a; b; c]) /\
  2 <= length (filter (fun x => negb (lt x m)) [a; b; c]).

(** value d steps before position t of xs, [z] before the beginning *)
Definition past {F} (z : F) (xs : list F) (t d : nat) : F :=
  if d <=? t then nth (t - d) xs z else z.
