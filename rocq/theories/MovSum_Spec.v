(** The window a moving sum is supposed to sum over: the last [n] samples, newest
    first. *)
From Verif Require Import Common MovSum_Model.

Definition win_step {T} (z : T) (n : nat) (w : list T) (o : ms_op T) : list T :=
  match o with
  | MSample s => firstn n (s :: w)
  | MClear => repeat z n
  | MFill v => repeat v n
  end.
Definition window {T} (z : T) (n : nat) (ops : list (ms_op T)) : list T :=
  fold_left (win_step z n) ops (repeat z n).
Definition zsum (l : list Z) : Z := fold_right Z.add 0%Z l.
(** every sample / fill value satisfies P *)
Definition op_all {T} (P : T -> Prop) (o : ms_op T) : Prop :=
  match o with MSample s => P s | MClear => True | MFill v => P v end.
