(** Property C09.  Theorems only. *)
From Verif Require Import Common MovMax_Model MovMax_Proof.

(** C09: for every window size 1..2^62, every sample type whose [<] is the strict
    part of a total preorder (floats without NaN) and every input sequence, each
    output is an upper bound of the last [size] inputs and is one of them (or the
    initial floor value -3.40e38; never the floor when all inputs exceed it). *)
Theorem C09_moving_maximum :
  forall (A : Type) (lt : A -> A -> bool) (floor : A),
  (forall x y, lt y x = false \/ lt x y = false) ->
  (forall x y z, lt y x = false -> lt z y = false -> lt z x = false) ->
  forall (size : N) (xs : list A), (1 <= size <= 2 ^ 62)%N ->
  exists m ys, mm_make floor size = Some m /\ mm_run lt m xs = Some ys /\ length ys = length xs /\
    forall t v, nth_error ys t = Some v ->
      let win := firstn (N.to_nat size) (rev (firstn (S t) xs)) in
      In v (floor :: win) /\ (forall y, In y win -> lt v y = false) /\
      ((forall y, In y xs -> lt floor y = true) -> In v win).
Proof. exact @moving_maximum_spec. Qed.
Print Assumptions C09_moving_maximum.

(** The order hypotheses are met by, e.g., the integers, and the window slides. *)
Example C09_example :
  (forall x y, Z.ltb y x = false \/ Z.ltb x y = false) /\
  (forall x y z, Z.ltb y x = false -> Z.ltb z y = false -> Z.ltb z x = false) /\
  exists m, mm_make (-1000)%Z 3 = Some m /\
    mm_run Z.ltb m [5; 1; 2; 0; -7; -9; 4]%Z = Some [5; 5; 5; 2; 2; 0; 4]%Z.
Proof. split; [intros; lia|]. split; [intros; lia|]. eexists.
  split; [vm_compute; reflexivity|]. vm_compute. reflexivity. Qed.
