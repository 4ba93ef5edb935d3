(** Properties C17, C18 (support/phase.hpp) and C33 (fast_rand).  Theorems only. *)
From Verif Require Import Common Phase_Model Phase_Proof Rand_Proof.
Open Scope N_scope.

(** C17: n increments from any phase and step give (phase + n*step) mod 2^32, the step
    unchanged; increment and decrement undo each other. *)
Theorem C17_phase_accumulates :
  forall p d (n : nat), p < 2 ^ 32 -> d < 2 ^ 32 ->
    Nat.iter n pi_inc (mkPI p d) = mkPI ((p + N.of_nat n * d) mod 2 ^ 32) d /\
    pi_dec (pi_inc (mkPI p d)) = mkPI p d /\ pi_inc (pi_dec (mkPI p d)) = mkPI p d.
Proof.
  intros p d n Hp Hd. assert (V : valid_it (mkPI p d)) by (split; assumption).
  destruct (inc_dec _ V) as [I1 I2]. split; [|split; assumption].
  pose proof (phase_n _ n V) as P. pose proof (incr_inc (mkPI p d) n) as Q. cbn [pi_phase pi_incr] in P, Q.
  destruct (Nat.iter n pi_inc (mkPI p d)) as [a b]. cbn [pi_phase pi_incr] in P, Q. subst. reflexivity.
Qed.
Print Assumptions C17_phase_accumulates.

(** C17: last() holds exactly when the next increment completes a cycle, and first()
    holds after an increment exactly when that increment completed one.  A cycle is
    completed by a step when the unwrapped phase crosses a multiple of 2^32. *)
Theorem C17_first_last :
  forall p d (n : nat), p < 2 ^ 32 -> d < 2 ^ 32 ->
    let cycles k := (p + N.of_nat k * d) / 2 ^ 32 in
    (pi_last (Nat.iter n pi_inc (mkPI p d)) = true <-> cycles (S n) = cycles n + 1) /\
    (pi_first (Nat.iter (S n) pi_inc (mkPI p d)) = true <-> cycles (S n) = cycles n + 1) /\
    (cycles (S n) = cycles n \/ cycles (S n) = cycles n + 1).
Proof.
  intros p d n Hp Hd cycles. assert (V : valid_it (mkPI p d)) by (split; assumption).
  pose proof (cycles_S _ n V) as C. cbn [pi_phase pi_incr] in C. change W32 with (2 ^ 32) in C. fold (cycles (S n)) (cycles n) in C.
  pose proof (first_wrapped _ n V) as F. cbn [pi_incr] in F.
  assert (V2 : valid_it (Nat.iter n pi_inc (mkPI p d))).
  { split; [rewrite (phase_n _ n V); apply N.mod_lt; discriminate|rewrite incr_inc; exact Hd]. }
  pose proof (last_wraps _ V2) as L. rewrite incr_inc in L. cbn [pi_incr] in L.
  rewrite F, L. change W32 with (2 ^ 32). rewrite C.
  destruct (2 ^ 32 <=? pi_phase (Nat.iter n pi_inc (mkPI p d)) + d).
  - split; [split; auto|]. split; [split; auto|]. right; reflexivity.
  - split; [split; intros H; [discriminate|exfalso; lia]|].
    split; [split; intros H; [discriminate|exfalso; lia]|]. left; lia.
Qed.
Print Assumptions C17_first_last.

(** C17: over n steps first() is true exactly as often as whole cycles were completed. *)
Theorem C17_first_counts_cycles :
  forall p d (n : nat), p < 2 ^ 32 -> d < 2 ^ 32 ->
    N.of_nat (length (filter (fun k => pi_first (Nat.iter k pi_inc (mkPI p d))) (seq 1 n))) =
    (p + N.of_nat n * d) / 2 ^ 32.
Proof. exact (fun p d n Hp Hd => count_first (mkPI p d) n (conj Hp Hd)). Qed.
Print Assumptions C17_first_counts_cycles.

(** C17: any history.  Under any sequence of increments, decrements, new steps and jumps to
    the beginning, the end or the middle, the phase is the unbounded sum [z] of the signed
    steps since the last jump, reduced modulo one cycle, and the step is the last assigned. *)
Definition turn_ref (st : Z * N) (o : pi_op) : Z * N :=
  let (z, s) := st in
  match o with
  | PInc => ((z + Z.of_N s)%Z, s) | PDec => ((z - Z.of_N s)%Z, s) | PAssign d => (z, d)
  | PBegin => (0%Z, s) | PEnd => ((2 ^ 32 - 1)%Z, s) | PMiddle => ((2 ^ 31 - 1)%Z, s)
  end.
Definition steps32 (ops : list pi_op) : Prop :=
  Forall (fun o => match o with PAssign d => d < 2 ^ 32 | _ => True end) ops.
Theorem C17_history :
  forall p d ops, p < 2 ^ 32 -> d < 2 ^ 32 -> steps32 ops ->
    let (z, s) := fold_left turn_ref ops (Z.of_N p, d) in
    fold_left pi_apply ops (mkPI p d) = mkPI (Z.to_N (z mod 2 ^ 32)) s.
Proof.
  intros p d ops Hp Hd H.
  assert (G : forall z s, s < 2 ^ 32 -> let (z', s') := fold_left turn_ref ops (z, s) in
    fold_left pi_apply ops (mkPI (Z.to_N (z mod 2 ^ 32)) s) = mkPI (Z.to_N (z' mod 2 ^ 32)) s').
  { clear p d Hp Hd. induction H as [|o ops Ho H IH]; intros z s Hs; [reflexivity|].
    assert (B := Z.mod_pos_bound z (2 ^ 32) ltac:(reflexivity)). change (2 ^ 32)%Z with 4294967296%Z in *. change (2 ^ 32) with 4294967296 in *.
    cbn [fold_left turn_ref]. destruct o; cbn [pi_apply]; unfold pi_inc, pi_dec, pi_assign, pi_begin, pi_end, pi_middle; cbn [pi_phase pi_incr].
    - replace (add32 _ _) with (Z.to_N ((z + Z.of_N s) mod 4294967296)); [apply IH; exact Hs|].
      unfold add32, W32. change (2 ^ 32) with 4294967296.
      apply N2Z.inj. rewrite N2Z.inj_mod, N2Z.inj_add, !Z2N.id; [|lia|apply Z.mod_pos_bound; reflexivity].
      rewrite Zplus_mod_idemp_l. reflexivity.
    - replace (sub32 _ _) with (Z.to_N ((z - Z.of_N s) mod 4294967296)); [apply IH; exact Hs|].
      unfold sub32, W32. change (2 ^ 32) with 4294967296.
      apply N2Z.inj. rewrite N2Z.inj_mod, N2Z.inj_add, N2Z.inj_sub, !Z2N.id; [|lia|apply Z.mod_pos_bound; reflexivity|lia].
      rewrite Zplus_mod_idemp_l. change (Z.of_N 4294967296) with 4294967296%Z.
      replace (z + (4294967296 - Z.of_N s))%Z with (z - Z.of_N s + 1 * 4294967296)%Z by lia.
      rewrite Z_mod_plus_full. reflexivity.
    - apply IH. exact Ho.
    - exact (IH 0%Z s Hs).
    - exact (IH 4294967295%Z s Hs).
    - exact (IH 2147483647%Z s Hs). }
  specialize (G (Z.of_N p) d Hd). rewrite Z.mod_small, N2Z.id in G.
  - exact G.
  - change (2 ^ 32)%Z with 4294967296%Z. change (2 ^ 32) with 4294967296 in *. lia.
Qed.
Print Assumptions C17_history.

Example C17_history_example :
  steps32 [PInc; PInc; PAssign 7; PDec; PEnd; PInc; PMiddle; PDec] /\
  fold_left pi_apply [PInc; PInc; PAssign 7; PDec] (mkPI 5 (2 ^ 31 + 1)) = mkPI 0 7 /\
  fold_left pi_apply [PInc; PInc; PAssign 7; PDec; PEnd; PInc] (mkPI 5 (2 ^ 31 + 1)) = mkPI 6 7.
Proof. split; [unfold steps32; repeat (apply Forall_cons; [first [exact I|reflexivity]|]); apply Forall_nil|]. split; vm_compute; reflexivity. Qed.

Example C17_example :
  Nat.iter 5 pi_inc (mkPI 0 (2 ^ 30)) = mkPI (2 ^ 30) (2 ^ 30) /\
  map (fun k => pi_first (Nat.iter k pi_inc (mkPI 0 (2 ^ 30)))) (seq 1 8) =
  [false; false; false; true; false; false; false; true].
Proof. split; vm_compute; reflexivity. Qed.

(** C18: n increments of a one-shot iterator stop at the end of the cycle, n decrements
    stop at its beginning. *)
Theorem C18_one_shot_saturates :
  forall p d (n : nat), p < 2 ^ 32 -> d < 2 ^ 32 ->
    Nat.iter n os_inc (mkPI p d) = mkPI (N.min (p + N.of_nat n * d) (2 ^ 32 - 1)) d /\
    Nat.iter n os_dec (mkPI p d) = mkPI (p - N.of_nat n * d) d.
Proof.
  exact (fun p d n Hp Hd => conj (os_inc_n (mkPI p d) n (conj Hp Hd)) (os_dec_n (mkPI p d) n (conj Hp Hd))).
Qed.
Print Assumptions C18_one_shot_saturates.

(** C18: any history of a one-shot iterator: the same operations, with the sum clamped to
    the cycle at every step instead of wrapping. *)
Definition shot_ref (st : Z * N) (o : pi_op) : Z * N :=
  let (z, s) := st in
  match o with
  | PInc => (Z.min (z + Z.of_N s) (2 ^ 32 - 1), s) | PDec => (Z.max (z - Z.of_N s) 0, s)
  | PAssign d => (z, d)
  | PBegin => (0%Z, s) | PEnd => ((2 ^ 32 - 1)%Z, s) | PMiddle => ((2 ^ 31 - 1)%Z, s)
  end.
Theorem C18_history :
  forall p d ops, p < 2 ^ 32 -> d < 2 ^ 32 -> steps32 ops ->
    let (z, s) := fold_left shot_ref ops (Z.of_N p, d) in
    fold_left os_apply ops (mkPI p d) = mkPI (Z.to_N z) s.
Proof.
  intros p d ops Hp Hd H. revert p d Hp Hd.
  assert (E31 : (2 ^ 31 - 1)%Z = Z.of_N ph_middle) by reflexivity.
  assert (E32 : (2 ^ 32 - 1)%Z = Z.of_N ph_end) by reflexivity.
  induction H as [|o ops Ho H IH]; intros p d Hp Hd; [cbn; rewrite N2Z.id; reflexivity|].
  assert (Q := os_inc_n (mkPI p d) 1 (conj Hp Hd)). assert (R := os_dec_n (mkPI p d) 1 (conj Hp Hd)).
  cbn [Nat.iter nat_rect pi_phase pi_incr] in Q, R. change (N.of_nat 1) with 1 in Q, R. rewrite N.mul_1_l in Q, R.
  cbn [fold_left shot_ref]. destruct o; cbn [os_apply].
  - rewrite Q. replace (Z.min (Z.of_N p + Z.of_N d) (2 ^ 32 - 1)) with (Z.of_N (N.min (p + d) (2 ^ 32 - 1))).
    + apply IH; [|exact Hd]. change (2 ^ 32) with 4294967296 in *. lia.
    + change (2 ^ 32)%Z with 4294967296%Z. change (2 ^ 32) with 4294967296 in *. lia.
  - rewrite R. replace (Z.max (Z.of_N p - Z.of_N d) 0) with (Z.of_N (p - d)) by lia.
    apply IH; [lia|exact Hd].
  - exact (IH p d0 Hp Ho).
  - exact (IH 0 d eq_refl Hd).
  - rewrite E32. exact (IH ph_end d eq_refl Hd).
  - rewrite E31. exact (IH ph_middle d eq_refl Hd).
Qed.
Print Assumptions C18_history.

Example C18_history_example :
  fold_left os_apply [PInc; PInc; PAssign 7; PDec] (mkPI 5 (2 ^ 31 + 1)) = mkPI (2 ^ 32 - 8) 7 /\
  fold_left os_apply [PBegin; PInc; PDec; PDec] (mkPI 5 3) = mkPI 0 3.
Proof. split; vm_compute; reflexivity. Qed.

Example C18_example :
  Nat.iter 5 os_inc (mkPI 7 (2 ^ 30)) = mkPI (2 ^ 32 - 1) (2 ^ 30) /\
  Nat.iter 2 os_dec (mkPI (2 ^ 31 + 3) (2 ^ 30)) = mkPI 3 (2 ^ 30) /\
  Nat.iter 3 os_dec (mkPI (2 ^ 31 + 3) (2 ^ 30)) = mkPI 0 (2 ^ 30).
Proof. repeat split; vm_compute; reflexivity. Qed.

(** C33: every value is in [0, 32767]. *)
Theorem C33_rand_range : forall n : nat, fast_rand n < 32768.
Proof. exact (fun n => rand_out_range _). Qed.
Print Assumptions C33_rand_range.

(** C33: from any seed, two points of the seed sequence coincide exactly when they are a
    multiple of 2^32 calls apart, and every 32-bit seed is reached. *)
Theorem C33_rand_full_period :
  forall s m n, s < 2 ^ 32 ->
    (Nat.iter m rand_step s = Nat.iter n rand_step s <-> ((Z.of_nat m - Z.of_nat n) mod 2 ^ 32 = 0)%Z).
Proof. exact rand_period. Qed.
Print Assumptions C33_rand_full_period.

Theorem C33_rand_reaches_every_seed :
  forall s t, s < 2 ^ 32 -> t < 2 ^ 32 ->
    exists n : nat, N.of_nat n < 2 ^ 32 /\ Nat.iter n rand_step s = t.
Proof. exact rand_reach. Qed.
Print Assumptions C33_rand_reaches_every_seed.

Example C33_example :
  map fast_rand [0; 1; 2]%nat = [16611; 15149; 28021] /\ rand_seed0 < 2 ^ 32.
Proof. split; vm_compute; reflexivity. Qed.
