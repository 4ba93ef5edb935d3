(** C34: the decibel conversions a2db / db2a. In the model [None] is an assertion failure,
    an undefined float-to-integer conversion or a table index out of bounds, so [Some y]
    says that the call completes with every table read inside its table. *)
From Coq Require Import Reals Lra.
From Flocq Require Import Core.Core IEEE754.BinarySingleNaN.
From Verif Require Import Common Float FloatFacts Frac_Model Db_Table Db_Model Db_Proof Db_Full.
Local Open Scope R_scope.

(** Every amplitude that is not a NaN and whose sign bit is clear (+0, subnormals, +infinity
    included) has a finite level within +-121 dB. *)
Theorem C34_a2db_total : forall a : f32, is_nan a = false -> Bsign a = false ->
  exists y, a2db a = Some y /\ is_finite y = true /\ -121 <= B2R y <= 121.
Proof. intros a H1 H2. apply a2db_total. split; assumption. Qed.
Print Assumptions C34_a2db_total.

(** a larger amplitude never has a smaller level, over the joins of the three tables and
    the reciprocal branch *)
Theorem C34_a2db_monotone : forall a b : f32,
  is_nan a = false -> Bsign a = false -> is_nan b = false -> Bsign b = false -> fle a b = true ->
  exists y z, a2db a = Some y /\ a2db b = Some z /\ fle y z = true.
Proof. intros a b H1 H2 H3 H4 L. apply a2db_monotone; [split..|]; assumption. Qed.
Print Assumptions C34_a2db_monotone.

(** unity gain is 0 dB, silence the floor, infinity the ceiling *)
Theorem C34_a2db_fixed_points :
  a2db (mk32 1 0) = Some (mk32 0 0) /\
  a2db (B754_zero false) = Some (mk32 (-121) 0) /\
  a2db (B754_infinity false) = Some (mk32 121 0).
Proof.
  assert (T : forall a y, match a2db a with Some x => Beqb x y && negb (Bsign x) | None => false end = true ->
     Beqb y (mk32 0 0) = true -> Bsign y = false -> a2db a = Some y).
  { intros a y H Hy S. destruct (a2db a) as [x|]; [|discriminate]. f_equal.
    apply andb_prop in H. destruct H as [H1 H2]. 
    destruct y as [[]|[]| |[] m e p]; try discriminate Hy; try discriminate S.
    destruct x as [[]|[]| |[] m e p]; try discriminate H1; try discriminate H2. reflexivity. }
  split; [|split].
  - apply T; vm_compute; reflexivity.
  - unfold a2db. rewrite (a2db_unfold 2 (B754_zero false)); [|split; reflexivity|vm_compute; reflexivity].
    rewrite recip_zero, (a2db_inf 1). cbn [option_map]. f_equal. apply B2SF_inj. vm_compute. reflexivity.
  - apply (a2db_inf 2).
Qed.
Print Assumptions C34_a2db_fixed_points.

(** the assertion rejects exactly the others: NaN and everything with the sign bit set *)
Theorem C34_a2db_domain : forall a : f32,
  a2db a = None <-> (is_nan a = true \/ Bsign a = true).
Proof.
  intros a. split.
  - intros H. destruct (is_nan a) eqn:N; [auto|]. destruct (Bsign a) eqn:S; [auto|].
    destruct (C34_a2db_total a N S) as (y & E & _). congruence.
  - intros H. apply a2db_rejects. intros [N S]. destruct H; congruence.
Qed.
Print Assumptions C34_a2db_domain.

(** Found: the domain test is [a >= 0], which -0.0f passes, but the call then fails its own
    assertion one level down (1/-0.0f is -infinity). *)
Theorem C34_a2db_minus_zero_refuted :
  exists a : f32, fge a (mk32 0 0) = true /\ B2R a = 0 /\ a2db a = None.
Proof.
  exists (B754_zero true). split; [vm_compute; reflexivity|]. split; [reflexivity|].
  apply C34_a2db_domain. right. reflexivity.
Qed.
Print Assumptions C34_a2db_minus_zero_refuted.

(** db2a completes on every float there is, NaN and the infinities included, with a finite
    amplitude between 9e-7 and 10^6 *)
Theorem C34_db2a_total : forall x : f32,
  exists y, db2a x = Some y /\ is_finite y = true /\ 9 / 10000000 <= B2R y <= 1000000.
Proof. exact db2a_total. Qed.
Print Assumptions C34_db2a_total.

Theorem C34_db2a_monotone : forall x y : f32, fle x y = true ->
  exists a b, db2a x = Some a /\ db2a y = Some b /\ fle a b = true.
Proof. exact db2a_monotone. Qed.
Print Assumptions C34_db2a_monotone.

(** Found: a NaN level is not propagated, it converts to the largest amplitude (+120 dB). *)
Theorem C34_db2a_nan : db2a B754_nan = Some (mk32 1000000 0).
Proof.
  unfold db2a. cbn [db2a_rec].
  replace (flt (B754_nan : f32) fzero) with false by (vm_compute; reflexivity).
  replace (flt (B754_nan : f32) (mk32 120 0)) with false by (vm_compute; reflexivity). reflexivity.
Qed.
Print Assumptions C34_db2a_nan.

(** the amplitude-to-level-to-amplitude round trip of the decibel type is total for every
    double amplitude that is a non-negative number after narrowing to float *)
Theorem C34_decibel_roundtrip_total : forall a : f64, is_nan (to32 a) = false -> Bsign (to32 a) = false ->
  exists d b, decibel_of_amplitude a = Some d /\ amplitude_of_decibel d = Some b.
Proof.
  intros a N S. destruct (C34_a2db_total _ N S) as (y & E & _).
  destruct (C34_db2a_total (to32 (to64 y))) as (z & Ez & _).
  exists (to64 y), (to64 z). unfold decibel_of_amplitude, amplitude_of_decibel. rewrite E. cbn [option_map]. rewrite Ez. auto.
Qed.
Print Assumptions C34_decibel_roundtrip_total.

Example C34_witness : is_nan (mk32 12345 (-3)) = false /\ Bsign (mk32 12345 (-3)) = false /\
  fle (mk32 1 (-149)) (mk32 12345 (-3)) = true.
Proof. repeat split; vm_compute; reflexivity. Qed.
