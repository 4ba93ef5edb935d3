(** Property C07.  Theorems only. *)
From Coq Require Import Reals Lra.
From Flocq Require Import Core.Core IEEE754.BinarySingleNaN.
From Verif Require Import Common Float Ring_Model Ring_Spec Zc_Model Zc_Spec Zc_Proof Zc_Frac.
Local Open Scope Z_scope.

(** C07.  For every window up to 2^28 samples, every hysteresis value and EVERY sequence
    of float samples (NaN and infinities included): construction and every call succeed
    (no assertion fires, no access is out of range); the number of edges never exceeds the
    capacity, and is between 2 and capacity-1 whenever is_ready(); every edge reported by
    operator[] is a pulse of the signal at the reported position ([o]: absolute position
    of frame 0; the last one may still be in progress); pulses are reported in order,
    do not overlap and nothing rises above zero between two neighbours; period() and
    fractional_period() are defined on any two of them. *)
Theorem C07_zero_crossing :
  forall (hyst : f32) (n : N) (xs : list f32), (n <= 2 ^ 28)%N ->
  exists z0 z o, zc_make hyst n = Some z0 /\ zc_run z0 xs = Some z /\
    let h := conditioned hyst xs in let len := Z.of_nat (length xs) in
    (n <= z_win z)%N /\ least_pow2_ge (z_win z / 2) (zc_capacity z) /\
    (z_num z <= zc_capacity z)%N /\
    (z_ready z = true -> z_state z = false /\ (2 <= z_num z < zc_capacity z)%N) /\
    forall i, (i < z_num z)%N -> exists e, zc_at z i = Some e /\
      (if (z_state z && (i =? z_num z - 1)%N)%bool then pulse_upto h hyst o (len - o) e
       else pulse h hyst o e /\ o + zi_trail e < len) /\
      forall j, (i < j < z_num z)%N -> exists f, zc_at z j = Some f /\
        zi_trail e < zi_lead f /\ (j = i + 1 -> quiet h o (zi_trail e) (zi_lead f))%N /\
        zi_period e f = Some (Z.to_N (zi_lead f - zi_lead e)) /\ zi_frac_period e f <> None.
Proof. exact zc_final. Qed.
Print Assumptions C07_zero_crossing.

(** a square wave of period 20: ready with 7 edges after 131 samples *)
Definition square20 (n : nat) : list f32 :=
  map (fun k => if (Nat.modulo k 20 <? 10)%nat then mk32 1 0 else mk32 (-1) 0) (seq 0 n).
Definition hyst_ex : f32 := mk32 (-1) (-6).
Definition zc_ex (xs : list f32) : option zc := do z <- zc_make hyst_ex 100 ; zc_run z xs.
Lemma zc_ex_inv xs z : zc_ex xs = Some z -> exists z0, zc_make hyst_ex 100 = Some z0 /\ zc_run z0 xs = Some z.
Proof. unfold zc_ex. destruct (zc_make hyst_ex 100) as [z0|]; [|discriminate]. intros E. exists z0. auto. Qed.
Example C07_example :
  match zc_ex (square20 131) with
  | Some z => (z_ready z && (z_num z =? 7)%N && (zc_capacity z =? 64)%N && (z_frame z =? 67)%N)%bool &&
              match zc_at z 0, zc_at z 3 with
              | Some e, Some f => (zi_lead e =? 0) && (zi_trail e =? 10) && (zi_lead f =? 60) &&
                   match zi_period e f with Some p => (p =? 60)%N | None => false end
              | _, _ => false end
  | None => false end = true.
Proof. vm_compute. reflexivity. Qed.

(** Two claims of the documentation that fail. *)
(** (1) zero_crossing.hpp:46-49: an edge is kept "as long as the trailing edge is still
    within the window" (position >= 0).  The latest edge is never dropped, so is_ready()
    can hold with an edge lying wholly before the window. *)
Definition early : list f32 :=
  repeat (mk32 (-1) 0) 5 ++ repeat (mk32 1 0) 5 ++ repeat (mk32 (-1) 0) 5 ++ repeat (mk32 1 0) 5 ++
  repeat (mk32 (-1) 0) 130 ++ repeat (mk32 1 0) 5 ++ repeat (mk32 (-1) 0) 37.
Theorem C07_stale_edge_refuted :
  ~ (forall hyst n xs z0 z i e, (n <= 2 ^ 28)%N -> zc_make hyst n = Some z0 -> zc_run z0 xs = Some z ->
     z_ready z = true -> (i < z_num z)%N -> zc_at z i = Some e -> 0 <= zi_trail e).
Proof.
  intros Q.
  assert (T : match zc_ex early with
    | Some z => z_ready z && (0 <? z_num z)%N && match zc_at z 0 with Some e => zi_trail e =? -44 | None => false end
    | None => false end = true) by (vm_compute; reflexivity).
  destruct (zc_ex early) as [z|] eqn:E; [|discriminate]. destruct (zc_ex_inv _ _ E) as (z0 & E0 & E1).
  apply andb_true_iff in T. destruct T as [T T3]. apply andb_true_iff in T. destruct T as [T1 T2]. apply N.ltb_lt in T2.
  destruct (zc_at z 0) as [e|] eqn:Ea; [|discriminate]. apply Z.eqb_eq in T3.
  specialize (Q hyst_ex 100%N early z0 z 0%N e ltac:(vm_compute; discriminate) E0 E1 T1 T2 Ea). lia.
Qed.
Print Assumptions C07_stale_edge_refuted.

(** (2) zero_crossing.hpp:146-165 interpolates between the sample before and the sample
    after a crossing.  After a restart in the middle of a positive stretch the recorded
    pair does not straddle zero, and fractional_period() can be infinite. *)
Definition restart : list f32 :=
  repeat (mk32 1 0) 300 ++ repeat (mk32 (-1) 0) 20 ++ repeat (mk32 1 0) 20 ++ repeat (mk32 (-1) 0) 45.
Theorem C07_fractional_period_finite_refuted :
  ~ (forall hyst n xs z0 z e f p, (n <= 2 ^ 28)%N -> (forall x, In x xs -> is_finite x = true) ->
     zc_make hyst n = Some z0 -> zc_run z0 xs = Some z ->
     z_ready z = true -> zc_at z 0 = Some e -> zc_at z 1 = Some f -> zi_frac_period e f = Some p -> is_finite p = true).
Proof.
  intros Q.
  assert (T : match zc_ex restart with
    | Some z => z_ready z && match zc_at z 0, zc_at z 1 with
        | Some e, Some f => match zi_frac_period e f with Some p => negb (is_finite p) | None => false end | _, _ => false end
    | None => false end = true) by (vm_compute; reflexivity).
  destruct (zc_ex restart) as [z|] eqn:E; [|discriminate]. destruct (zc_ex_inv _ _ E) as (z0 & E0 & E1).
  apply andb_true_iff in T. destruct T as [T1 T2].
  destruct (zc_at z 0) as [e|] eqn:Ea; [|discriminate]. destruct (zc_at z 1) as [f|] eqn:Eb; [|discriminate].
  destruct (zi_frac_period e f) as [p|] eqn:Ep; [|discriminate].
  rewrite (Q hyst_ex 100%N restart z0 z e f p) in T2; auto; [discriminate|vm_compute; discriminate|].
  assert (F : forallb is_finite restart = true) by (vm_compute; reflexivity).
  intros x Hx. rewrite forallb_forall in F. exact (F x Hx).
Qed.
Print Assumptions C07_fractional_period_finite_refuted.

(** fractional_period() of two edges whose samples straddle zero: the distance in time of the two
    points where the line through the samples crosses zero, to float accuracy. *)
Theorem C07_fractional_period_value : forall (e f : zinfo) (p : f32),
  proper_crossing e -> proper_crossing f -> 0 <= zi_lead f - zi_lead e < 2 ^ 24 ->
  zi_frac_period e f = Some p ->
  is_finite p = true /\
  (Rabs (B2R p - (crossing f - crossing e)) <= (IZR (zi_lead f - zi_lead e) + 10) * / 2 ^ 24)%R.
Proof.
  intros e f p He Hf Hd S. destruct (frac_period_val e f p He Hf Hd S) as [F E]. split; [exact F|].
  replace (2 ^ 24)%R with 16777216%R by ring. exact E.
Qed.
Print Assumptions C07_fractional_period_value.
(** two crossings at 9.25 and 29.5: from -1 to 3 ending at 10, from -2 to 2 ending at 30 *)
Definition edge_a := mkInfo (mk32 (-1) 0) (mk32 3 0) (mk32 3 0) 10 15 fzero.
Definition edge_b := mkInfo (mk32 (-2) 0) (mk32 2 0) (mk32 3 0) 30 35 fzero.
Example C07_fractional_period_witness :
  proper_crossing edge_a /\ proper_crossing edge_b /\ (crossing edge_b - crossing edge_a = 20.25)%R /\
  exists p, zi_frac_period edge_a edge_b = Some p /\ feq p (mk32 81 (-2)) = true.
Proof.
  assert (V : forall m, (Z.abs m < 2 ^ 24) -> B2R (mk32 m 0) = IZR m /\ is_finite (mk32 m 0) = true).
  { intros m Hm. destruct (FloatFacts.mk32_small m 0 Hm) as [V F]; [lia|]. change (bpow radix2 0) with 1%R in V. rewrite Rmult_1_r in V. auto. }
  assert (T : (4 <= bpow radix2 126)%R) by (change 4%R with (bpow radix2 2); apply bpow_le; lia).
  destruct (V (-1) ltac:(lia)) as [V1 F1]. destruct (V (-2) ltac:(lia)) as [V2 F2].
  destruct (V 3 ltac:(lia)) as [V3 F3]. destruct (V 2 ltac:(lia)) as [V4 F4].
  unfold proper_crossing, crossing, edge_a, edge_b. cbn [zi_prev zi_curr zi_lead].
  rewrite V1, V2, V3, V4, F1, F2, F3, F4.
  split; [|split; [|split]].
  - repeat split; lra.
  - repeat split; lra.
  - lra.
  - eexists. split; [reflexivity|]. vm_compute. reflexivity.
Qed.
