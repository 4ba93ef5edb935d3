(** Bounding a polynomial with rational coefficients on an interval, by computation. *)
From Coq Require Import ZArith QArith Qreals Qabs Reals Lra Lia List Bool.
From Flocq Require Import Core.Core.
Import ListNotations.
Local Open Scope R_scope.

Fixpoint ev (p : list Q) (x : R) : R := match p with [] => 0 | a :: l => Q2R a + x * ev l x end.
Definition qadd (a b : Q) : Q := Qred (a + b)%Q.
Definition qmul (a b : Q) : Q := Qred (a * b)%Q.
Lemma qadd_R a b : Q2R (qadd a b) = Q2R a + Q2R b.
Proof. unfold qadd. rewrite <- Q2R_plus. apply Qeq_eqR, Qred_correct. Qed.
Lemma qmul_R a b : Q2R (qmul a b) = Q2R a * Q2R b.
Proof. unfold qmul. rewrite <- Q2R_mult. apply Qeq_eqR, Qred_correct. Qed.
Lemma Q2R0 : Q2R 0 = 0. Proof. unfold Q2R. cbn. lra. Qed.
Fixpoint padd (p q : list Q) : list Q :=
  match p, q with [], _ => q | _, [] => p | a :: p', b :: q' => qadd a b :: padd p' q' end.
Lemma padd_ev p : forall q x, ev (padd p q) x = ev p x + ev q x.
Proof. induction p as [|a p IH]; intros [|b q] x; cbn [padd ev]; try ring. rewrite qadd_R, IH. ring. Qed.
Definition pscale (c : Q) (p : list Q) : list Q := map (qmul c) p.
Lemma pscale_ev c p x : ev (pscale c p) x = Q2R c * ev p x.
Proof. induction p as [|a p IH]; cbn [pscale map ev]; [ring|]. fold (pscale c p). rewrite qmul_R, IH. ring. Qed.
Definition pX (p : list Q) : list Q := 0%Q :: p.
Lemma pX_ev p x : ev (pX p) x = x * ev p x.
Proof. cbn [pX ev]. rewrite Q2R0. ring. Qed.
Fixpoint pmul (p q : list Q) : list Q := match p with [] => [] | a :: l => padd (pscale a q) (pX (pmul l q)) end.
Lemma pmul_ev p q x : ev (pmul p q) x = ev p x * ev q x.
Proof. induction p as [|a p IH]; cbn [pmul ev]; [ring|]. rewrite padd_ev, pscale_ev, pX_ev, IH. ring. Qed.
(** p(c + s) as a polynomial in s *)
Fixpoint shift (c : Q) (p : list Q) : list Q := match p with [] => [] | a :: l => padd [a] (pmul [c; 1%Q] (shift c l)) end.
Lemma shift_ev c p s : ev (shift c p) s = ev p (Q2R c + s).
Proof.
  induction p as [|a p IH]; [reflexivity|]. cbn [shift]. rewrite padd_ev, pmul_ev, IH. cbn [ev]. replace (Q2R 1) with 1 by (unfold Q2R; cbn; lra). ring.
Qed.
Fixpoint evabs (p : list Q) (r : Q) : Q := match p with [] => 0%Q | a :: l => qadd (Qabs a) (qmul r (evabs l r)) end.
Lemma Qabs_R a : Q2R (Qabs a) = Rabs (Q2R a).
Proof.
  unfold Q2R. destruct a as [n d]. cbn [Qabs Qnum Qden]. rewrite abs_IZR, Rabs_mult, (Rabs_pos_eq (/ _)); [reflexivity|]. left. apply Rinv_0_lt_compat. apply IZR_lt. reflexivity.
Qed.
Lemma evabs_ok p r s : Rabs s <= Q2R r -> Rabs (ev p s) <= Q2R (evabs p r).
Proof.
  intros H. induction p as [|a p IH]; cbn [ev evabs]; [rewrite Q2R0, Rabs_R0; lra|]. rewrite qadd_R, qmul_R, Qabs_R.
  eapply Rle_trans; [apply Rabs_triang|]. rewrite Rabs_mult. assert (Rabs s * Rabs (ev p s) <= Q2R r * Q2R (evabs p r)) by (apply Rmult_le_compat; try apply Rabs_pos; assumption). lra.
Qed.
(** centres a + r, a + 3 r, a + 5 r, ...: n intervals of half-width r from a *)
Fixpoint check (p : list Q) (a r e : Q) (n : nat) : bool :=
  match n with O => true | S m => Qle_bool (evabs (shift (qadd a r) p) r) e && check p (qadd a (qadd r r)) r e m end.
Lemma check_ok p r e n : forall a x, check p a r e n = true -> Q2R a <= x <= Q2R a + INR n * (2 * Q2R r) -> (n <> 0)%nat -> Rabs (ev p x) <= Q2R e.
Proof.
  induction n as [|n IH]; intros a x H Hx Hn; [congruence|]. cbn [check] in H. apply andb_prop in H. destruct H as (H1 & H2). rewrite S_INR in Hx.
  destruct (Rle_or_lt x (Q2R a + 2 * Q2R r)) as [C|C].
  - apply Qle_bool_iff, Qle_Rle in H1. eapply Rle_trans; [|exact H1].
    replace x with (Q2R (qadd a r) + (x - Q2R (qadd a r))) by ring. rewrite <- shift_ev. apply evabs_ok. rewrite qadd_R. apply Rabs_le. lra.
  - destruct n; [cbn [INR] in Hx; lra|]. apply (IH _ _ H2); [|discriminate]. rewrite !qadd_R. lra.
Qed.

(** sine polynomial against the Taylor polynomial of the cosine *)
Definition P_q : list Q := [0; 13160801 # 16777216; 13666007 # 67108864; 0; 16240282 # 1073741824; 0; -13840919 # 4294967296]%Q.
Definition K_q : Q := (4052847 # 10000000)%Q.
(** P (1 - K z) by Horner *)
Fixpoint pcomp (p q : list Q) : list Q := match p with [] => [] | a :: l => padd [a] (pmul q (pcomp l q)) end.
Lemma pcomp_ev p q x : ev (pcomp p q) x = ev p (ev q x).
Proof. induction p as [|a p IH]; [reflexivity|]. cbn [pcomp]. rewrite padd_ev, pmul_ev, IH. cbn [ev]. ring. Qed.
Definition cos_q : list Q := [1; -1 # 2; 1 # 24; -1 # 720; 1 # 40320; -1 # 3628800]%Q.
Definition diff_q : list Q := padd (pcomp P_q [1%Q; (- K_q)%Q]) (pscale (-1) cos_q).
(** the same with coefficients rounded to multiples of 2^-36 *)
Definition dyad (a : Q) : Q := (Qnum a * 2 ^ 36 / Zpos (Qden a)) # (2 ^ 36).
Definition diff_d : list Q := Eval vm_compute in map dyad diff_q.
Lemma diff_close : Qle_bool (evabs (padd diff_q (pscale (-1) diff_d)) (5 # 2)) (1 # 100000000) = true.
Proof. vm_compute. reflexivity. Qed.
Lemma diff_check : check diff_d 0 (5 # 64) (48 # 1000000) 16 = true.
Proof. vm_compute. reflexivity. Qed.
Lemma diff_bound z : 0 <= z <= 2.5 -> Rabs (ev diff_q z) <= 0.0000481.
Proof.
  intros H. assert (A : Rabs (ev diff_d z) <= Q2R (48 # 1000000)).
  { apply (check_ok _ _ _ _ 0 z diff_check); [|discriminate]. rewrite Q2R0. replace (INR 16) with 16 by (cbn; lra). unfold Q2R. cbn [Qnum Qden]. lra. }
  assert (B : Rabs (ev (padd diff_q (pscale (-1) diff_d)) z) <= Q2R (1 # 100000000)).
  { eapply Rle_trans; [apply (evabs_ok _ (5 # 2))|apply Qle_Rle, Qle_bool_iff, diff_close]. unfold Q2R. cbn [Qnum Qden]. rewrite Rabs_pos_eq; lra. }
  rewrite padd_ev, pscale_ev in B. unfold Q2R in A, B. cbn [Qnum Qden Qopp] in A, B.
  apply Rabs_le. apply Rabs_le_inv in A. apply Rabs_le_inv in B. lra.
Qed.
