(** The allpass filters: energy, frequency response (exact arithmetic) and bounds (binary32). *)
From Coq Require Import Reals Lra Lia.
From Flocq Require Import Core.Core IEEE754.BinarySingleNaN.
From Verif Require Import Common Float FloatFacts FloatRel FloatLerp Bq_Model Bq_Spec Bq_Lin Bq_Proof Bq_Float.
Local Open Scope R_scope.

(** ** Energy *)
Lemma ap_energy a y x n : a * a <> 1 ->
  energy x n + y * y / (1 - a * a) = energy (ap_out opsR a y x) n + ap_feed opsR a y x n * ap_feed opsR a y x n / (1 - a * a).
Proof.
  intros Ha. induction n as [|n IH]; [cbn [energy ap_feed]; ring|]. cbn [energy ap_feed].
  transitivity (energy x n + y * y / (1 - a * a) + x n * x n); [ring|]. rewrite IH.
  unfold ap_out, ap_step. cbn [fst snd add sub mul opsR]. set (e := energy _ _). set (z := ap_feed opsR a y x n). field. lra.
Qed.
Definition pp_store (p : polyphase R) : R :=
  ((pa p * py1 p - px1 p) * (pa p * py1 p - px1 p) + (pa p * py2 p - px2 p) * (pa p * py2 p - px2 p)) / (1 - pa p * pa p).
Lemma pp_feed_a {T} (o : ops T) p x n : pa (pp_feed o p x n) = pa p.
Proof. induction n as [|n IH]; [reflexivity|]. cbn [pp_feed]. exact IH. Qed.
Lemma pp_energy p x n : pa p * pa p <> 1 ->
  energy x n + pp_store p = energy (pp_out opsR p x) n + pp_store (pp_feed opsR p x n).
Proof.
  intros Ha. induction n as [|n IH]; [cbn [energy pp_feed]; ring|]. cbn [energy pp_feed].
  transitivity (energy x n + pp_store p + x n * x n); [ring|]. rewrite IH.
  unfold pp_out, pp_step, pp_store. cbn [fst snd add sub mul opsR pa px1 px2 py1 py2]. rewrite !pp_feed_a. set (e := energy _ _). set (z := pp_feed opsR p x n). field. lra.
Qed.

(** ** As biquads *)
Lemma ap_bq a x n : ap_out opsR a 0 x n = bq_out opsR (bq_make opsR (mkCoefs a 1 0 a 0)) x n.
Proof.
  apply (diff_unique a 1 0 a 0 x); [|exact (diff_eq (mkCoefs a 1 0 a 0) x)].
  intros t. unfold ap_out at 1. unfold ap_step. cbn [fst snd add sub mul opsR].
  destruct t as [|t]; unfold ago; cbn [Nat.leb Nat.sub ap_feed]; [ring|]. rewrite Nat.sub_0_r.
  unfold ap_out, ap_step. cbn [fst snd add sub mul opsR]. destruct t; cbn [Nat.leb]; ring.
Qed.
Section PpRun.
Context {T : Type} (o : ops T) (p : polyphase T) (x : nat -> T).
Lemma pp_x2 n : px2 (pp_feed o p x n) = match n with O => px2 p | S O => px1 p | S (S m) => x m end.
Proof. destruct n as [|[|n]]; reflexivity. Qed.
Lemma pp_y2 n : py2 (pp_feed o p x n) = match n with O => py2 p | S O => py1 p | S (S m) => pp_out o p x m end.
Proof. destruct n as [|[|n]]; reflexivity. Qed.
End PpRun.
Lemma pp_bq a x n : pp_out opsR (pp_make opsR a) x n = bq_out opsR (bq_make opsR (mkCoefs a 0 (-1) 0 (- a))) x n.
Proof.
  apply (diff_unique a 0 (-1) 0 (- a) x); [|exact (diff_eq (mkCoefs a 0 (-1) 0 (- a)) x)].
  intros t. unfold pp_out at 1. unfold pp_step. cbn [snd add sub mul opsR]. rewrite pp_feed_a, pp_x2, pp_y2.
  destruct t as [|[|t]]; unfold ago; cbn [Nat.leb Nat.sub pp_make pa px1 px2 py1 py2 zro opsR]; rewrite ?Nat.sub_0_r; ring.
Qed.
Lemma ap_tri a : -1 < a < 1 -> triangle a 0.
Proof. intros H. split; unfold Rabs; destruct Rcase_abs; lra. Qed.
Lemma pp_tri a : -1 < a < 1 -> triangle 0 (- a).
Proof. intros H. split; unfold Rabs; destruct Rcase_abs; lra. Qed.

Lemma settles_ext f g z : (forall n, f n = g n) -> settles_to g z -> settles_to f z.
Proof. intros E H eps He. destruct (H eps He) as (n & Hn). exists n. intros t Ht. rewrite E. apply Hn. exact Ht. Qed.
Lemma resp_ext f g w k th : (forall x n, f x n = g x n) -> response g w k th -> response f w k th.
Proof. intros E H A ph. eapply settles_ext; [|apply H]. intros n. apply E. Qed.

Lemma gain_one (b : biquad R) w : triangle (k3 (bq_c b)) (k4 (bq_c b)) -> num2 (bq_c b) w = den2 (bq_c b) w ->
  exists th, response (bq_out opsR b) w 1 th.
Proof.
  intros T E. destruct (respond_any b w T) as (g & th & G0 & G1 & G2). exists th. assert (D := den2_pos _ w T).
  rewrite E in G1. assert (G3 : g * g = 1) by (apply Rmult_eq_reg_r with (den2 (bq_c b) w); lra).
  replace 1 with g; [exact G2|]. apply Rle_antisym; apply le_sq; lra.
Qed.
Lemma ap_gain a w : -1 < a < 1 -> exists th, response (ap_out opsR a 0) w 1 th.
Proof.
  intros H. destruct (gain_one (bq_make opsR (mkCoefs a 1 0 a 0)) w (ap_tri a H)) as (th & R).
  - unfold num2, den2. cbn [bq_make bq_c k0 k1 k2 k3 k4]. generalize (sin2_cos2 w). unfold Rsqr. intros E.
    set (c := cos w) in *. set (s := sin w) in *. transitivity (a * a * (s * s + c * c) + 2 * (a * c) + 1); [ring|]. rewrite E. transitivity (a * a + 2 * (a * c) + (s * s + c * c)); [rewrite E; ring|ring].
  - exists th. eapply resp_ext; [|exact R]. intros x n. apply ap_bq.
Qed.
Lemma pp_gain a w : -1 < a < 1 -> exists th, response (pp_out opsR (pp_make opsR a)) w 1 th.
Proof.
  intros H. destruct (gain_one (bq_make opsR (mkCoefs a 0 (-1) 0 (- a))) w (pp_tri a H)) as (th & R).
  - unfold num2, den2. cbn [bq_make bq_c k0 k1 k2 k3 k4]. ring.
  - exists th. eapply resp_ext; [|exact R]. intros x n. apply pp_bq.
Qed.
(** 90 degrees at the pivot *)
Lemma pole_form f sps : 0 < f -> 2 * f < sps -> let w := 2 * PI * f / sps in
  0 < sin w /\ ap_pole f sps * (1 + sin w) = - cos w.
Proof.
  intros Hf Hs w. assert (W : 0 < w < PI).
  { unfold w. assert (P := PI_RGT_0). assert (I : 0 < / sps) by (apply Rinv_0_lt_compat; lra). split.
    - apply Rmult_lt_0_compat; [|exact I]. apply Rmult_lt_0_compat; lra.
    - apply Rmult_lt_reg_r with sps; [lra|]. replace (2 * PI * f / sps * sps) with (PI * (2 * f)) by (field; lra). apply Rmult_lt_compat_l; lra. }
  assert (S0 : 0 < sin w) by (apply sin_gt_0; lra). split; [exact S0|].
  unfold ap_pole. replace (PI * f / sps) with (w / 2) by (unfold w; field; lra).
  set (z := w / 2 - PI / 4). assert (Ew : w = PI / 2 + (z + z)) by (unfold z; field).
  assert (Cz : 0 < cos z) by (apply cos_gt_0; unfold z; lra).
  assert (E1 : sin w = cos z * cos z - sin z * sin z) by (rewrite Ew, <- cos_sin, cos_plus; reflexivity).
  assert (E2 : - cos w = 2 * (sin z * cos z)).
  { rewrite Ew. rewrite cos_plus, cos_PI2, sin_PI2, sin_plus. ring. }
  assert (E3 := sin2_cos2 z). unfold Rsqr in E3. rewrite E1, E2. unfold tan.
  transitivity (sin z / cos z * (2 * (cos z * cos z))); [f_equal; lra|]. field. lra.
Qed.
Lemma pole_range f sps : 0 < f -> 2 * f < sps -> -1 < ap_pole f sps < 1.
Proof.
  intros Hf Hs. destruct (pole_form f sps Hf Hs) as (S0 & E). set (w := 2 * PI * f / sps) in *. set (a := ap_pole f sps) in *.
  assert (C := sin2_cos2 w). unfold Rsqr in C. assert (S1 := SIN_bound w). assert (C1 := COS_bound w).
  split; apply Rmult_lt_reg_r with (1 + sin w); try lra.
Qed.
Lemma pivot f sps : 0 < f -> 2 * f < sps -> response (ap_out opsR (ap_pole f sps) 0) (2 * PI * f / sps) 1 (- (PI / 2)).
Proof.
  intros Hf Hs. assert (R := pole_range f sps Hf Hs). destruct (pole_form f sps Hf Hs) as (S0 & E).
  set (w := 2 * PI * f / sps) in *. set (a := ap_pole f sps) in *.
  eapply resp_ext; [intros x n; apply ap_bq|]. apply respond; [apply ap_tri; exact R| |]; cbn [bq_make bq_c k0 k1 k2 k3 k4];
    rewrite cos_neg, sin_neg, cos_PI2, sin_PI2.
  - assert (C := sin2_cos2 w). unfold Rsqr in C. apply Rmult_eq_reg_r with (1 + sin w); [|lra].
    transitivity (a * (1 + sin w) * cos w + (1 + sin w)); [ring|]. rewrite E. transitivity (1 + sin w - cos w * cos w); [ring|].
    replace (cos w * cos w) with (1 - sin w * sin w) by lra. ring.
  - lra.
Qed.

(** ** Cascades: a stable filter fed with a signal that settles settles as if fed with the limit *)
Lemma bq_shift c (w : nat -> R) n t : exists b, bq_out opsR (bq_make opsR c) w (n + t) = bq_out opsR b (fun k => w (n + k)%nat) t /\ b = bq_feed opsR (bq_make opsR c) w n.
Proof.
  exists (bq_feed opsR (bq_make opsR c) w n). split; [|reflexivity]. unfold bq_out.
  assert (F : forall t, bq_feed opsR (bq_make opsR c) w (n + t) = bq_feed opsR (bq_feed opsR (bq_make opsR c) w n) (fun k => w (n + k)%nat) t).
  { clear. induction t as [|t IH]; [rewrite Nat.add_0_r; reflexivity|]. rewrite Nat.add_succ_r. cbn [bq_feed]. rewrite IH. reflexivity. }
  rewrite F. reflexivity.
Qed.
Lemma vanish c d : triangle (k3 c) (k4 c) -> settles_to d (fun _ => 0) -> settles_to (bq_out opsR (bq_make opsR c) d) (fun _ => 0).
Proof.
  intros T Hd eps He. destruct (triangle_radius _ _ T) as (r & Hr & R1).
  assert (R0 : 0 < r) by (destruct Hr; assumption).
  set (K := Rabs (k0 c) + Rabs (k1 c) + Rabs (k2 c) + 1).
  assert (K1 : 1 <= K) by (unfold K; generalize (Rabs_pos (k0 c)) (Rabs_pos (k1 c)) (Rabs_pos (k2 c)); lra).
  set (e := eps / 2 * ((1 - r) * (1 - r)) / K).
  assert (E0 : 0 < e). { unfold e. apply Rmult_lt_0_compat; [|apply Rinv_0_lt_compat; lra]. repeat apply Rmult_lt_0_compat; lra. }
  destruct (Hd e E0) as (n & Hn).
  set (y := bq_out opsR (bq_make opsR c) d).
  (* the part forced by the input after n, from rest *)
  set (z := bq_out opsR (bq_make opsR c) (fun k => d (n + k)%nat)).
  assert (Bz : forall t, Rabs (z t) <= eps / 2).
  { intros t. assert (SB := second_bound r (k3 c) (k4 c) (pad z) Hr R1 (K * e) (S t)).
    cbn [pad] in SB. rewrite Rabs_R0, Rmult_0_r, !Rplus_0_l in SB.
    replace (eps / 2) with (K * e / (1 - r) / (1 - r)) by (unfold e; field; lra).
    apply SB with (t := S (S t)); [apply Rmult_le_pos; lra| |lia]. intros t' Ht'.
    exists (k0 c * d (n + t')%nat + k1 c * ago (fun k => d (n + k)%nat) t' 1 + k2 c * ago (fun k => d (n + k)%nat) t' 2). split.
    - cbn [pad]. unfold z at 1. rewrite (diff_eq c). fold z. f_equal; [f_equal|]; f_equal; unfold ago, pad; destruct t' as [|[|t']]; cbn [Nat.leb Nat.sub]; rewrite ?Nat.sub_0_r; reflexivity.
    - assert (A : forall k, Rabs (ago (fun k => d (n + k)%nat) t' k) <= e).
      { intros k. unfold ago. destruct (Nat.leb k t'); [|rewrite Rabs_R0; lra]. specialize (Hn (n + (t' - k))%nat ltac:(lia)). rewrite Rminus_0_r in Hn. lra. }
      eapply Rle_trans; [apply Rabs_triang|]. eapply Rle_trans; [apply Rplus_le_compat_r, Rabs_triang|].
      assert (A0 := mul_le (k0 c) (d (n + t')%nat) (Rabs (k0 c)) e (Rle_refl _)). specialize (Hn (n + t')%nat ltac:(lia)). rewrite Rminus_0_r in Hn. specialize (A0 ltac:(lra)).
      assert (A1 := mul_le (k1 c) _ _ _ (Rle_refl _) (A 1%nat)). assert (A2 := mul_le (k2 c) _ _ _ (Rle_refl _) (A 2%nat)).
      unfold K. lra. }
  (* the rest obeys the homogeneous recurrence and decays *)
  destruct (second_decay r (k3 c) (k4 c) (fun t => y (n + t)%nat - z t) Hr R1) as (C & rho & Hrho & HD).
  { intros t. assert (Ey : y (n + S (S t))%nat = k0 c * d (n + S (S t))%nat + k1 c * d (n + S t)%nat + k2 c * d (n + t)%nat - k3 c * y (n + S t)%nat - k4 c * y (n + t)%nat).
    { unfold y. rewrite !Nat.add_succ_r, out_rec. reflexivity. }
    assert (Ez : z (S (S t)) = k0 c * d (n + S (S t))%nat + k1 c * d (n + S t)%nat + k2 c * d (n + t)%nat - k3 c * z (S t) - k4 c * z t).
    { unfold z. rewrite out_rec. reflexivity. }
    rewrite Ey, Ez. ring. }
  destruct (decay_small C rho Hrho (eps / 2) ltac:(lra)) as (m & Hm). exists (n + m)%nat. intros t Ht. rewrite Rminus_0_r.
  replace t with (n + (t - n))%nat by lia. fold y. replace (y (n + (t - n))%nat) with ((y (n + (t - n))%nat - z (t - n)%nat) + z (t - n)%nat) by ring.
  eapply Rle_lt_trans; [apply Rabs_triang|]. assert (X := HD (t - n)%nat). cbv beta in X. assert (Z := Hm (t - n)%nat ltac:(lia)). assert (Q := Bz (t - n)%nat). lra.
Qed.
Lemma bq_lin c p q x z n : bq_out opsR (bq_make opsR c) (fun t => p * x t + q * z t) n =
  p * bq_out opsR (bq_make opsR c) x n + q * bq_out opsR (bq_make opsR c) z n.
Proof.
  apply (diff_unique (k0 c) (k1 c) (k2 c) (k3 c) (k4 c) (fun t => p * x t + q * z t) _ (fun n => p * bq_out opsR (bq_make opsR c) x n + q * bq_out opsR (bq_make opsR c) z n)); [apply diff_eq|].
  intros t. cbv beta. rewrite !ago_lin. rewrite (diff_eq c x t) at 1. rewrite (diff_eq c z t) at 1. ring.
Qed.
Lemma bq_ext c x z n : (forall t, x t = z t) -> bq_out opsR (bq_make opsR c) x n = bq_out opsR (bq_make opsR c) z n.
Proof.
  intros E. unfold bq_out. rewrite <- E. f_equal. f_equal. clear -E. induction n as [|n IH]; [reflexivity|]. cbn [bq_feed]. rewrite IH, E. reflexivity.
Qed.
Lemma cascade f c w g1 th1 g2 th2 : triangle (k3 c) (k4 c) -> response f w g1 th1 -> response (bq_out opsR (bq_make opsR c)) w g2 th2 ->
  response (fun x => bq_out opsR (bq_make opsR c) (f x)) w (g2 * g1) (th1 + th2).
Proof.
  intros T H1 H2 A ph eps He. destruct (H2 (g1 * A) (ph + th1) (eps / 2)) as (n2 & Hn2); [lra|].
  set (y := f (tone A w ph)). set (z := tone (g1 * A) w (ph + th1)) in *.
  destruct (vanish c (fun t => 1 * y t + (-1) * z t) T) with (eps := eps / 2) as (n1 & Hn1); [|lra|].
  { intros e0 E0. destruct (H1 A ph e0 E0) as (m & Hm). exists m. intros t Ht. specialize (Hm t Ht). fold y z in Hm.
    replace (1 * y t + -1 * z t - 0) with (y t - z t) by ring. exact Hm. }
  exists (max n1 n2). intros t Ht. specialize (Hn1 t ltac:(lia)). specialize (Hn2 t ltac:(lia)). rewrite bq_lin, Rminus_0_r in Hn1. fold y.
  replace (tone (g2 * g1 * A) w (ph + (th1 + th2)) t) with (tone (g2 * (g1 * A)) w (ph + th1 + th2) t)
    by (unfold tone; replace (ph + th1 + th2) with (ph + (th1 + th2)) by ring; ring).
  set (p := bq_out opsR (bq_make opsR c) y t) in *. set (q := bq_out opsR (bq_make opsR c) z t) in *. set (l := tone _ _ _ t) in *.
  replace (p - l) with ((1 * p + -1 * q) + (q - l)) by ring. eapply Rle_lt_trans; [apply Rabs_triang|]. lra.
Qed.
Lemma pp_cascade f a w th : -1 < a < 1 -> response f w 1 th -> exists th', response (fun x => pp_out opsR (pp_make opsR a) (f x)) w 1 th'.
Proof.
  intros Ha H. destruct (pp_gain a w Ha) as (t2 & H2). exists (th + t2).
  apply (resp_ext _ (fun x => bq_out opsR (bq_make opsR (mkCoefs a 0 (-1) 0 (- a))) (f x))); [intros x n; apply pp_bq|].
  rewrite <- (Rmult_1_r 1) at 1. apply cascade; [apply pp_tri; exact Ha|exact H|].
  eapply resp_ext; [|exact H2]. intros x n. symmetry. apply pp_bq.
Qed.
Lemma delay_resp f w g th : response f w g th -> response (fun x n => ago (f x) n 1) w g (th - w).
Proof.
  intros H A ph eps He. destruct (H A ph eps He) as (n & Hn). exists (S n). intros [|t] Ht; [lia|].
  unfold ago. cbn [Nat.leb Nat.sub]. rewrite Nat.sub_0_r. specialize (Hn t ltac:(lia)).
  replace (tone (g * A) w (ph + (th - w)) (S t)) with (tone (g * A) w (ph + th) t); [exact Hn|].
  unfold tone. rewrite S_INR. f_equal. f_equal. ring.
Qed.

(** ** The quadrature filter as two cascades *)
Section Hil.
Context {T : Type} (o : ops T) (a b c d w x' y z : T) (x : nat -> T).
Local Notation H := (hil_make o a b c d w x' y z).
Local Notation P k := (pp_out o (pp_make o k)).
Lemma hil_split n :
  h_a (hil_feed o H x n) = pp_feed o (pp_make o a) x n /\
  h_b (hil_feed o H x n) = pp_feed o (pp_make o b) (P a x) n /\
  h_c (hil_feed o H x n) = pp_feed o (pp_make o c) (P b (P a x)) n /\
  h_d (hil_feed o H x n) = pp_feed o (pp_make o d) (P c (P b (P a x))) n /\
  h_dly (hil_feed o H x n) = match n with O => zro o | S m => P d (P c (P b (P a x))) m end /\
  h_w (hil_feed o H x n) = pp_feed o (pp_make o w) x n /\
  h_x (hil_feed o H x n) = pp_feed o (pp_make o x') (P w x) n /\
  h_y (hil_feed o H x n) = pp_feed o (pp_make o y) (P x' (P w x)) n /\
  h_z (hil_feed o H x n) = pp_feed o (pp_make o z) (P y (P x' (P w x))) n.
Proof.
  induction n as [|n (Ea & Eb & Ec & Ed & _ & Ew & Ex & Ey & Ez)]; [repeat split; reflexivity|].
  cbn [hil_feed pp_feed]. unfold hil_step. rewrite Ea, Eb, Ec, Ed, Ew, Ex, Ey, Ez.
  repeat match goal with |- context [let (_, _) := pp_step ?o ?p ?s in _] =>
    rewrite (surjective_pairing (pp_step o p s)) end.
  cbn [fst h_a h_b h_c h_d h_dly h_w h_x h_y h_z]. repeat split; reflexivity.
Qed.
Lemma hil_fst n : fst (hil_out o H x n) = match n with O => zro o | S m => P d (P c (P b (P a x))) m end.
Proof.
  destruct (hil_split n) as (_ & _ & _ & _ & E & _). unfold hil_out, hil_step.
  repeat match goal with |- context [let (_, _) := pp_step ?o ?p ?s in _] => rewrite (surjective_pairing (pp_step o p s)) end.
  cbn [fst snd]. exact E.
Qed.
Lemma hil_snd n : snd (hil_out o H x n) = P z (P y (P x' (P w x))) n.
Proof.
  destruct (hil_split n) as (_ & _ & _ & _ & _ & Ew & Ex & Ey & Ez). unfold hil_out, hil_step. rewrite Ew, Ex, Ey, Ez.
  repeat match goal with |- context [let (_, _) := pp_step ?o ?p ?s in _] => rewrite (surjective_pairing (pp_step o p s)) end.
  cbn [fst snd]. reflexivity.
Qed.
End Hil.

Lemma pp_le a x n : -1 < a < 1 -> energy (pp_out opsR (pp_make opsR a) x) n <= energy x n.
Proof.
  intros Ha. assert (A : a * a < 1). { destruct (Rle_or_lt 0 a); [assert (a * a <= a * 1) by (apply Rmult_le_compat_l; lra); lra|]. assert ((- a) * (- a) <= (- a) * 1) by (apply Rmult_le_compat_l; lra). lra. }
  assert (E := pp_energy (pp_make opsR a) x n). cbn [pa pp_make] in E. specialize (E ltac:(lra)).
  assert (Z : pp_store (pp_make opsR a) = 0) by (unfold pp_store; cbn [pp_make pa px1 px2 py1 py2 zro opsR]; field; lra).
  assert (S : 0 <= pp_store (pp_feed opsR (pp_make opsR a) x n)).
  { unfold pp_store. rewrite pp_feed_a. cbn [pa pp_make]. apply Rmult_le_pos; [|left; apply Rinv_0_lt_compat; lra].
    generalize (pp_feed opsR (pp_make opsR a) x n). intros p. generalize (sq_nonneg (a * py1 p - px1 p)) (sq_nonneg (a * py2 p - px2 p)). lra. }
  lra.
Qed.
Lemma energy_ext f g n : (forall t, (t < n)%nat -> f t = g t) -> energy f n = energy g n.
Proof. induction n as [|n IH]; intros E; [reflexivity|]. cbn [energy]. rewrite (E n), IH; [reflexivity| |lia]. intros t Ht. apply E. lia. Qed.
Lemma energy_delay f n : energy (fun t => match t with O => 0 | S m => f m end) (S n) = energy f n.
Proof. induction n as [|n IH]; [cbn [energy]; ring|]. change (energy f (S n)) with (energy f n + f n * f n). rewrite <- IH. reflexivity. Qed.
Lemma energy_pos f n : 0 <= energy f n.
Proof. induction n as [|n IH]; cbn [energy]; [lra|]. generalize (sq_nonneg (f n)). lra. Qed.
