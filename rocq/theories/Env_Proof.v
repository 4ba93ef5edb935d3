From Coq Require Import Reals Lra Psatz.
From Flocq Require Import Core.Core IEEE754.BinarySingleNaN.
From Verif Require Import Common CommonFacts Float FloatFacts FloatLerp DetectF_Proof Env_Model Env_Spec.
Local Open Scope R_scope.

(** ** coefficients *)
Lemma sixth_R : B2R sixth = 11184810 * bpow radix2 (-26) /\ fin sixth.
Proof.
  assert (E : feq sixth (mk32 11184810 (-26)) = true) by (vm_compute; reflexivity).
  assert (F : fin sixth) by (vm_compute; reflexivity).
  destruct (mk32_small 11184810 (-26) ltac:(reflexivity) ltac:(lia)) as [V F'].
  apply (feq_true _ _ F F') in E. rewrite E, V. auto.
Qed.
Local Notation rn := (rnd 24 128).
Lemma fmt_int m : (Z.abs m < 2 ^ 24)%Z -> fmt 24 128 (IZR m).
Proof. intros H. apply fmt_IZR; [unfold SpecFloat.emin; lia|exact H]. Qed.
Lemma small_lt r m : (Z.abs m < 2 ^ 24)%Z -> Rabs r <= IZR m -> Rabs r < bpow radix2 128.
Proof.
  intros H L. apply Rle_lt_trans with (1 := L). apply Rlt_le_trans with (bpow radix2 24); [|apply bpow_le; lia].
  change (bpow radix2 24) with (IZR (2 ^ 24)). apply IZR_lt. lia.
Qed.
(** range of a rounded sum or product with integer bounds *)
Lemma fadd_rng (x y : f32) lo hi : fin x -> fin y -> (Z.abs lo < 2 ^ 24)%Z -> (Z.abs hi < 2 ^ 24)%Z -> IZR lo <= B2R x + B2R y <= IZR hi ->
  fin (fadd x y) /\ IZR lo <= B2R (fadd x y) <= IZR hi.
Proof.
  intros Fx Fy Hl Hh B.
  assert (R : IZR lo <= rn (B2R x + B2R y) <= IZR hi) by (split; [apply rnd_ge_fmt|apply rnd_le_fmt]; try apply fmt_int; tauto).
  destruct (fadd_R x y Fx Fy) as [V F].
  - destruct (Rle_lt_dec 0 (rn (B2R x + B2R y))).
    + apply (small_lt _ hi Hh). rewrite Rabs_pos_eq; tauto.
    + apply (small_lt _ (- lo)); [lia|]. rewrite Rabs_left, opp_IZR by assumption. lra.
  - rewrite V. auto.
Qed.
Lemma fmul_rng (x y : f32) lo hi : fin x -> fin y -> (Z.abs lo < 2 ^ 24)%Z -> (Z.abs hi < 2 ^ 24)%Z -> IZR lo <= B2R x * B2R y <= IZR hi ->
  fin (fmul x y) /\ IZR lo <= B2R (fmul x y) <= IZR hi.
Proof.
  intros Fx Fy Hl Hh B.
  assert (R : IZR lo <= rn (B2R x * B2R y) <= IZR hi) by (split; [apply rnd_ge_fmt|apply rnd_le_fmt]; try apply fmt_int; tauto).
  destruct (fmul_R x y Fx Fy) as [V F].
  - destruct (Rle_lt_dec 0 (rn (B2R x * B2R y))).
    + apply (small_lt _ hi Hh). rewrite Rabs_pos_eq; tauto.
    + apply (small_lt _ (- lo)); [lia|]. rewrite Rabs_left, opp_IZR by assumption. lra.
  - rewrite V. auto.
Qed.
Lemma int32 m : (Z.abs m < 2 ^ 24)%Z -> B2R (mk32 m 0) = IZR m /\ fin (mk32 m 0).
Proof. intros H. destruct (mk32_small m 0 H ltac:(lia)) as [V F]. change (bpow radix2 0) with 1 in V. rewrite Rmult_1_r in V. auto. Qed.
Lemma fast_exp3_coeff (x : f32) : is_finite x = true -> -1 <= B2R x <= 0 -> coefficient (fast_exp3 x).
Proof.
  intros Fx Bx. unfold fast_exp3.
  destruct (int32 3 ltac:(reflexivity)) as [V3 F3]. destruct (int32 6 ltac:(reflexivity)) as [V6 F6].
  destruct (fadd_rng (mk32 3 0) x 2 3 F3 Fx ltac:(reflexivity) ltac:(reflexivity)) as [Fa Ba]; [rewrite V3; lra|].
  destruct (fmul_rng x (fadd (mk32 3 0) x) (-3) 0 Fx Fa ltac:(reflexivity) ltac:(reflexivity)) as [Fb Bb]; [nra|].
  destruct (fadd_rng (mk32 6 0) _ 3 6 F6 Fb ltac:(reflexivity) ltac:(reflexivity)) as [Fc Bc]; [rewrite V6; lra|].
  destruct (fmul_rng x _ (-6) 0 Fx Fc ltac:(reflexivity) ltac:(reflexivity)) as [Fd Bd]; [nra|].
  destruct (fadd_rng (mk32 6 0) _ 0 6 F6 Fd ltac:(reflexivity) ltac:(reflexivity)) as [Fe Be]; [rewrite V6; lra|].
  set (w := fadd (mk32 6 0) (fmul x (fadd (mk32 6 0) (fmul x (fadd (mk32 3 0) x))))) in *.
  destruct sixth_R as [V F]. change (bpow radix2 (-26)) with (/ 67108864) in V.
  destruct (fmul_rng w sixth 0 1 Fe F ltac:(reflexivity) ltac:(reflexivity)) as [Fr Br]; [rewrite V; lra|].
  split; [exact Fr|]. split; [apply Br|].
  destruct (fmul_R w sixth Fe F) as [Vw _].
  { apply (small_lt _ 1 ltac:(reflexivity)). apply rnd_abs_le; [apply (fmt_int 1); reflexivity|]. rewrite Rabs_pos_eq; rewrite V; nra. }
  rewrite Vw. apply Rle_lt_trans with (IZR 16777215 * bpow radix2 (-24)).
  - apply rnd_le_fmt; [apply fmt_F2R; [reflexivity|unfold SpecFloat.emin; lia]|]. rewrite V. change (bpow radix2 (-24)) with (/ 16777216). lra.
  - change (bpow radix2 (-24)) with (/ 16777216). lra.
Qed.
(** the quotient -2/(sps*d) *)
Lemma env_coeff_ok (sps : Z) (d : f64) : (0 < sps < 2 ^ 32)%Z -> is_finite d = true -> B2R d <= bpow radix2 900 -> 2 <= IZR sps * B2R d ->
  coefficient (env_coeff sps d).
Proof.
  intros Hs Fd Ud L. unfold env_coeff.
  destruct (mk64_small sps 0) as [Vs Fs]; [change (2 ^ 53)%Z with 9007199254740992%Z; change (2 ^ 32)%Z with 4294967296%Z in Hs; lia|lia|].
  change (bpow radix2 0) with 1 in Vs. rewrite Rmult_1_r in Vs.
  destruct (mk64_small (-2) 0 ltac:(reflexivity) ltac:(lia)) as [V2 F2]. change (bpow radix2 0) with 1 in V2. rewrite Rmult_1_r in V2.
  assert (S0 : 0 < IZR sps <= bpow radix2 32) by (split; [apply IZR_lt; lia|change (bpow radix2 32) with (IZR (2 ^ 32)); apply IZR_le; lia]).
  assert (D0 : 0 < B2R d) by nra.
  assert (U : Rabs (IZR sps * B2R d) <= bpow radix2 932).
  { rewrite Rabs_pos_eq by lra. change 932%Z with (32 + 900)%Z. rewrite bpow_plus. apply Rmult_le_compat; lra. }
  assert (F932 : fmt 53 1024 (bpow radix2 932)) by (apply fmt_bpow; unfold SpecFloat.emin; lia).
  rewrite <- Vs in U, L.
  destruct (fmul_bnd (mk64 sps 0) d (bpow radix2 932) Fs Fd F932) as (Vp & Fp & Bp); [apply bpow_lt; lia|exact U|].
  assert (P2 : 2 <= B2R (fmul (mk64 sps 0) d)).
  { rewrite Vp. apply rnd_ge_fmt; [change 2 with (bpow radix2 1); apply fmt_bpow; unfold SpecFloat.emin; lia|exact L]. }
  set (q := fmul (mk64 sps 0) d) in *.
  assert (Q : -1 <= -2 / B2R q <= 0).
  { assert (I0 : 0 < / B2R q) by (apply Rinv_0_lt_compat; lra).
    assert (I1 : B2R q * / B2R q = 1) by (apply Rinv_r; lra). unfold Rdiv. nra. }
  assert (F1 : forall p e (Hp : Prec_gt_0 p) (He : Prec_lt_emax p e), (SpecFloat.emin p e <= 0)%Z -> fmt p e (-1) /\ fmt p e 1).
  { intros p e Hp He H. assert (X : fmt p e 1) by (change 1 with (bpow radix2 0); apply fmt_bpow; exact H). split; [|exact X]. 
    replace (-1) with (- (1)) by lra. apply fmt_opp. exact X. }
  destruct (F1 53%Z 1024%Z _ _ ltac:(unfold SpecFloat.emin; lia)) as [F64m F641]. destruct (F1 24%Z 128%Z _ _ ltac:(unfold SpecFloat.emin; lia)) as [F32m F321].
  assert (L1 : forall e, (0 < e)%Z -> 1 < bpow radix2 e) by (intros e He; change 1 with (bpow radix2 0); apply bpow_lt; lia).
  destruct (fdiv_bnd (mk64 (-2) 0) q 1 F2 ltac:(lra) F641 (L1 1024%Z ltac:(lia))) as (Vq & Fq & Bq).
  { rewrite V2. apply Rabs_le. lra. }
  assert (R1 : -1 <= B2R (fdiv (mk64 (-2) 0) q) <= 0).
  { rewrite Vq, V2. split; [apply rnd_ge_fmt; [exact F64m|lra]|apply rnd_le_fmt; [apply fmt_0|lra]]. }
  set (z := fdiv (mk64 (-2) 0) q) in *.
  assert (R2 : -1 <= rn (B2R z) <= 0).
  { split; [apply rnd_ge_fmt; [exact F32m|lra]|apply rnd_le_fmt; [apply fmt_0|lra]]. }
  destruct (fconv_R (p':=24) (e':=128) z Fq) as [Vc Fc].
  { apply Rle_lt_trans with 1; [apply Rabs_le; lra|apply L1; lia]. }
  change (fconv z) with (to32 z) in *.
  apply fast_exp3_coeff; [exact Fc|rewrite Vc; exact R2].
Qed.

(** ** one step *)
Lemma coeff_if (b : bool) c1 c2 : coefficient c1 -> coefficient c2 -> coefficient (if b then c1 else c2).
Proof. destruct b; auto. Qed.
Lemma ef_between a r y s : coefficient a -> coefficient r -> bounded y -> bounded s ->
  bounded (ef_step a r y s) /\ Rmin (B2R y) (B2R s) <= B2R (ef_step a r y s) <= Rmax (B2R y) (B2R s).
Proof.
  intros Ha Hr By Bs. unfold ef_step. rewrite Rmin_comm, Rmax_comm. apply lerp_f32; auto. apply coeff_if; auto.
Qed.
Lemma pf_between r y s : coefficient r -> bounded y -> bounded s ->
  bounded (pf_step r y s) /\ B2R s <= B2R (pf_step r y s) <= Rmax (B2R y) (B2R s).
Proof.
  intros Hr By Bs. unfold pf_step. destruct (fgt s y) eqn:G.
  - split; [exact Bs|]. split; [lra|apply Rmax_r].
  - destruct By as [Fy By], Bs as [Fs Bs]. change (fgt s y) with (flt y s) in G. apply (flt_false _ _ Fy Fs) in G.
    pose proof (lerp_f32 s y r (conj Fs Bs) (conj Fy By) Hr) as [B1 B2]. split; [exact B1|].
    rewrite Rmin_left in B2 by exact G. rewrite Rmax_comm. exact B2.
Qed.
(** run: a follower whose step stays between stays in any interval containing the start
    and the inputs *)
Lemma env_run_range step (lo hi : R) :
  (forall y s, bounded y -> bounded s -> bounded (step y s) /\ Rmin (B2R y) (B2R s) <= B2R (step y s) <= Rmax (B2R y) (B2R s)) ->
  forall xs y, bounded y -> lo <= B2R y <= hi -> (forall x, In x xs -> bounded x /\ lo <= B2R x <= hi) ->
  forall o, In o (env_run step y xs) -> bounded o /\ lo <= B2R o <= hi.
Proof.
  intros H. induction xs as [|s xs IH]; intros y By Ry Hx o Ho; cbn [env_run] in Ho; [destruct Ho|].
  destruct (Hx s (or_introl eq_refl)) as [Bs Rs]. destruct (H y s By Bs) as [B1 R1].
  assert (R2 : lo <= B2R (step y s) <= hi).
  { destruct R1 as [R1 R1']. split.
    - eapply Rle_trans; [|exact R1]. apply Rmin_glb; lra.
    - eapply Rle_trans; [exact R1'|]. apply Rmax_lub; lra. }
  destruct Ho as [<-|Ho]; [auto|]. apply (IH (step y s)); auto. intros x Hi. apply Hx. right. exact Hi.
Qed.
Lemma pf_between' r : coefficient r -> forall y s, bounded y -> bounded s ->
  bounded (pf_step r y s) /\ Rmin (B2R y) (B2R s) <= B2R (pf_step r y s) <= Rmax (B2R y) (B2R s).
Proof.
  intros Hr y s By Bs. destruct (pf_between r y s Hr By Bs) as (H1 & H2 & H3). split; [exact H1|]. split; [|exact H3].
  eapply Rle_trans; [apply Rmin_r|exact H2].
Qed.

(** ** the fast envelope follower *)
Local Close Scope R_scope.
Definition nn (x : f32) : Prop := is_nan x = false.
Lemma nn_zero : nn fzero. Proof. reflexivity. Qed.
Lemma flt_irrefl (x : f32) : flt x x = false.
Proof. destruct (flt_asym x x); auto. Qed.
(** fmax a b is the larger of the two *)
Lemma fmax_cases (a b : f32) : (fmax a b = a /\ flt a b = false) \/ (fmax a b = b /\ flt a b = true).
Proof. unfold fmax. destruct (flt a b); auto. Qed.
Lemma flt_le (a b : f32) : flt a b = true -> flt b a = false.
Proof. intros H. destruct (flt_asym a b) as [X|X]; congruence. Qed.
Lemma fmax_nn (a b : f32) : nn a -> nn b -> nn (fmax a b).
Proof. intros Na Nb. destruct (fmax_cases a b) as [[-> _]|[-> _]]; auto. Qed.
Lemma fold_fmax (l : list f32) : forall a, nn a -> Forall nn l -> In (fold_left fmax l a) (a :: l) /\ nn (fold_left fmax l a) /\
  forall y, In y (a :: l) -> flt (fold_left fmax l a) y = false.
Proof.
  induction l as [|b l IH]; intros a Na Hl; cbn [fold_left].
  - split; [left; reflexivity|]. split; [exact Na|]. intros y [<-|[]]. apply flt_irrefl.
  - inversion Hl as [|? ? Hb Hl' E]; subst. destruct (IH (fmax a b) (fmax_nn a b Na Hb) Hl') as (I & N & U).
    split; [|split; [exact N|]].
    + destruct I as [I|I]; [|right; right; exact I]. rewrite <- I. destruct (fmax_cases a b) as [[-> _]|[-> _]]; [left|right; left]; reflexivity.
    + assert (U0 : flt (fold_left fmax l (fmax a b)) (fmax a b) = false) by (apply U; left; reflexivity).
      intros y [<-|[<-|Hy]]; [| |apply U; right; exact Hy].
      * apply (flt_neg_trans a (fmax a b) _ Na (fmax_nn a b Na Hb) N); [|exact U0].
        destruct (fmax_cases a b) as [[-> _]|[-> H]]; [apply flt_irrefl|apply flt_le; exact H].
      * apply (flt_neg_trans b (fmax a b) _ Hb (fmax_nn a b Na Hb) N); [|exact U0].
        destruct (fmax_cases a b) as [[-> H]|[-> H]]; [exact H|apply flt_irrefl].
Qed.

Lemma in_skipn_le {A} (l : list A) a b x : a <= b -> In x (skipn b l) -> In x (skipn a l).
Proof.
  revert a b. induction l as [|h l IH]; intros a b L I; [rewrite skipn_nil in I; destruct I|].
  destruct b as [|b]; [replace a with 0 by lia; exact I|]. cbn [skipn] in I.
  destruct a as [|a]; [cbn [skipn]; right; rewrite <- (firstn_skipn b l); apply in_or_app; right; exact I|].
  cbn [skipn]. apply (IH a b); [lia|exact I].
Qed.
(** the slot zeroed by reset number [j], and the number (1-based) of the last of the first
    [m] resets that hit slot [k] (0: none) *)
Section Fast.
Variable size : nat.
Hypothesis Hsz : (2 <= N.of_nat size <= 65536)%N.
Variable R : N.
Hypothesis HR : (R < 65536)%N.
Definition slot (j : nat) : nat := N.to_nat ((N.of_nat j mod 65536) mod N.of_nat size).
Fixpoint lr (m k : nat) : nat :=
  match m with O => O | S j => if Nat.eqb (slot j) k then S j else lr j k end.
Definition P : nat := S (N.to_nat R).

Definition is_max0 (y : f32) (l : list f32) : Prop := is_max y (fzero :: l).
Lemma is_max0_nn y l : Forall nn l -> is_max0 y l -> nn y.
Proof. intros Hl [[<-|I] _]; [exact nn_zero|]. rewrite Forall_forall in Hl. auto. Qed.
Lemma is_max0_snoc y l s : Forall nn l -> nn s -> is_max0 y l -> is_max0 (fmax s y) (l ++ [s]).
Proof.
  intros Hl Hs M. pose proof (is_max0_nn y l Hl M) as Ny. destruct M as [I U]. split.
  - destruct (fmax_cases s y) as [[-> _]|[-> _]].
    + right. apply in_or_app. right. left. reflexivity.
    + destruct I as [I|I]; [left; exact I|right; apply in_or_app; left; exact I].
  - intros x Hx. assert (X : In x (fzero :: l) \/ x = s).
    { destruct Hx as [<-|Hx]; [left; left; reflexivity|]. apply in_app_or in Hx. destruct Hx as [Hx|[<-|[]]]; [left; right; exact Hx|right; reflexivity]. }
    assert (Nx : nn x).
    { destruct X as [[<-|X]| ->]; [exact nn_zero| |exact Hs]. rewrite Forall_forall in Hl. auto. }
    destruct X as [X| ->].
    + pose proof (U x X) as Q. destruct (fmax_cases s y) as [[-> H]|[-> H]]; [|exact Q].
      exact (flt_neg_trans x y s Nx Ny Hs Q H).
    + destruct (fmax_cases s y) as [[-> H]|[-> H]]; [apply flt_irrefl|apply flt_le; exact H].
Qed.

Record fe_inv (xs : list f32) (e : fenv) : Prop := mkFi
  { fi_len : length (fe_y e) = size; fi_reset : fe_reset e = R;
    fi_tick : fe_tick e = N.of_nat (length xs mod P); fi_i : fe_i e = (N.of_nat (length xs / P) mod 65536)%N;
    fi_slot : forall k, k < size -> is_max0 (nth k (fe_y e) fzero) (skipn (lr (length xs / P) k * P) xs);
    fi_peak : xs <> [] -> is_max (fe_peak e) (fe_y e) }.

Lemma lr_le m k : lr m k <= m.
Proof. induction m as [|m IH]; cbn [lr]; [lia|]. destruct (Nat.eqb _ _); lia. Qed.
Lemma lr_bound n k : lr (n / P) k * P <= n.
Proof. pose proof (lr_le (n / P) k). unfold P in *. nia. Qed.
Lemma lset_nth {A} (d : A) l : forall i j v, i < length l -> nth j (lset l i v) d = if Nat.eqb j i then v else nth j l d.
Proof.
  induction l as [|x l IH]; intros i j v H; cbn [length] in H; [lia|].
  destruct i as [|i], j as [|j]; cbn [lset nth Nat.eqb]; try reflexivity. apply IH. lia.
Qed.
Lemma lset_length {A} l : forall i (v : A), length (lset l i v) = length l.
Proof. induction l as [|x l IH]; intros [|i] v; cbn [lset length]; auto. Qed.
Lemma fe_step_ok xs e s : Forall nn (xs ++ [s]) -> fe_inv xs e -> exists e', fe_step e s = Some e' /\ fe_inv (xs ++ [s]) e'.
Proof.
  intros Hn [L Rs T Ii Sl _]. apply Forall_app in Hn. destruct Hn as [Hx Hs]. apply Forall_inv in Hs. rename Hs into Hs'.
  assert (LB : forall k, lr (length xs / P) k * P <= length xs) by (intros k; apply lr_bound).
  assert (D : length xs = P * (length xs / P) + length xs mod P /\ length xs mod P < P).
  { split; [apply Nat.div_mod|apply Nat.mod_upper_bound]; unfold P; lia. }
  destruct D as [D1 D2]. set (q := length xs / P) in *. set (r := length xs mod P) in *.
  clearbody q r.
  unfold fe_step. set (y1 := map _ _).
  assert (L1 : length y1 = size) by (unfold y1; rewrite map_length; exact L).
  assert (S1 : forall k, k < size -> is_max0 (nth k y1 fzero) (skipn (lr q k * P) (xs ++ [s]))).
  { intros k Hk. unfold y1. rewrite (nth_indep _ fzero (fmax s fzero)) by (change (k < length y1); rewrite L1; exact Hk).
    rewrite (map_nth (fun y => fmax s y)). rewrite skipn_app.
    replace (lr q k * P - length xs) with 0 by (pose proof (LB k); lia). cbn [skipn].
    apply is_max0_snoc; [|exact Hs'|apply Sl; exact Hk].
    apply Forall_forall. intros x Ix. rewrite Forall_forall in Hx. apply Hx. rewrite <- (firstn_skipn (lr q k * P) xs). apply in_or_app. right. exact Ix. }
  assert (N1 : forall y, In y y1 -> nn y).
  { intros y Iy. destruct (In_nth _ _ fzero Iy) as (k & Hk & <-). rewrite L1 in Hk. apply (is_max0_nn _ (skipn (lr q k * P) (xs ++ [s]))); [|apply S1; exact Hk].
    apply Forall_forall. intros x Ix. assert (A : In x (xs ++ [s])) by (rewrite <- (firstn_skipn (lr q k * P)); apply in_or_app; right; exact Ix).
    apply in_app_or in A. destruct A as [A|[<-|[]]]; [rewrite Forall_forall in Hx; auto|exact Hs']. }
  assert (PK : forall y2, length y2 = size -> (forall y, In y y2 -> nn y) -> exists pk, max_element y2 = Some pk /\ is_max pk y2).
  { intros y2 Ly Ny. destruct y2 as [|a t]; [cbn in Ly; lia|]. cbn [max_element]. eexists. split; [reflexivity|].
    destruct (fold_fmax t a) as (F1 & F2 & F3); [apply Ny; left; reflexivity|apply Forall_forall; intros y Hy; apply Ny; right; exact Hy|].
    split; assumption. }
  destruct (N.eqb_spec (fe_tick e) (fe_reset e)) as [H|H].
  - assert (Er : r = N.to_nat R) by lia.
    assert (Q1 : length (xs ++ [s]) / P = S q) by (rewrite app_length; cbn [length]; symmetry; apply (Nat.div_unique _ _ _ 0); unfold P in *; lia).
    assert (Q2 : length (xs ++ [s]) mod P = 0) by (rewrite app_length; cbn [length]; symmetry; apply (Nat.mod_unique _ _ (S q)); unfold P in *; lia).
    unfold vset. rewrite L1, L. assert (Hi : (fe_i e mod N.of_nat size < N.of_nat size)%N) by (apply N.mod_lt; lia).
    destruct (N.ltb_spec (fe_i e mod N.of_nat size) (N.of_nat size)) as [_|X]; [|lia]. cbn [bind].
    assert (Es : N.to_nat (fe_i e mod N.of_nat size) = slot q) by (unfold slot; rewrite Ii; reflexivity).
    rewrite Es. destruct (PK (lset y1 (slot q) fzero)) as (pk & Ek & Mk).
    { rewrite lset_length. exact L1. }
    { intros y Iy. destruct (In_nth _ _ fzero Iy) as (k & Hk & <-). rewrite lset_length, L1 in Hk. rewrite lset_nth by lia.
      destruct (Nat.eqb k (slot q)); [exact nn_zero|]. apply N1, nth_In. lia. }
    rewrite Ek. cbn [bind]. eexists. split; [reflexivity|]. constructor; cbn [fe_y fe_reset fe_tick fe_i fe_peak].
    + rewrite lset_length. exact L1.
    + exact Rs.
    + rewrite Q2. reflexivity.
    + rewrite Q1, Ii. lia.
    + intros k Hk. assert (SLT : slot q < length y1) by (rewrite L1; unfold slot; lia). rewrite lset_nth by exact SLT. rewrite Q1. cbn [lr]. rewrite (Nat.eqb_sym k (slot q)). destruct (Nat.eqb_spec (slot q) k) as [_|Nk].
      * rewrite skipn_all2 by (rewrite app_length; cbn [length]; unfold P in *; nia).
        split; [left; reflexivity|]. intros x [<-|[]]. apply flt_irrefl.
      * apply S1. exact Hk.
    + intros _. exact Mk.
  - assert (Er : r <> N.to_nat R) by lia.
    assert (Q1 : length (xs ++ [s]) / P = q) by (rewrite app_length; cbn [length]; symmetry; apply (Nat.div_unique _ _ _ (S r)); unfold P in *; lia).
    assert (Q2 : length (xs ++ [s]) mod P = S r) by (rewrite app_length; cbn [length]; symmetry; apply (Nat.mod_unique _ _ q); unfold P in *; lia).
    cbn [bind]. destruct (PK y1 L1 N1) as (pk & Ek & Mk). rewrite Ek. cbn [bind]. eexists. split; [reflexivity|].
    constructor; cbn [fe_y fe_reset fe_tick fe_i fe_peak]; auto.
    + rewrite Q2, T. unfold P in D2. lia.
    + rewrite Q1. exact Ii.
    + rewrite Q1. exact S1.
Qed.

(** at most [d] slots are hit by [d] resets *)
Lemma lr_skip m k j : j <= m -> (forall i, j <= i < m -> slot i <> k) -> lr m k <= j.
Proof.
  induction m as [|m IH]; intros Hj H; cbn [lr]; [lia|].
  destruct (Nat.eq_dec j (S m)) as [->|N].
  - destruct (Nat.eqb _ _); [lia|]. pose proof (lr_le m k). lia.
  - destruct (Nat.eqb_spec (slot m) k) as [E|_]; [exfalso; apply (H m); lia|]. apply IH; [lia|]. intros i Hi. apply H. lia.
Qed.
Lemma lr_ge m k j : j < m -> slot j = k -> S j <= lr m k.
Proof.
  induction m as [|m IH]; intros Hj E; [lia|]. cbn [lr]. destruct (Nat.eqb_spec (slot m) k) as [_|N]; [lia|].
  apply IH; [|exact E]. destruct (Nat.eq_dec j m) as [->|]; [congruence|lia].
Qed.
Lemma free_slot m d : d < size -> exists k, k < size /\ lr m k <= m - d.
Proof.
  intros Hd. set (l := map (fun q => slot (m - 1 - q)) (seq 0 d)).
  destruct (existsb (fun k => negb (existsb (Nat.eqb k) l)) (seq 0 size)) eqn:E.
  - apply existsb_exists in E. destruct E as (k & Ik & Hk). apply in_seq in Ik. exists k. split; [lia|].
    apply lr_skip; [lia|]. intros i Hi Es. apply negb_true_iff in Hk. assert (X : existsb (Nat.eqb k) l = true); [|congruence].
    apply existsb_exists. exists k. split; [|apply Nat.eqb_refl]. unfold l. apply in_map_iff. exists (m - 1 - i).
    split; [rewrite <- Es; f_equal; lia|]. apply in_seq. lia.
  - exfalso. assert (I : incl (seq 0 size) l).
    { intros k Ik. destruct (existsb (Nat.eqb k) l) eqn:Q.
      - apply existsb_exists in Q. destruct Q as (x & Ix & Ex). apply Nat.eqb_eq in Ex. congruence.
      - exfalso. assert (X : existsb (fun k => negb (existsb (Nat.eqb k) l)) (seq 0 size) = true); [|congruence].
        apply existsb_exists. exists k. split; [exact Ik|]. rewrite Q. reflexivity. }
    pose proof (NoDup_incl_length (seq_NoDup size 0) I) as LL. unfold l in LL. rewrite map_length, !seq_length in LL. lia.
Qed.
Lemma residue a s k : k < s -> exists j, a <= j < a + s /\ j mod s = k.
Proof.
  intros H. exists (a + (k + s - a mod s) mod s).
  pose proof (Nat.mod_upper_bound a s ltac:(lia)). pose proof (Nat.mod_upper_bound (k + s - a mod s) s ltac:(lia)).
  split; [lia|]. rewrite Nat.add_mod_idemp_r by lia.
  pose proof (Nat.div_mod a s ltac:(lia)) as D.
  replace (a + (k + s - a mod s)) with (k + (1 + a / s) * s) by lia. rewrite Nat.mod_add by lia. apply Nat.mod_small. exact H.
Qed.
Lemma slot_small j : (N.of_nat j < 65536)%N -> slot j = j mod size.
Proof. intros H. unfold slot. rewrite (N.mod_small (N.of_nat j) 65536) by exact H. rewrite <- Nat2N.inj_mod. apply Nat2N.id. Qed.
Lemma slot_div j : (65536 mod N.of_nat size = 0)%N -> slot j = j mod size.
Proof.
  intros H. unfold slot. apply N.mod_divides in H; [|lia]. destruct H as [c Hc].
  assert (E : ((N.of_nat j mod 65536) mod N.of_nat size = N.of_nat j mod N.of_nat size)%N).
  { rewrite (N.div_mod (N.of_nat j) 65536) at 2 by lia. rewrite Hc at 2. 
    replace (N.of_nat size * c * (N.of_nat j / 65536) + N.of_nat j mod 65536)%N with (N.of_nat j mod 65536 + (c * (N.of_nat j / 65536)) * N.of_nat size)%N by ring.
    rewrite N.mod_add by lia. reflexivity. }
  rewrite E, <- Nat2N.inj_mod. apply Nat2N.id.
Qed.
Lemma age_exact m k : (N.of_nat m <= 65536)%N \/ (65536 mod N.of_nat size = 0)%N -> k < size -> m - (size - 1) <= lr m k.
Proof.
  intros H Hk. destruct (Nat.lt_ge_cases m size) as [L|L]; [lia|].
  destruct (residue (m - size) size k Hk) as (j & Hj & Ej).
  assert (S j <= lr m k); [|lia]. apply lr_ge; [lia|]. rewrite <- Ej. destruct H as [H|H]; [apply slot_small; lia|apply slot_div; exact H].
Qed.
Lemma age_any m k : k < size -> m - (2 * size - 1) <= lr m k.
Proof.
  intros Hk. destruct (Nat.lt_ge_cases m (2 * size)) as [L|L]; [lia|].
  assert (X : exists B a, (N.of_nat B mod 65536 = 0)%N /\ m - 2 * size <= a /\ a + size <= m /\ B <= a /\ (N.of_nat (a + size) <= N.of_nat B + 65536)%N).
  { set (a := m - 2 * size). set (B := N.to_nat (N.of_nat a / 65536 * 65536)).
    destruct (N.le_gt_cases (N.of_nat (a + size)) (N.of_nat B + 65536)) as [G|G].
    - exists B, a. split; [unfold B; rewrite N2Nat.id; apply N.mod_mul; lia|]. split; [lia|]. split; [unfold a; lia|]. split; [|exact G]. unfold B. lia.
    - exists (N.to_nat (N.of_nat B + 65536)), (N.to_nat (N.of_nat B + 65536)).
      split; [rewrite N2Nat.id; unfold B; rewrite N2Nat.id; replace (N.of_nat a / 65536 * 65536 + 65536)%N with ((N.of_nat a / 65536 + 1) * 65536)%N by lia; apply N.mod_mul; lia|].
      assert ((N.of_nat B <= N.of_nat a)%N) by (unfold B; lia).
      assert ((N.of_nat a < N.of_nat B + 65536)%N) by (unfold B; lia).
      unfold a in *. clearbody B. lia. }
  destruct X as (B & a & HB & A1 & A2 & A3 & A4).
  destruct (residue (a - B) size k Hk) as (u & Hu & Eu).
  assert (S (u + B) <= lr m k); [|lia]. apply lr_ge; [lia|]. rewrite <- Eu. unfold slot.
  assert (E : (N.of_nat (u + B) mod 65536 = N.of_nat u)%N).
  { rewrite Nat2N.inj_add. rewrite N.add_mod, HB, N.add_0_r, N.mod_mod by lia. apply N.mod_small. lia. }
  rewrite E, <- Nat2N.inj_mod. apply Nat2N.id.
Qed.

Lemma fe_out xs e : Forall nn xs -> xs <> [] -> fe_inv xs e ->
  let m := length xs / P in
  flt (fe_peak e) fzero = false /\
  (forall x, In x (skipn ((m - (size - 1)) * P) xs) -> flt (fe_peak e) x = false) /\
  In (fe_peak e) (fzero :: skipn ((m - (2 * size - 1)) * P) xs) /\
  ((N.of_nat m <= 65536)%N \/ (65536 mod N.of_nat size = 0)%N -> is_max (fe_peak e) (fzero :: skipn ((m - (size - 1)) * P) xs)).
Proof.
  intros Hx Ne [L _ _ _ Sl Pk]. cbn zeta. destruct (Pk Ne) as [I U]. clear Pk. set (m := length xs / P) in *. clearbody m.
  assert (NS : forall a, Forall nn (skipn a xs)).
  { intros a. apply Forall_forall. intros x Ix. rewrite Forall_forall in Hx. apply Hx. rewrite <- (firstn_skipn a xs). apply in_or_app. right. exact Ix. }
  assert (Np : nn (fe_peak e)).
  { destruct (In_nth _ _ fzero I) as (k & Hk & Ek). rewrite <- Ek. apply (is_max0_nn _ _ (NS (lr m k * P))). apply Sl. rewrite <- L. exact Hk. }
  assert (GE : forall x, In x (fzero :: skipn ((m - (size - 1)) * P) xs) -> flt (fe_peak e) x = false).
  { intros x Hi. destruct (free_slot m (size - 1) ltac:(lia)) as (k & Hk & Lk). destruct (Sl k Hk) as [S1 S2].
    assert (X : In x (fzero :: skipn (lr m k * P) xs)).
    { destruct Hi as [<-|Hi]; [left; reflexivity|]. right. apply (in_skipn_le _ _ ((m - (size - 1)) * P)); [|exact Hi]. apply Nat.mul_le_mono_r. exact Lk. }
    assert (Nx : nn x).
    { destruct X as [<-|X]; [exact nn_zero|]. pose proof (NS (lr m k * P)) as F. rewrite Forall_forall in F. auto. }
    apply (flt_neg_trans x (nth k (fe_y e) fzero) (fe_peak e) Nx); [| exact Np| |].
    - apply (is_max0_nn _ _ (NS (lr m k * P))). apply Sl. exact Hk.
    - apply S2. exact X.
    - apply U, nth_In. rewrite L. exact Hk. }
  assert (IN : forall a, (forall k, k < size -> a <= lr m k) -> In (fe_peak e) (fzero :: skipn (a * P) xs)).
  { intros a Ha. destruct (In_nth _ _ fzero I) as (k & Hk & Ek). change (k < length (fe_y e)) in Hk. rewrite L in Hk. destruct (Sl k Hk) as [S1 _]. change (nth k (fe_y e) fzero = fe_peak e) in Ek. unfold f32 in *. rewrite Ek in S1.
    destruct S1 as [S1|S1]; [left; exact S1|]. right. apply (in_skipn_le _ _ (lr m k * P)); [|exact S1]. apply Nat.mul_le_mono_r, Ha. exact Hk. }
  split; [apply GE; left; reflexivity|]. split; [intros x Hi; apply GE; right; exact Hi|]. split.
  - apply IN. intros k Hk. apply age_any. exact Hk.
  - intros H. split; [|exact GE]. apply IN. intros k Hk. apply age_exact; assumption.
Qed.
Lemma fe_make_inv hold : (hold mod 65536 = R)%N -> fe_inv [] (fe_make size hold).
Proof.
  intros E. constructor; cbn [fe_make fe_y fe_reset fe_tick fe_i length].
  - apply repeat_length.
  - exact E.
  - rewrite Nat.mod_0_l by (unfold P; lia). reflexivity.
  - rewrite Nat.div_0_l by (unfold P; lia). reflexivity.
  - intros k Hk. rewrite Nat.div_0_l by (unfold P; lia). cbn [lr Nat.mul skipn].
    assert (Z : nth k (repeat (fzero : f32) size) fzero = fzero) by apply nth_repeat.
    change (is_max0 (nth k (repeat (fzero : f32) size) fzero) []). rewrite Z. split; [left; reflexivity|]. intros x [<-|[]]. apply flt_irrefl.
  - intros X. exfalso. apply X. reflexivity.
Qed.
End Fast.
Lemma fe_run_snoc xs : forall p x, fe_run p (xs ++ [x]) = do q <- fe_run p xs ; fe_step q x.
Proof.
  induction xs as [|y xs IH]; intros p x; cbn [app fe_run].
  - cbn [bind]. destruct (fe_step p x); reflexivity.
  - destruct (fe_step p y); cbn [bind]; [apply IH|reflexivity].
Qed.
Lemma fe_run_ok size hold xs : (2 <= N.of_nat size <= 65536)%N -> Forall nn xs ->
  exists e, fe_run (fe_make size hold) xs = Some e /\ fe_inv size (hold mod 65536) xs e.
Proof.
  intros Hs. assert (HR : (hold mod 65536 < 65536)%N) by (apply N.mod_lt; lia).
  induction xs as [|x xs IH] using rev_ind; intros Hx.
  - exists (fe_make size hold). split; [reflexivity|]. apply fe_make_inv; auto.
  - destruct IH as (e & E & I); [apply Forall_app in Hx; tauto|].
    destruct (fe_step_ok size Hs (hold mod 65536)%N HR xs e x Hx I) as (e' & E' & I').
    exists e'. split; [rewrite fe_run_snoc, E; exact E'|exact I'].
Qed.
