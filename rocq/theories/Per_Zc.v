(** The zero-crossing collector on a signal with one pulse per period. *)
From Flocq Require Import Core.Core IEEE754.BinarySingleNaN.
From Verif Require Import Common CommonFacts Float FloatFacts Ring_Model Ring_Spec Ring_Proof DetectF_Proof Zc_Model Zc_Spec Zc_Proof Per_Spec.
Local Open Scope Z_scope.

Lemma wrap_small z : - 2 ^ 31 <= z < 2 ^ 31 -> wrap_int z = z.
Proof. exact (wrap_int_small 0 (fun _ => fzero) z). Qed.
Lemma sub_small z n : - 2 ^ 30 <= z <= 2 ^ 30 -> (n <= 2 ^ 28)%N -> sub_edge z n = z - Z.of_N n.
Proof. exact (sub_edge_small 0 (fun _ => fzero) z n). Qed.

Section Per.
Variable W : Z.
Hypothesis HW : 128 <= W <= 268435456.
Hypothesis HW2 : W mod 2 = 0.
Variables (h : Z -> f32) (hyst : f32) (P a c : Z).
Hypothesis OP : one_pulse h hyst P a c.
Hypothesis HP : 4 <= P.
Hypothesis HPW : 2 * P <= W.
Let H : Z := W / 2.
Lemma HH : 2 * H = W. Proof. unfold H. lia. Qed.

Hypothesis HA : a < H.
Lemma ord : 0 <= a < c /\ c < a + P. Proof. exact (op_order _ _ _ _ _ OP). Qed.
Lemma per m : forall k, a - 1 <= k -> 0 <= m -> h (k + m * P) = h k.
Proof.
  intros k Hk Hm. pattern m. apply natlike_ind; [f_equal; lia| |exact Hm].
  intros x Hx IH. replace (k + Z.succ x * P) with ((k + x * P) + P) by lia. pose proof HP.
  rewrite (op_period _ _ _ _ _ OP) by nia. exact IH.
Qed.
(** between the pulses *)
Lemma gap m k : -1 <= m -> 0 <= k -> (m = -1 \/ c + m * P <= k) -> k < a + (m + 1) * P -> flt fzero (h k) = false.
Proof.
  intros Hm Hk B B2. pose proof ord as O. destruct (Z.eq_dec m (-1)) as [->|N].
  - apply (op_before _ _ _ _ _ OP). lia.
  - destruct B as [B|B]; [lia|]. replace k with ((k - m * P) + m * P) by lia. rewrite per by lia. apply (op_after _ _ _ _ _ OP). lia.
Qed.
Lemma lobe m k : 0 <= m -> a + m * P <= k < c + m * P -> ~ closes hyst (h k).
Proof.
  intros Hm B. pose proof ord as O. replace k with ((k - m * P) + m * P) by lia. rewrite per by lia.
  apply (op_lobe _ _ _ _ _ OP). lia.
Qed.
Lemma rise m : 0 <= m -> flt fzero (h (a + m * P)) = true.
Proof. intros Hm. pose proof ord as O. rewrite per by lia. exact (op_rise _ _ _ _ _ OP). Qed.
Lemma fall m : 0 <= m -> closes hyst (h (c + m * P)).
Proof. intros Hm. pose proof ord as O. rewrite per by lia. exact (op_close _ _ _ _ _ OP). Qed.

(** [up]: how much of the pulse has been seen *)
Record edge_at (o m up : Z) (e : zinfo) : Prop := mkEa
  { ea_lead : zi_lead e = a + m * P - o;
    ea_curr : zi_curr e = h a;
    ea_prev : zi_prev e = h (a - 1);
    ea_pos : flt fzero (zi_peak e) = true;
    ea_max : forall k, a <= k < up -> flt (zi_peak e) (h k) = false }.
Fixpoint train (o m : Z) (E : list zinfo) : Prop :=
  match E with
  | [] => True
  | e :: r => edge_at o m c e /\ zi_trail e = c + m * P - o /\ train o (m - 1) r
  end.
Definition zlen (E : list zinfo) : Z := Z.of_nat (length E).
Definition seen (v : f32) : Prop := v = fzero \/ exists k, 0 <= k /\ flt fzero (h k) = true /\ v = h k.

(** completed and open pulses *)
Definition shape (st : bool) (o n m : Z) (E : list zinfo) : Prop :=
  if st then exists e r, E = e :: r /\ edge_at o m (n - m * P) e /\ train o (m - 1) r /\ a + m * P < n <= c + m * P
  else train o m E /\ (m = -1 \/ c + m * P < n) /\ n <= a + (m + 1) * P.
Definition low (o m : Z) (E : list zinfo) : Prop :=
  0 <= o /\ 0 <= m - zlen E + 1 /\ (m - zlen E + 1 = 0 \/ c + (m - zlen E) * P - o < 0) /\ 0 <= c + (m - zlen E + 1) * P - o.
Record perinv (n : Z) (z : zc) (m : Z) (E J : list zinfo) : Prop := mkPer
  { pi_ring : ring_rel (z_info z) (E ++ J);
    pi_num : z_num z = N.of_nat (length E);
    pi_win : Z.of_N (z_win z) = W;
    pi_hyst : z_hyst z = hyst;
    pi_prev : z_prev z = h (n - 1);
    pi_cap : H <= Z.of_N (zc_capacity z);
    pi_pk : seen (z_peak z) /\ seen (z_peak_update z);
    pi_lead : E <> [] -> a + m * P - (n - zc_now z) < W;
    pi_low : low (n - zc_now z) m E;
    pi_shape : shape (z_state z) (n - zc_now z) n m E;
    pi_frame : if z_ready z then z_state z = false /\ W <= zc_now z < W + P /\ (2 <= length E)%nat
               else Z.of_N (z_frame z) < W \/ z_state z = true }.

Lemma train_shift E : forall o m, train o m E -> train (o + H) m (map (shifted H) E).
Proof.
  induction E as [|e r IH]; intros o m T; cbn [map train] in *; [exact I|]. destruct T as ([A1 A2 A3 A4 A5] & A6 & T).
  split; [constructor; cbn [shifted zi_lead zi_curr zi_prev zi_peak]; auto; lia|].
  split; [cbn [shifted zi_trail]; lia|apply IH; exact T].
Qed.
Lemma train_app E1 E2 : forall o m, train o m (E1 ++ E2) -> train o m E1 /\ train o (m - zlen E1) E2.
Proof.
  induction E1 as [|e r IH]; intros o m T; cbn [app train] in *.
  - split; [exact I|]. unfold zlen. cbn [length]. replace (m - Z.of_nat 0) with m by lia. exact T.
  - destruct T as (A1 & A2 & T). destruct (IH _ _ T) as [B1 B2]. split; [auto|].
    unfold zlen in *. cbn [length]. replace (m - Z.of_nat (S (length r))) with (m - 1 - Z.of_nat (length r)) by lia. exact B2.
Qed.
(** positions within the window *)
Lemma train_in E : forall o m e, train o m E -> In e E -> exists j, 0 <= j < zlen E /\ edge_at o (m - j) c e /\ zi_trail e = c + (m - j) * P - o.
Proof.
  induction E as [|g t IH]; intros o m e T []; cbn [train] in T; destruct T as (A1 & A2 & T).
  - subst g. exists 0. unfold zlen. cbn [length]. rewrite Z.sub_0_r. split; [lia|auto].
  - destruct (IH _ _ _ T H0) as (j & Hj & B1 & B2). exists (j + 1). unfold zlen in *. cbn [length].
    replace (m - (j + 1)) with (m - 1 - j) by lia. split; [lia|auto].
Qed.

(** the loop of shift() *)
Lemma loop_train fuel : forall r Q E J o m,
  ring_rel r (Q ++ E ++ J) -> train o m E -> (forall e, In e E -> - 2 ^ 30 <= zi_lead e <= 2 ^ 30 /\ - 2 ^ 30 <= zi_trail e <= 2 ^ 30) -> (length E <= fuel)%nat ->
  exists r' E1 E2 J', E = E1 ++ E2 /\
    shift_loop fuel r (N.of_nat (length Q)) (N.of_nat (length Q + length E)) (Z.to_N H) =
      Some (r', N.of_nat (length Q + length E1)) /\
    Forall (fun e => 0 <= zi_trail e - H) E1 /\
    ring_rel r' (Q ++ map (shifted H) E1 ++ J') /\
    (E2 = [] \/ exists e t, E2 = e :: t /\ zi_trail e - H < 0).
Proof.
  pose proof HH as HH'.
  induction fuel as [|f IH]; intros r Q E J o m R C T L.
  - destruct E as [|e E]; [|cbn [length] in L; lia]. exists r, [], [], J. split; [reflexivity|].
    cbn [shift_loop length]. rewrite Nat.add_0_r, N.eqb_refl. split; [reflexivity|]. split; [constructor|].
    split; [exact R|left; reflexivity].
  - destruct E as [|e E].
    + exists r, [], [], J. split; [reflexivity|].
      cbn [shift_loop length]. rewrite Nat.add_0_r, N.eqb_refl. split; [reflexivity|]. split; [constructor|].
      split; [exact R|left; reflexivity].
    + cbn [shift_loop]. destruct (N.eqb_spec (N.of_nat (length Q)) (N.of_nat (length Q + length (e :: E)))) as [X|_]; [cbn [length] in X; lia|].
      cbn [app] in R. rewrite (app_get r Q e (E ++ J) R). cbn [bind].
      destruct (T e (or_introl eq_refl)) as [B1 B2].
      rewrite !sub_small by (try (change (2 ^ 30) with 1073741824 in *; lia); change (2 ^ 28)%N with 268435456%N; lia).
      rewrite Z2N.id by lia. change (mkInfo _ _ _ _ _ _) with (shifted H e).
      destruct (app_put zinfo0 r Q e (E ++ J) (shifted H e) R) as (r1 & E1 & R1). rewrite E1. cbn [bind].
      destruct (Z.ltb_spec (zi_trail e - H) 0) as [N|N].
      * exists r1, [], (e :: E), (shifted H e :: E ++ J). split; [reflexivity|]. cbn [length]. rewrite Nat.add_0_r. split; [reflexivity|]. split; [constructor|].
        split; [exact R1|right; exists e, E; auto].
      * cbn [train] in C. destruct C as (_ & _ & C).
        destruct (IH r1 (Q ++ [shifted H e]) E J o (m - 1)) as (r' & E2 & E3 & J' & Q1 & Q2 & Q3 & Q4 & Q5).
        { rewrite <- app_assoc. exact R1. }
        { exact C. }
        { intros g G. apply T. right. exact G. }
        { cbn [length] in L. lia. }
        exists r', (e :: E2), E3, J'. split; [cbn [app]; rewrite Q1 at 1; reflexivity|]. rewrite app_length in Q2. cbn [length] in Q2 |- *.
        replace (N.of_nat (length Q) + 1)%N with (N.of_nat (length Q + 1)) by lia.
        replace (length Q + S (length E))%nat with (length Q + 1 + length E)%nat by lia.
        replace (length Q + S (length E2))%nat with (length Q + 1 + length E2)%nat by lia.
        split; [exact Q2|]. split; [constructor; [lia|exact Q3]|]. split; [|exact Q5].
        rewrite <- app_assoc in Q4. exact Q4.
Qed.

(** the number of pulses is far below the capacity *)
Lemma few o n m E st : low o m E -> (E <> [] -> a + m * P - o < W) -> shape st o n m E -> 4 * zlen E <= W + 12.
Proof.
  intros (L1 & L2 & L3 & L4) B S. destruct E as [|e r]; [unfold zlen; cbn [length]; lia|].
  specialize (B ltac:(discriminate)). pose proof ord as O. set (l := zlen (e :: r)) in *.
  assert (X : (l - 2) * P < W).
  { replace ((l - 2) * P) with (a + m * P - o - (c + (m - l + 1) * P - o) + (c - a) - P) by lia. lia. }
  destruct (Z_le_gt_dec l 2) as [G|G]; [lia|]. assert ((l - 2) * 4 <= (l - 2) * P) by (apply Z.mul_le_mono_nonneg_l; lia). lia.
Qed.
Lemma zlen_nat E : zlen E = Z.of_nat (length E). Proof. reflexivity. Qed.

(** the opening of update_state *)
Lemma begin_per n z m E J : perinv n z m E J -> exists z' E' J', zc_begin z = Some z' /\ perinv n z' m E' J' /\ z_ready z' = false /\ z_frame z' = z_frame z.
Proof.
  intros I. pose proof HH as HH'. pose proof ord as O. destruct (z_ready z) eqn:Rd.
  - destruct I as [R Nm Hw Hy Hp Cp (K1 & K2) Ld Lo Sh Fr]. rewrite Rd in Fr. destruct Fr as (St & F1 & L2).
    rewrite St in Sh. destruct Sh as (T & Tm & Tn).
    assert (Now : zc_now z = Z.of_N (z_frame z) + H).
    { unfold zc_now. rewrite Rd. f_equal. rewrite N2Z.inj_div, Hw. reflexivity. }
    set (o := n - zc_now z) in *.
    assert (Hn2 : (z_win z / 2)%N = Z.to_N H) by (apply N2Z.inj; rewrite N2Z.inj_div, Hw, Z2N.id by lia; reflexivity).
    destruct E as [|e0 E]; [cbn [length] in L2; lia|]. specialize (Ld ltac:(discriminate)).
    destruct Lo as (Lo1 & Lo2 & Lo3 & Lo4).
    assert (Bd : forall e, In e (e0 :: E) -> - 2 ^ 30 <= zi_lead e <= 2 ^ 30 /\ - 2 ^ 30 <= zi_trail e <= 2 ^ 30).
    { intros e He. destruct (train_in _ _ _ _ T He) as (j & Hj & [A1 _ _ _ _] & A2). change (2 ^ 30) with 1073741824. rewrite A1, A2.
      assert (J1 : 0 <= j * P) by nia. assert (J2 : (m - zlen (e0 :: E) + 1) * P <= (m - j) * P) by (apply Z.mul_le_mono_nonneg_r; lia).
      replace ((m - j) * P) with (m * P - j * P) in * by lia. lia. }
    cbn [train] in T. destruct T as (A0 & A1 & T).
    unfold zc_begin. rewrite Rd. unfold zc_shift. rewrite Hn2. change 0%N with (N.of_nat (length (@nil zinfo))).
    rewrite (app_get (z_info z) [] e0 (E ++ J) R). cbn [bind]. rewrite St.
    destruct (Bd e0 (or_introl eq_refl)) as [B1 B2].
    rewrite !sub_small by (try (change (2 ^ 30) with 1073741824 in *; lia); change (2 ^ 28)%N with 268435456%N; lia).
    rewrite Z2N.id by lia. change (mkInfo _ _ _ _ _ _) with (shifted H e0).
    destruct (app_put zinfo0 (z_info z) [] e0 (E ++ J) (shifted H e0) R) as (r1 & E1 & R1). rewrite E1. cbn [bind].
    cbn [length] in L2.
    destruct (loop_train (N.to_nat (z_num z)) r1 [shifted H e0] E J o (m - 1) R1 T) as (r' & E2 & E3 & J' & Q1 & Q2 & Q3 & R' & Q5).
    { intros e He. apply Bd. right. exact He. }
    { rewrite Nm. cbn [length]. lia. }
    rewrite Nm in Q2 |- *. change (N.of_nat (length [shifted H e0])) with 1%N in Q2.
    change (length [shifted H e0] + length E)%nat with (length (e0 :: E)) in Q2. rewrite Q2. cbn [bind fst snd].
    set (z1 := mkZc _ _ _ _ _ _ _ _ _ _).
    assert (Cz : zc_capacity z1 = N.of_nat (length (shifted H e0 :: map (shifted H) E2) + length J')) by (apply cap_len; exact R').
    assert (Cc : zc_capacity z1 = zc_capacity z).
    { unfold z1, zc_capacity. cbn [z_info]. rewrite (loop_size _ _ _ _ _ _ Q2 : rb_size r' = rb_size r1), (put_size _ _ _ _ E1). reflexivity. }
    assert (Lsum : (length E = length E2 + length E3)%nat) by (rewrite Q1, app_length; reflexivity).
    assert (Lz : zlen (shifted H e0 :: map (shifted H) E2) = 1 + zlen E2) by (unfold zlen; cbn [length]; rewrite map_length; lia).
    rewrite Q1 in T. destruct (train_app _ _ _ _ T) as [T2 T3].
    assert (N1 : zc_now z1 = Z.of_N (z_frame z)) by (unfold zc_now, z1; cbn [z_ready z_frame]; lia).
    assert (No : n - zc_now z1 = o + H) by (unfold o; rewrite N1, Now; lia).
    assert (Z1 : zlen (e0 :: E) = 1 + zlen E2 + zlen E3) by (unfold zlen; cbn [length]; lia).
    assert (I1 : perinv n z1 m (shifted H e0 :: map (shifted H) E2) J').
    { constructor; try rewrite No.
      - exact R'.
      - cbn [z1 z_num]. rewrite app_length || idtac. cbn [length]. rewrite map_length. reflexivity.
      - exact Hw.
      - exact Hy.
      - exact Hp.
      - rewrite Cc. exact Cp.
      - cbn [z1 z_peak z_peak_update]. split; [exact K2|left; reflexivity].
      - intros _. lia.
      - unfold low. rewrite Lz. split; [lia|]. assert (0 <= zlen E3) by (unfold zlen; lia). split; [lia|]. split.
        + destruct Q5 as [->|(e & t & -> & Ne)].
          * unfold zlen in Z1 at 3. cbn [length] in Z1. replace (1 + zlen E2) with (zlen (e0 :: E)) by lia. destruct Lo3 as [X|X]; [left; exact X|right; lia].
          * cbn [train] in T3. destruct T3 as (_ & X & _). rewrite X in Ne. right. replace (m - (1 + zlen E2)) with (m - 1 - zlen E2) by lia. lia.
        + destruct E2 as [|e2 E2'] using rev_ind.
          * unfold zlen. cbn [length]. replace (m - (1 + Z.of_nat 0) + 1) with m by lia. unfold o in Tn |- *. lia.
          * clear IHE2'. apply Forall_app in Q3. destruct Q3 as [_ Q3]. inversion Q3 as [|x y Q3a _]. subst x y.
            destruct (train_app _ _ _ _ T2) as [_ T4]. cbn [train] in T4. destruct T4 as (_ & X & _). rewrite X in Q3a.
            unfold zlen in *. rewrite app_length in *. cbn [length] in *.
            replace (m - (1 + Z.of_nat (length E2' + 1)) + 1) with (m - 1 - Z.of_nat (length E2')) by lia. lia.
      - cbn [z1 z_state]. rewrite ?St. split; [|split; [exact Tm|exact Tn]].
        change (shifted H e0 :: map (shifted H) E2) with (map (shifted H) (e0 :: E2)). apply train_shift. cbn [train]. auto.
      - cbn [z1 z_ready z_frame]. left. lia. }
    assert (F4 : 4 * zlen (shifted H e0 :: map (shifted H) E2) <= W + 12).
    { apply (few (n - zc_now z1) n m _ (z_state z1)); [apply (pi_low _ _ _ _ _ I1)|apply (pi_lead _ _ _ _ _ I1)|apply (pi_shape _ _ _ _ _ I1)]. }
    assert (G : (zc_capacity z1 <=? z_num z1)%N = false).
    { apply N.leb_gt. rewrite (pi_num _ _ _ _ _ I1). pose proof (pi_cap _ _ _ _ _ I1). unfold zlen in F4. lia. }
    unfold z1 at 1 in G. change ((zc_capacity z1 <=? z_num z1)%N = false) in G. fold z1. rewrite G.
    exists z1, (shifted H e0 :: map (shifted H) E2), J'. split; [reflexivity|]. split; [exact I1|]. split; reflexivity.
  - exists z, E, J. split; [|auto]. unfold zc_begin. rewrite Rd. cbn [bind].
    assert (F4 : 4 * zlen E <= W + 12).
    { apply (few (n - zc_now z) n m _ (z_state z)); [apply (pi_low _ _ _ _ _ I)|apply (pi_lead _ _ _ _ _ I)|apply (pi_shape _ _ _ _ _ I)]. }
    assert (G : (zc_capacity z <=? z_num z)%N = false).
    { apply N.leb_gt. rewrite (pi_num _ _ _ _ _ I). pose proof (pi_cap _ _ _ _ _ I). unfold zlen in F4. lia. }
    rewrite G. reflexivity.
Qed.

Lemma flt_irrefl (x : f32) : flt x x = false.
Proof. destruct (flt_asym x x) as [Q|Q]; exact Q. Qed.
Lemma nan_cmp (x y : f32) : is_nan y = true -> flt x y = false.
Proof. destruct y; try discriminate. intros _. apply flt_nan_r. Qed.
Lemma edge_grow o m up e frame : edge_at o m up e -> flt fzero (h up) = true -> edge_at o m (up + 1) (update_peak e (h up) frame).
Proof.
  intros [A1 A2 A3 A4 A5] Hs. constructor; cbn [update_peak zi_lead zi_curr zi_prev zi_peak]; auto.
  - unfold fmax. destruct (flt (h up) (zi_peak e)); assumption.
  - intros k Hk. unfold fmax. destruct (flt (h up) (zi_peak e)) eqn:L.
    + destruct (Z.eq_dec k up) as [->|N]; [|apply A5; lia]. destruct (flt_asym (h up) (zi_peak e)) as [Q|Q]; [exact Q|congruence].
    + destruct (Z.eq_dec k up) as [->|N]; [apply flt_irrefl|]. specialize (A5 k ltac:(lia)).
      destruct (is_nan (h k)) eqn:Nn; [apply nan_cmp; exact Nn|].
      apply (flt_neg_trans (h k) (zi_peak e) (h up)); auto using pos_not_nan.
Qed.
Lemma edge_keep o m up e : edge_at o m up e -> flt fzero (h up) = false -> edge_at o m (up + 1) e.
Proof.
  intros [A1 A2 A3 A4 A5] Hs. constructor; auto. intros k Hk. destruct (Z.eq_dec k up) as [->|N]; [|apply A5; lia].
  apply max_pos; assumption.
Qed.
Lemma edge_up o m up up' e : up = up' -> edge_at o m up e -> edge_at o m up' e.
Proof. intros ->. auto. Qed.

(** the edge logic *)
Lemma edge_per n z m E J : 0 <= n -> perinv n z m E J -> z_ready z = false ->
  let o := n - Z.of_N (z_frame z) in
  exists z' m' E' J', zc_edge z (h n) = Some z' /\ ring_rel (z_info z') (E' ++ J') /\ z_num z' = N.of_nat (length E') /\
    z_win z' = z_win z /\ z_hyst z' = z_hyst z /\ z_frame z' = z_frame z /\ z_ready z' = false /\ seen (z_peak z') /\ seen (z_peak_update z') /\
    shape (z_state z') o (n + 1) m' E' /\ low o m' E' /\ (E' <> [] -> a + m' * P - o < W) /\ 0 <= Z.of_N (z_frame z) < W + P /\
    (z_state z' = true -> Z.of_N (z_frame z) + 1 < W + P).
Proof.
  intros Hn [R Nm Hw Hy Hp Cp (K1 & K2) Ld Lo Sh Fr] Rd. cbv zeta. pose proof ord as O. pose proof HH as HH'.
  rewrite Rd in Fr. assert (Now : zc_now z = Z.of_N (z_frame z)) by (unfold zc_now; rewrite Rd; lia).
  rewrite Now in Ld, Lo, Sh. set (f := Z.of_N (z_frame z)) in *. set (o := n - f) in *.
  assert (F0 : 0 <= f) by (unfold f; lia). destruct Lo as (Lo1 & Lo2 & Lo3 & Lo4).
  assert (Lz : 0 <= zlen E) by (unfold zlen; lia).
  destruct (z_state z) eqn:St.
  - (* inside a pulse *)
    destruct Sh as (e & r & -> & Ea & T & B). specialize (Ld ltac:(discriminate)).
    assert (Hm : 0 <= m) by (unfold zlen in *; cbn [length] in *; lia).
    assert (FB : f < W + P - 1) by (unfold o in *; lia).
    destruct (Z.eq_dec n (c + m * P)) as [En|Nn].
    + (* the pulse ends *)
      assert (Cl : closes hyst (h n)) by (rewrite En; apply fall; exact Hm). destruct Cl as [C1 C2].
      unfold zc_edge. rewrite C1, St, Hy, C2. cbn [andb].
      change 0%N with (N.of_nat (length (@nil zinfo))). rewrite (app_get (z_info z) [] e (r ++ J) R). cbn [bind].
      rewrite wrap_small by (change (2 ^ 31) with 2147483648; fold f; lia). fold f.
      match goal with |- context [rb_put _ _ ?v] => destruct (app_put zinfo0 (z_info z) [] e (r ++ J) v R) as (r1 & E1 & R1) end.
      rewrite E1. cbn [bind]. eexists _, m, (_ :: r), J. split; [reflexivity|].
      cbn [z_info z_num z_win z_hyst z_frame z_ready z_peak z_peak_update z_state].
      split; [exact R1|]. split; [rewrite Nm; reflexivity|]. split; [reflexivity|]. split; [reflexivity|]. split; [reflexivity|]. split; [exact Rd|].
      split; [destruct (feq (z_peak z) fzero); assumption|]. split; [exact K2|]. split.
      { split; [|split; [right; lia|lia]]. cbn [train]. split; [|split; [cbn [zi_trail]; unfold o; lia|exact T]].
        replace (n - m * P) with c in Ea by lia. destruct Ea as [A1 A2 A3 A4 A5]. constructor; cbn [zi_lead zi_curr zi_prev zi_peak]; auto. }
      split; [unfold low, zlen in *; cbn [length] in *; auto|]. split; [auto|]. split; [lia|discriminate].
    + assert (NC : ~ closes hyst (h n)) by (apply (lobe m); lia).
      assert (Eu : h (n - m * P) = h n) by (rewrite <- (per m (n - m * P)) by lia; f_equal; lia).
      unfold zc_edge. destruct (flt fzero (h n)) eqn:Hs.
      * (* higher or not *)
        rewrite St. change 0%N with (N.of_nat (length (@nil zinfo))). rewrite (app_get (z_info z) [] e (r ++ J) R). cbn [bind].
        destruct (app_put zinfo0 (z_info z) [] e (r ++ J) (update_peak e (h n) (z_frame z)) R) as (r1 & E1 & R1). rewrite E1. cbn [bind].
        assert (Ea' : edge_at o m (n + 1 - m * P) (update_peak e (h n) (z_frame z))).
        { rewrite <- Eu. apply (edge_up o m (n - m * P + 1)); [lia|]. apply edge_grow; [exact Ea|rewrite Eu; exact Hs]. }
        assert (Sh' : shape true o (n + 1) m (update_peak e (h n) (z_frame z) :: r)).
        { exists (update_peak e (h n) (z_frame z)), r. split; [reflexivity|]. split; [exact Ea'|]. split; [exact T|lia]. }
        assert (Sn : seen (h n)) by (right; exists n; auto).
        eexists _, m, (_ :: r), J. split; [reflexivity|].
        match goal with |- context [if flt (z_peak_update ?q) (h n) then _ else _] => destruct (flt (z_peak_update q) (h n)) end; cbn [z_info z_num z_win z_hyst z_frame z_ready z_peak z_peak_update z_state];
          (split; [exact R1|]); (split; [rewrite Nm; reflexivity|]); (split; [reflexivity|]); (split; [reflexivity|]); (split; [reflexivity|]); (split; [exact Rd|]);
          (split; [exact K1|]); (split; [assumption|]); rewrite ?St; (split; [exact Sh'|]);
          (split; [unfold low, zlen in *; cbn [length] in *; auto|]); (split; [auto|]); (split; [lia|intros _; unfold o in *; lia]).
      * assert (Hh : flt (h n) hyst = false). { destruct (flt (h n) hyst) eqn:Q; [exfalso; apply NC; split; assumption|reflexivity]. }
        rewrite St, Hy, Hh. cbn [andb]. exists z, m, (e :: r), J. split; [reflexivity|].
        split; [exact R|]. split; [exact Nm|]. split; [reflexivity|]. split; [exact Hy|]. split; [reflexivity|]. split; [exact Rd|].
        split; [exact K1|]. split; [exact K2|]. rewrite St. split.
        { exists e, r. split; [reflexivity|]. split; [apply (edge_up o m (n - m * P + 1)); [lia|]; apply edge_keep; [exact Ea|rewrite Eu; exact Hs]|]. split; [exact T|lia]. }
        split; [unfold low; auto|]. split; [auto|]. split; [lia|]. intros _. unfold o in *. lia.
  - (* between pulses *)
    destruct Sh as (T & Tm & Tn). assert (FB : f < W) by (destruct Fr as [X|X]; [exact X|discriminate X]).
    assert (Hm : -1 <= m) by lia.
    destruct (Z.eq_dec n (a + (m + 1) * P)) as [En|Nn].
    + (* a pulse begins *)
      assert (Hs : flt fzero (h n) = true) by (rewrite En; apply rise; lia).
      unfold zc_edge. rewrite Hs, St.
      assert (F4 : 4 * zlen E <= W + 12).
      { apply (few o n m _ false); [unfold low; auto|exact Ld|unfold shape; auto]. }
      assert (Cap : zc_capacity z = N.of_nat (length E + length J)) by (apply cap_len; exact R).
      assert (G : (z_num z <? zc_capacity z)%N = true) by (apply N.ltb_lt; rewrite Nm; unfold zlen in F4; lia).
      rewrite G. assert (HJ : J <> []). { intros ->. apply N.ltb_lt in G. rewrite Cap, Nm in G. cbn [length] in G. lia. }
      destruct (app_push (A:=zinfo) zinfo0 (z_info z) E J (mkInfo (z_prev z) (h n) (h n) (wrap_int (Z.of_N (z_frame z))) undefined_edge fzero) R HJ)
        as (r' & J' & E1 & R1 & LJ). rewrite E1. cbn [bind]. rewrite wrap_small in R1 by (change (2 ^ 31) with 2147483648; fold f; lia). fold f in R1.
      set (e := mkInfo (z_prev z) (h n) (h n) f undefined_edge fzero) in *.
      assert (Sh' : shape true o (n + 1) (m + 1) (e :: E)).
      { exists e, E. split; [reflexivity|]. split.
        - constructor; cbn [e zi_lead zi_curr zi_prev zi_peak].
          + unfold o. lia.
          + rewrite En. apply per; lia.
          + rewrite Hp, En. replace (a + (m + 1) * P - 1) with ((a - 1) + (m + 1) * P) by lia. apply per; lia.
          + exact Hs.
          + intros k Hk. replace k with (n - (m + 1) * P) by lia. rewrite <- (per (m + 1) (n - (m + 1) * P)) by lia.
            replace (n - (m + 1) * P + (m + 1) * P) with n by lia. apply flt_irrefl.
        - replace (m + 1 - 1) with m by lia. split; [exact T|lia]. }
      assert (Sn : seen (h n)) by (right; exists n; auto).
      assert (Lz' : zlen (e :: E) = zlen E + 1) by (unfold zlen; cbn [length]; lia).
      eexists _, (m + 1), (e :: E), J'. split; [reflexivity|].
      match goal with |- context [if flt (z_peak_update ?q) (h n) then _ else _] => destruct (flt (z_peak_update q) (h n)) end; cbn [z_info z_num z_win z_hyst z_frame z_ready z_peak z_peak_update z_state];
        (split; [exact R1|]); (split; [cbn [length]; lia|]); (split; [reflexivity|]); (split; [reflexivity|]); (split; [reflexivity|]); (split; [exact Rd|]);
        (split; [exact K1|]); (split; [assumption|]); (split; [exact Sh'|]);
        (split; [unfold low; rewrite Lz'; replace (m + 1 - (zlen E + 1)) with (m - zlen E) by lia; auto|]);
        (split; [intros _; unfold o in *; lia|]); (split; [lia|intros _; lia]).
    + (* nothing *)
      assert (Hs : flt fzero (h n) = false).
      { apply (gap m); [exact Hm|exact Hn| |lia]. destruct Tm as [X|X]; [left; exact X|right; lia]. }
      unfold zc_edge. rewrite Hs, St. cbn [andb]. exists z, m, E, J. split; [reflexivity|].
      split; [exact R|]. split; [exact Nm|]. split; [reflexivity|]. split; [reflexivity|]. split; [reflexivity|]. split; [exact Rd|].
      split; [exact K1|]. split; [exact K2|]. rewrite St. split; [split; [exact T|split; [destruct Tm as [X|X]; [left; exact X|right; lia]|lia]]|].
      split; [unfold low; auto|]. split; [auto|]. split; [lia|discriminate].
Qed.

Lemma step_per n z m E J s : 0 <= n -> fadd s (fdiv hyst (mk32 2 0)) = h n -> perinv n z m E J ->
  exists z' m' E' J', zc_step z s = Some z' /\ perinv (n + 1) z' m' E' J' /\
    (z_ready z' = false -> z_frame z' = (z_frame z + 1)%N) /\ z_frame z' <> 0%N /\ zc_now z' = Z.of_N (z_frame z) + 1.
Proof.
  intros Hn Es I. pose proof HH as HH'. pose proof ord as O.
  assert (F4 : 4 * zlen E <= W + 12).
  { apply (few (n - zc_now z) n m _ (z_state z)); [apply (pi_low _ _ _ _ _ I)|apply (pi_lead _ _ _ _ _ I)|apply (pi_shape _ _ _ _ _ I)]. }
  assert (G : (zc_capacity z <=? z_num z)%N = false).
  { apply N.leb_gt. rewrite (pi_num _ _ _ _ _ I). pose proof (pi_cap _ _ _ _ _ I). unfold zlen in F4. lia. }
  assert (Wh : Z.of_N (z_win z / 2) = H) by (rewrite N2Z.inj_div, (pi_win _ _ _ _ _ I); reflexivity).
  assert (G2 : ((z_frame z =? z_win z / 2) && (z_num z =? 0))%N%bool = false).
  { destruct (N.eqb_spec (z_num z) 0) as [Q|Q]; [|apply andb_false_r]. rewrite andb_true_r. apply N.eqb_neq. intros Q2.
    rewrite (pi_num _ _ _ _ _ I) in Q. assert (L0 : zlen E = 0) by (unfold zlen; lia).
    pose proof (pi_frame _ _ _ _ _ I) as Fr. destruct (z_ready z) eqn:Rd; [unfold zlen in L0; lia|].
    assert (Now : zc_now z = Z.of_N (z_frame z)) by (unfold zc_now; rewrite Rd; lia).
    assert (Nh : zc_now z = H) by (rewrite Now, Q2; exact Wh).
    pose proof (pi_low _ _ _ _ _ I) as (Lo1 & Lo2 & Lo3 & Lo4). pose proof (pi_shape _ _ _ _ _ I) as Sh. rewrite Nh in *. rewrite L0 in *. destruct (z_state z).
    - destruct Sh as (e & r & -> & _). unfold zlen in L0. cbn [length] in L0. lia.
    - destruct Sh as (_ & _ & Tn). destruct Lo3 as [X|X].
      + replace m with (-1) in * by lia. lia.
      + replace (m - 0) with m in X by lia. lia. }
  unfold zc_step. rewrite (pi_hyst _ _ _ _ _ I), Es, G. cbv zeta. rewrite G2. unfold zc_update.
  destruct (begin_per n z m E J I) as (z1 & E1 & J1 & B1 & I1 & Rd1 & Fz1). rewrite B1. cbn [bind].
  destruct (edge_per n z1 m E1 J1 Hn I1 Rd1) as (z2 & m2 & E2 & J2 & B2 & R2 & N2 & W2 & Hy2 & Fr2 & Rd2 & K1 & K2 & Sh2 & Lo2 & Ld2 & FB & FB2).
  rewrite B2. cbn [bind]. set (o := n - Z.of_N (z_frame z1)) in *.
  assert (Ww : Z.of_N (z_win z2) = W) by (rewrite W2; exact (pi_win _ _ _ _ _ I1)).
  assert (Cp2 : H <= Z.of_N (zc_capacity z2)) by (rewrite (edge_cap _ _ _ B2); exact (pi_cap _ _ _ _ _ I1)).
  assert (G3 : (z_win z2 * 2 <? z_frame z2)%N = false) by (apply N.ltb_ge; rewrite Fr2; lia).
  rewrite G3. cbn [z_frame z_win z_state z_num z_ready].
  assert (Fa : add64 (z_frame z2) 1 = (z_frame z2 + 1)%N).
  { unfold add64, wrap64. apply N.mod_small. unfold W64. change (2 ^ 64)%N with 18446744073709551616%N. rewrite Fr2. lia. }
  rewrite Fa. assert (Wh2 : Z.of_N (z_win z2 / 2) = H) by (rewrite N2Z.inj_div, Ww; reflexivity).
  assert (Oo : n + 1 - (Z.of_N (z_frame z2) + 1) = o) by (unfold o; rewrite Fr2; lia).
  assert (HyF : z_hyst z2 = hyst) by (rewrite Hy2; exact (pi_hyst _ _ _ _ _ I1)).
  assert (Pv : h n = h (n + 1 - 1)) by (f_equal; lia).
  destruct (z_win z2 <=? z_frame z2 + 1)%N eqn:L; cbn [andb].
  - apply N.leb_le in L. destruct (z_state z2) eqn:St; cbn [negb].
    + eexists _, m2, E2, J2. split; [reflexivity|].
      split; [|cbn [with_frame z_ready z_frame]; split; [intros Xr; try discriminate Xr; rewrite Fr2, Fz1; reflexivity|]; split; [lia|unfold zc_now; cbn [with_frame z_ready z_frame z_win]; rewrite ?Rd2; lia]].
      constructor; cbn [with_frame z_info z_num z_win z_ready z_state z_frame z_hyst z_prev z_peak z_peak_update]; auto;
        unfold zc_now; cbn [with_frame z_ready z_frame z_win]; rewrite ?Rd2, ?St;
        try (replace (n + 1 - (Z.of_N (z_frame z2 + 1) + 0)) with o by lia; assumption).
      right. reflexivity.
    + assert (Two : (2 <= length E2)%nat).
      { destruct Lo2 as (X1 & X2 & X3 & X4). destruct Sh2 as (T & Tm & Tn). rewrite Fr2 in L.
        destruct (le_lt_dec 2 (length E2)) as [Y|Y]; [exact Y|exfalso]. assert (Y' : zlen E2 <= 1) by (unfold zlen; lia).
        assert (o + W <= n + 1) by (unfold o; lia). destruct X3 as [X3|X3].
        - assert ((m2 + 1) * P <= 1 * P) by (apply Z.mul_le_mono_nonneg_r; lia). lia.
        - assert ((m2 - 1) * P <= (m2 - zlen E2) * P) by (apply Z.mul_le_mono_nonneg_r; lia). lia. }
      assert (G4 : (1 <? z_num z2)%N = true) by (apply N.ltb_lt; lia). rewrite G4.
      eexists _, m2, E2, J2. split; [reflexivity|].
      assert (Nw : Z.of_N (z_frame z2 + 1 - z_win z2 / 2) + Z.of_N (z_win z2 / 2) = Z.of_N (z_frame z2) + 1) by lia.
      split; [|cbn [with_frame z_ready z_frame]; split; [intros Xr; discriminate Xr|]; split; [lia|unfold zc_now; cbn [with_frame z_ready z_frame z_win]; rewrite Nw; lia]].
      constructor; cbn [with_frame z_info z_num z_win z_ready z_state z_frame z_hyst z_prev z_peak z_peak_update]; auto;
        unfold zc_now; cbn [with_frame z_ready z_frame z_win]; rewrite ?Nw, ?Oo, ?St; try assumption.
      split; [reflexivity|]. split; [|exact Two].
      split; [lia|]. rewrite Fr2. destruct (z_state z1) eqn:St1.
      * pose proof (pi_shape _ _ _ _ _ I1) as Sh1. rewrite St1 in Sh1. unfold zc_now in Sh1. rewrite Rd1, Z.add_0_r in Sh1. fold o in Sh1.
        pose proof (pi_lead _ _ _ _ _ I1) as Ld1. unfold zc_now in Ld1. rewrite Rd1, Z.add_0_r in Ld1. fold o in Ld1.
        destruct Sh1 as (e & r & -> & _ & _ & X). specialize (Ld1 ltac:(discriminate)). unfold o in *. lia.
      * pose proof (pi_frame _ _ _ _ _ I1) as Fr1. rewrite Rd1, St1 in Fr1. destruct Fr1 as [X|X]; [lia|discriminate].
  - apply N.leb_gt in L. eexists _, m2, E2, J2. split; [reflexivity|].
    split; [|cbn [with_frame z_ready z_frame]; split; [intros Xr; rewrite Fr2, Fz1; reflexivity|]; split; [lia|unfold zc_now; cbn [with_frame z_ready z_frame z_win]; rewrite ?Rd2; lia]].
    constructor; cbn [with_frame z_info z_num z_win z_ready z_state z_frame z_hyst z_prev z_peak z_peak_update]; auto;
      unfold zc_now; cbn [with_frame z_ready z_frame z_win]; rewrite ?Rd2;
      try (replace (n + 1 - (Z.of_N (z_frame z2 + 1) + 0)) with o by lia; assumption).
    left. lia.
Qed.
End Per.
