From Flocq Require Import Core.Core IEEE754.BinarySingleNaN.
From Verif Require Import Common CommonFacts Float FloatFacts Ring_Model Ring_Spec Ring_Proof DetectF_Proof Zc_Model Zc_Spec.

(** ** the ring seen as [E ++ J]: the counted edges (newest first), then stale entries *)
Section RingList.
Context {A : Type} (dflt : A).
Lemma app_get (r : ring A) P e Q : ring_rel r (P ++ e :: Q) -> rb_get r (N.of_nat (length P)) = Some e.
Proof.
  intros R. rewrite (ring_rel_get _ _ _ R). rewrite N.mod_small by (rewrite app_length; cbn [length]; lia).
  unfold vget. rewrite Nat2N.id, nth_error_app2, Nat.sub_diag by lia. reflexivity.
Qed.
Lemma lset_app (P Q : list A) e v : lset (P ++ e :: Q) (length P) v = P ++ v :: Q.
Proof. induction P as [|h t IH]; cbn [app length lset]; [reflexivity|]. rewrite IH. reflexivity. Qed.
Lemma app_put (r : ring A) P e Q v : ring_rel r (P ++ e :: Q) ->
  exists r', rb_put r (N.of_nat (length P)) v = Some r' /\ ring_rel r' (P ++ v :: Q).
Proof.
  intros R. destruct (ring_rel_step dflt r _ (OpPut (N.of_nat (length P)) v) R) as (r' & E & R').
  exists r'. split; [exact E|]. cbn [spec_step] in R'. rewrite N.mod_small in R' by (rewrite app_length; cbn [length]; lia).
  rewrite Nat2N.id, lset_app in R'. exact R'.
Qed.
Lemma app_push (r : ring A) E J v : ring_rel r (E ++ J) -> J <> [] ->
  exists r' J', rb_push r v = Some r' /\ ring_rel r' ((v :: E) ++ J') /\ length J' = length J - 1.
Proof.
  intros R HJ. destruct (ring_rel_step dflt r _ (OpPush v) R) as (r' & Er & R').
  exists r', (firstn (length J - 1) J). split; [exact Er|]. split; [|rewrite firstn_length; lia].
  cbn [spec_step] in R'. destruct J as [|j J]; [congruence|].
  rewrite app_length in R'. cbn [length] in R' |- *. rewrite Nat.add_succ_r in R'. cbn [firstn] in R'.
  rewrite firstn_app, firstn_all2 in R' by lia. replace (length E + length J - length E) with (length J) in R' by lia.
  rewrite Nat.sub_succ, Nat.sub_0_r. exact R'.
Qed.
End RingList.

Section Zc.
Local Open Scope Z_scope.
Variable W : Z.        (* window size *)
Hypothesis HW : 128 <= W <= 2 ^ 28.
Hypothesis HW2 : W mod 2 = 0.
Let H : Z := W / 2.

Variable h : Z -> f32.  (* all conditioned samples *)
Variable hyst : f32.

(** completed pulses, and the one still open; [o] is the absolute position of frame 0 *)
Definition pulse_ok (e : zinfo) : Prop :=
  zi_lead e < zi_trail e /\ - H <= zi_trail e /\ zi_trail e - zi_lead e <= 2 * W + 1.
Fixpoint closed (o top : Z) (E : list zinfo) : Prop :=
  match E with
  | [] => True
  | e :: r => zi_trail e < top /\ pulse_ok e /\ pulse h hyst o e /\ quiet h o (zi_trail e) top /\ closed o (zi_lead e) r
  end.
Definition chain (open : bool) (o now : Z) (E : list zinfo) : Prop :=
  if open then
    match E with
    | [] => False
    | e :: r => 0 <= zi_lead e < now /\ pulse_upto h hyst o now e /\ closed o (zi_lead e) r
    end
  else closed o now E /\ match E with e :: _ :: _ => 0 <= zi_trail e | _ => True end.

Lemma closed_le o a E : flt fzero (h (o + a)) = false -> closed o a E -> closed o (a + 1) E.
Proof.
  intros L. destruct E as [|e r]; cbn [closed]; [auto|]. intros (H1 & H2 & H3 & H4 & H5). split; [lia|]. split; [exact H2|].
  split; [exact H3|]. split; [|exact H5]. intros k Hk. destruct (Z.eq_dec k a) as [->|N]; [exact L|]. apply H4. lia.
Qed.

Definition shifted (n : Z) (e : zinfo) : zinfo :=
  mkInfo (zi_prev e) (zi_curr e) (zi_peak e) (zi_lead e - n) (zi_trail e - n) (zi_width e).
Lemma wrap_int_small z : - 2 ^ 31 <= z < 2 ^ 31 -> wrap_int z = z.
Proof. unfold wrap_int. intros L. change (2 ^ 31) with 2147483648 in *. change (2 ^ 32) with 4294967296 in *. rewrite Z.mod_small by lia. lia. Qed.
Lemma sub_edge_small z n : - 2 ^ 30 <= z <= 2 ^ 30 -> (n <= 2 ^ 28)%N -> sub_edge z n = z - Z.of_N n.
Proof.
  intros L1 L2. unfold sub_edge. apply wrap_int_small. change (2 ^ 30) with 1073741824 in *. change (2 ^ 31) with 2147483648.
  change (2 ^ 28)%N with 268435456%N in *. lia.
Qed.

Lemma closed_bounds o top E e : closed o top E -> top <= 2 ^ 30 -> In e E ->
  - 2 ^ 30 <= zi_lead e /\ zi_lead e < zi_trail e < top.
Proof.
  revert top. change (2 ^ 30) with 1073741824. change (2 ^ 28) with 268435456 in HW.
  induction E as [|g t IH]; intros top C T [].
  - subst g. cbn [closed] in C. destruct C as (C1 & (C2 & C3 & C4) & _). unfold H in *. lia.
  - cbn [closed] in C. destruct C as (C1 & (C2 & C3 & C4) & _ & _ & C5). destruct (IH _ C5 ltac:(lia) H0) as [D1 D2]. lia.
Qed.

(** the loop of shift(): elements are moved until one ends before the window *)
Lemma shift_loop_ok fuel : forall r P E J o top,
  ring_rel r (P ++ E ++ J) -> closed o top E -> top <= 2 ^ 30 -> (length E <= fuel)%nat ->
  exists r' E1 E2, E = E1 ++ E2 /\
    shift_loop fuel r (N.of_nat (length P)) (N.of_nat (length P + length E)) (Z.to_N H) =
      Some (r', N.of_nat (length P + length E1)) /\
    Forall (fun e => 0 <= zi_trail e - H) E1 /\
    (exists J', ring_rel r' (P ++ map (shifted H) E1 ++ J') /\ length J' = (length E2 + length J)%nat) /\
    (E2 = [] \/ exists e t, E2 = e :: t /\ zi_trail e - H < 0).
Proof.
  assert (HH : 0 <= H <= 2 ^ 28) by (unfold H; change (2 ^ 28) with 268435456 in *; lia).
  induction fuel as [|f IH]; intros r P E J o top R C T L.
  - destruct E as [|e E]; [|cbn [length] in L; lia]. exists r, [], []. split; [reflexivity|].
    cbn [shift_loop length]. rewrite Nat.add_0_r, N.eqb_refl. split; [reflexivity|]. split; [constructor|].
    split; [|left; reflexivity]. exists J. split; [exact R|reflexivity].
  - destruct E as [|e E].
    + exists r, [], []. split; [reflexivity|].
      cbn [shift_loop length]. rewrite Nat.add_0_r, N.eqb_refl. split; [reflexivity|]. split; [constructor|].
      split; [|left; reflexivity]. exists J. split; [exact R|reflexivity].
    + cbn [shift_loop]. destruct (N.eqb_spec (N.of_nat (length P)) (N.of_nat (length P + length (e :: E)))) as [Q|_]; [cbn [length] in Q; lia|].
      cbn [app] in R. rewrite (app_get r P e (E ++ J) R). cbn [bind].
      destruct (closed_bounds _ _ _ e C T (or_introl eq_refl)) as [B1 B2].
      rewrite !sub_edge_small by (try (change (2 ^ 30) with 1073741824 in *; lia); change (2 ^ 28) with 268435456 in HH; change (2 ^ 28)%N with 268435456%N; lia).
      rewrite Z2N.id by lia. change (mkInfo _ _ _ _ _ _) with (shifted H e).
      destruct (app_put zinfo0 r P e (E ++ J) (shifted H e) R) as (r1 & E1 & R1). rewrite E1. cbn [bind].
      destruct (Z.ltb_spec (zi_trail e - H) 0) as [N|N].
      * exists r1, [], (e :: E). split; [reflexivity|]. cbn [length]. rewrite Nat.add_0_r. split; [reflexivity|]. split; [constructor|].
        split; [|right; exists e, E; auto]. exists (shifted H e :: E ++ J). split; [exact R1|]. cbn [length]. rewrite app_length. lia.
      * cbn [closed] in C. destruct C as (_ & Cp & _ & _ & C).
        destruct (IH r1 (P ++ [shifted H e]) E J o (zi_lead e)) as (r' & E2 & E3 & Q1 & Q2 & Q3 & Q4 & Q5).
        { rewrite <- app_assoc. exact R1. }
        { exact C. }
        { lia. }
        { cbn [length] in L. lia. }
        exists r', (e :: E2), E3. split; [cbn [app]; rewrite Q1 at 1; reflexivity|]. rewrite app_length in Q2. cbn [length] in Q2 |- *.
        replace (N.of_nat (length P) + 1)%N with (N.of_nat (length P + 1)) by lia.
        replace (length P + S (length E))%nat with (length P + 1 + length E)%nat by lia.
        replace (length P + S (length E2))%nat with (length P + 1 + length E2)%nat by lia.
        split; [exact Q2|]. split; [constructor; [lia|exact Q3]|]. split; [|exact Q5].
        destruct Q4 as (J' & R' & LJ). exists J'. split; [|exact LJ]. rewrite <- app_assoc in R'. exact R'.
Qed.

Lemma upto_shift o up e : pulse_upto h hyst o up e -> pulse_upto h hyst (o + H) (up - H) (shifted H e).
Proof.
  intros [P1 P2 P3 P4 P5 P5' P6 P7 P8]. constructor; cbn [shifted zi_lead zi_curr zi_prev zi_peak].
  - lia.
  - lia.
  - rewrite P3. f_equal. lia.
  - rewrite P4. f_equal. lia.
  - exact P5.
  - exact P5'.
  - intros k Hk. replace (o + H + k) with (o + (k + H)) by lia. apply P6. lia.
  - destruct P7 as (k & Hk & E). exists (k - H). split; [lia|]. rewrite E. f_equal. lia.
  - intros k Hk. replace (o + H + k) with (o + (k + H)) by lia. apply P8. lia.
Qed.
Lemma closed_shift E : forall o top, closed o top E -> Forall (fun e => - H <= zi_trail e - H) E ->
  closed (o + H) (top - H) (map (shifted H) E).
Proof.
  induction E as [|e r IH]; intros o top C F; cbn [map closed] in *; [auto|].
  destruct C as (C1 & (P1 & P2 & P3) & (V1 & V2) & Q & C2). inversion F as [|x y F1 F2]. subst.
  split; [cbn [shifted zi_trail]; lia|]. split; [unfold pulse_ok; cbn [shifted zi_trail zi_lead]; lia|].
  split; [split; [exact (upto_shift _ _ _ V1)|]|].
  - cbn [shifted zi_trail]. replace (o + H + (zi_trail e - H)) with (o + zi_trail e) by lia. exact V2.
  - split; [|apply (IH _ _ C2 F2)]. intros k Hk. cbn [shifted zi_trail] in Hk.
    replace (o + H + k) with (o + (k + H)) by lia. apply Q. lia.
Qed.
Lemma closed_app E1 E2 : forall o top, closed o top (E1 ++ E2) -> closed o top E1.
Proof.
  induction E1 as [|e r IH]; intros o top C; cbn [app closed] in *; [auto|].
  destruct C as (C1 & P & V & Q & C2). repeat (split; [assumption|]). apply IH. exact C2.
Qed.

(** [n] samples were consumed *)
Record inv (n : Z) (z : zc) (E J : list zinfo) : Prop := mkInv
  { inv_ring : ring_rel (z_info z) (E ++ J);
    inv_num : z_num z = N.of_nat (length E);
    inv_win : Z.of_N (z_win z) = W;
    inv_hyst : z_hyst z = hyst;
    inv_prev : z_prev z = h (n - 1);
    inv_pos : if z_ready z
              then z_state z = false /\ (2 <= length E)%nat /\ J <> [] /\
                   closed (n - (Z.of_N (z_frame z) + H)) (Z.of_N (z_frame z) + H) E /\
                   match E with e :: _ => 0 <= zi_trail e | _ => True end /\
                   H <= Z.of_N (z_frame z) /\ Z.of_N (z_frame z) + H <= 2 * W + 1
              else chain (z_state z) (n - Z.of_N (z_frame z)) (Z.of_N (z_frame z)) E /\ Z.of_N (z_frame z) <= 2 * W + 1 }.

Lemma cap_len z E J : ring_rel (z_info z) (E ++ J) -> zc_capacity z = N.of_nat (length E + length J).
Proof. intros R. unfold zc_capacity. rewrite (ring_rel_size _ _ R), app_length. reflexivity. Qed.
Lemma reset_inv n z E J : ring_rel (z_info z) (E ++ J) -> Z.of_N (z_win z) = W -> z_hyst z = hyst -> z_prev z = h (n - 1) ->
  z_ready z = false -> inv n (zc_reset z) [] (E ++ J).
Proof.
  intros R Hw Hy Hp Hr. constructor; cbn [zc_reset z_info z_num z_win z_ready z_state z_frame z_hyst z_prev]; auto.
  rewrite Hr. split; [split; exact I|]. change (2 ^ 28) with 268435456 in HW. lia.
Qed.

Lemma H_win z : Z.of_N (z_win z) = W -> (z_win z / 2)%N = Z.to_N H.
Proof. intros E. unfold H. rewrite <- E. change 2 with (Z.of_N 2). rewrite <- N2Z.inj_div, N2Z.id. reflexivity. Qed.

(** after the opening of update_state: not ready, and room for a push *)
Lemma begin_inv n z E J : inv n z E J ->
  exists z' E' J', zc_begin z = Some z' /\ inv n z' E' J' /\ z_ready z' = false /\ J' <> [].
Proof.
  intros I. assert (HH : 64 <= H <= 2 ^ 27) by (unfold H; change (2 ^ 27) with 134217728; change (2 ^ 28) with 268435456 in *; lia).
  assert (X : exists z1 E1 J1,
    (if z_ready z then
      do y <- zc_shift z (z_win z / 2) ;
      Some (mkZc (z_prev y) (z_hyst y) (z_state y) (z_num y) (z_win y) (z_info y) (z_frame y) false fzero (z_peak_update y))
     else Some z) = Some z1 /\ inv n z1 E1 J1 /\ z_ready z1 = false).
  { destruct (z_ready z) eqn:Rd; [|exists z, E, J; auto].
    destruct I as [R Nm Hw Hy Hp P]. rewrite Rd in P. destruct P as (St & L2 & HJ & C & T0 & F0 & F1).
    destruct E as [|e0 E]; [cbn [length] in L2; lia|].
    assert (TB : Z.of_N (z_frame z) + H <= 2 ^ 30) by (change (2 ^ 30) with 1073741824; change (2 ^ 28) with 268435456 in HW; lia).
    unfold zc_shift. rewrite (H_win z Hw). change 0%N with (N.of_nat (length (@nil zinfo))).
    rewrite (app_get (z_info z) [] e0 (E ++ J) R). cbn [bind]. rewrite St.
    destruct (closed_bounds _ _ _ e0 C TB (or_introl eq_refl)) as [B1 B2].
    rewrite !sub_edge_small by (try (change (2 ^ 30) with 1073741824 in *; lia); change (2 ^ 27) with 134217728 in HH; change (2 ^ 28)%N with 268435456%N; lia).
    rewrite Z2N.id by lia. change (mkInfo _ _ _ _ _ _) with (shifted H e0).
    destruct (app_put zinfo0 (z_info z) [] e0 (E ++ J) (shifted H e0) R) as (r1 & E1 & R1). rewrite E1. cbn [bind].
    cbn [closed] in C. destruct C as (C1 & Cp & Cv & Cq & C2). cbn [length] in L2.
    destruct (shift_loop_ok (N.to_nat (z_num z)) r1 [shifted H e0] E J _ (zi_lead e0) R1 C2) as (r' & E2 & E3 & Q1 & Q2 & Q3 & (J' & R' & LJ) & Q5).
    { lia. }
    { rewrite Nm. cbn [length]. lia. }
    rewrite Nm in Q2 |- *. change (N.of_nat (length [shifted H e0])) with 1%N in Q2.
    change (length [shifted H e0] + length E)%nat with (length (e0 :: E)) in Q2. rewrite Q2. cbn [bind fst snd].
    eexists _, (shifted H e0 :: map (shifted H) E2), J'. split; [reflexivity|]. split; [|reflexivity].
    constructor; cbn [z_info z_num z_win z_ready z_state z_frame z_hyst z_prev].
    - exact R'.
    - cbn [length]. rewrite map_length. f_equal.
    - exact Hw.
    - exact Hy.
    - exact Hp.
    - split; [|lia]. unfold chain.
      assert (C3 : closed (n - (Z.of_N (z_frame z) + H) + H) (Z.of_N (z_frame z) + H - H) (map (shifted H) (e0 :: E2))).
      { apply closed_shift.
        - cbn [closed]. repeat (split; [assumption|]). apply (closed_app E2 E3). rewrite <- Q1. exact C2.
        - constructor; [lia|]. eapply Forall_impl; [|exact Q3]. cbn beta. intros; lia. }
      replace (Z.of_N (z_frame z) + H - H) with (Z.of_N (z_frame z)) in C3 by lia.
      replace (n - (Z.of_N (z_frame z) + H) + H) with (n - Z.of_N (z_frame z)) in C3 by lia.
      split; [exact C3|]. destruct E2 as [|e1 E2]; cbn [map]; [auto|].
      inversion Q3 as [|x y Q3a Q3b]. subst x y. rewrite Q1 in C2. cbn [app closed] in C2. destruct C2 as (D1 & D2 & _).
      cbn [shifted zi_trail]. lia. }
  destruct X as (z1 & E1 & J1 & X1 & I1 & X2). unfold zc_begin. rewrite X1. cbn [bind].
  destruct (N.leb_spec (zc_capacity z1) (z_num z1)) as [L|L].
  - exists (zc_reset z1), [], (E1 ++ J1). split; [reflexivity|]. destruct I1 as [R Nm Hw Hy Hp P].
    split; [apply reset_inv; assumption|]. split; [exact X2|].
    intros N. pose proof (ring_rel_len _ _ R) as B. rewrite N in B. cbn [length] in B. lia.
  - exists z1, E1, J1. split; [reflexivity|]. split; [exact I1|]. split; [exact X2|].
    destruct I1 as [R Nm Hw Hy Hp P]. rewrite (cap_len _ _ _ R), Nm in L. intros ->. cbn [length] in L. lia.
Qed.

Lemma pos_not_nan (s : f32) : flt fzero s = true -> is_nan s = false.
Proof. destruct s; try reflexivity. intros X. discriminate X. Qed.
Lemma max_pos (s x : f32) : flt fzero s = false -> flt fzero x = true -> flt x s = false.
Proof.
  intros A B. destruct (is_nan s) eqn:N; [destruct s; try discriminate; apply flt_nan_r|].
  apply (flt_neg_trans s fzero x); auto using pos_not_nan. destruct (flt_asym x fzero) as [Q|Q]; [congruence|exact Q].
Qed.
(** one more sample that is above zero *)
Lemma upto_peak o now e s frame : pulse_upto h hyst o now e -> s = h (o + now) -> flt fzero s = true ->
  pulse_upto h hyst o (now + 1) (update_peak e s frame).
Proof.
  intros [P1 P2 P3 P4 P5 P5' P6 P7 P8] Es Hs. constructor; cbn [update_peak zi_lead zi_curr zi_prev zi_peak]; auto; try lia.
  - unfold fmax. destruct (flt s (zi_peak e)); assumption.
  - intros k Hk. destruct (Z.eq_dec k now) as [->|N]; [|apply P6; lia]. rewrite <- Es. intros [C _]. congruence.
  - unfold fmax. destruct (flt s (zi_peak e)); [destruct P7 as (k & Hk & E); exists k; split; [lia|exact E]|].
    exists now. split; [lia|exact Es].
  - intros k Hk. unfold fmax. destruct (flt s (zi_peak e)) eqn:L.
    + destruct (Z.eq_dec k now) as [->|N]; [|apply P8; lia]. rewrite <- Es. destruct (flt_asym s (zi_peak e)) as [Q|Q]; [exact Q|congruence].
    + destruct (Z.eq_dec k now) as [->|N]; [rewrite <- Es; destruct (flt_asym s s) as [Q|Q]; exact Q|].
      specialize (P8 k ltac:(lia)). destruct (is_nan (h (o + k))) eqn:Nn; [destruct (h (o + k)); try discriminate; apply flt_nan_r|].
      apply (flt_neg_trans (h (o + k)) (zi_peak e) s); auto using pos_not_nan.
Qed.
(** one more sample that neither is above zero nor closes the pulse *)
Lemma upto_ext o now e : pulse_upto h hyst o now e -> flt fzero (h (o + now)) = false -> flt (h (o + now)) hyst = false ->
  pulse_upto h hyst o (now + 1) e.
Proof.
  intros [P1 P2 P3 P4 P5 P5' P6 P7 P8] A B. constructor; auto; try lia.
  - intros k Hk. destruct (Z.eq_dec k now) as [->|N]; [|apply P6; lia]. intros [_ C]. congruence.
  - destruct P7 as (k & Hk & E). exists k. split; [lia|exact E].
  - intros k Hk. destruct (Z.eq_dec k now) as [->|N]; [|apply P8; lia]. apply max_pos; assumption.
Qed.
Lemma upto_new o now e : zi_lead e = now -> zi_curr e = h (o + now) -> zi_peak e = h (o + now) -> zi_prev e = h (o + now - 1) ->
  0 <= o + now -> flt fzero (h (o + now)) = true -> pulse_upto h hyst o (now + 1) e.
Proof.
  intros L C P V B A. constructor; rewrite ?L, ?C, ?P, ?V; auto; try lia.
  - intros k Hk. replace k with now by lia. intros [X _]. congruence.
  - exists now. split; [lia|reflexivity].
  - intros k Hk. replace k with now by lia. destruct (flt_asym (h (o + now)) (h (o + now))) as [Q|Q]; exact Q.
Qed.

(** the edge logic: afterwards the positions are below frame + 1 *)
Lemma edge_inv n z E J s : 0 <= n -> s = h n -> inv n z E J -> z_ready z = false -> J <> [] ->
  exists z' E' J', zc_edge z s = Some z' /\ ring_rel (z_info z') (E' ++ J') /\ z_num z' = N.of_nat (length E') /\
    z_win z' = z_win z /\ z_ready z' = false /\ z_frame z' = z_frame z /\ z_hyst z' = z_hyst z /\
    chain (z_state z') (n - Z.of_N (z_frame z)) (Z.of_N (z_frame z) + 1) E' /\ (z_state z' = false -> J' <> []).
Proof.
  intros Hn Es [R Nm Hw Hy Hp P] Rd HJ. rewrite Rd in P. destruct P as [C F]. unfold zc_edge.
  assert (EO : n - Z.of_N (z_frame z) + Z.of_N (z_frame z) = n) by lia.
  assert (FB : wrap_int (Z.of_N (z_frame z)) = Z.of_N (z_frame z)).
  { apply wrap_int_small. change (2 ^ 31) with 2147483648. change (2 ^ 28) with 268435456 in HW. lia. }
  destruct (flt fzero s) eqn:Hs.
  - assert (X : exists z2 E' J',
      (if z_state z then
        do e <- rb_get (z_info z) 0 ;
        do r <- rb_put (z_info z) 0 (update_peak e s (z_frame z)) ;
        Some (mkZc (z_prev z) (z_hyst z) (z_state z) (z_num z) (z_win z) r (z_frame z) (z_ready z) (z_peak_update z) (z_peak z))
      else if (z_num z <? zc_capacity z)%N then
        do r <- rb_push (z_info z) (mkInfo (z_prev z) s s (wrap_int (Z.of_N (z_frame z))) undefined_edge fzero) ;
        Some (mkZc (z_prev z) (z_hyst z) true (z_num z + 1) (z_win z) r (z_frame z) (z_ready z) (z_peak_update z) (z_peak z))
      else None) = Some z2 /\ ring_rel (z_info z2) (E' ++ J') /\ z_num z2 = N.of_nat (length E') /\
      z_win z2 = z_win z /\ z_ready z2 = false /\ z_frame z2 = z_frame z /\ z_hyst z2 = z_hyst z /\
      z_state z2 = true /\ chain true (n - Z.of_N (z_frame z)) (Z.of_N (z_frame z) + 1) E').
    { destruct (z_state z) eqn:St.
      - destruct E as [|e0 E]; [destruct C|]. cbn [chain] in C. destruct C as (C1 & C2 & C3).
        change 0%N with (N.of_nat (length (@nil zinfo))). rewrite (app_get (z_info z) [] e0 (E ++ J) R). cbn [bind].
        destruct (app_put zinfo0 (z_info z) [] e0 (E ++ J) (update_peak e0 s (z_frame z)) R) as (r1 & E1 & R1). rewrite E1. cbn [bind].
        eexists _, (update_peak e0 s (z_frame z) :: E), J. split; [reflexivity|]. cbn [z_info z_num z_win z_ready z_frame z_hyst z_state].
        split; [exact R1|]. split; [rewrite Nm; reflexivity|]. repeat (split; [reflexivity || assumption|]).
        cbn [chain]. split; [cbn [update_peak zi_lead]; lia|]. split; [apply upto_peak; [exact C2|rewrite EO; exact Es|exact Hs]|exact C3].
      - rewrite (cap_len _ _ _ R), Nm. destruct (N.ltb_spec (N.of_nat (length E)) (N.of_nat (length E + length J))) as [_|N].
        2:{ destruct J; [congruence|]. cbn [length] in N. lia. }
        destruct (app_push zinfo0 (z_info z) E J (mkInfo (z_prev z) s s (wrap_int (Z.of_N (z_frame z))) undefined_edge fzero) R HJ) as (r' & J' & E1 & R1 & LJ).
        rewrite E1. cbn [bind]. eexists _, (_ :: E), J'. split; [reflexivity|]. cbn [z_info z_num z_win z_ready z_frame z_hyst z_state].
        split; [exact R1|]. split; [cbn [length]; lia|]. repeat (split; [reflexivity || assumption|]).
        cbn [chain]. destruct C as [C _]. rewrite FB. cbn [zi_lead]. split; [lia|]. split; [|exact C].
        apply upto_new; cbn [zi_lead zi_curr zi_peak zi_prev]; rewrite ?EO; auto; rewrite <- Es; exact Hs. }
    destruct X as (z2 & E' & J' & X1 & X2 & X3 & X4 & X5 & X6 & X7 & X8 & X9). rewrite X1. cbn [bind].
    eexists _, E', J'. split; [reflexivity|].
    destruct (flt (z_peak_update z2) s); cbn [z_info z_num z_win z_ready z_frame z_hyst z_state];
      (split; [exact X2|]); (split; [exact X3|]); (split; [exact X4|]); (split; [exact X5|]); (split; [exact X6|]); (split; [exact X7|]);
      rewrite X8; (split; [exact X9|intros; discriminate]).
  - destruct (z_state z && flt s (z_hyst z))%bool eqn:Sw.
    + apply andb_true_iff in Sw. destruct Sw as [St Sh]. rewrite St in C. destruct E as [|e0 E]; [destruct C|].
      cbn [chain] in C. destruct C as (C1 & C2 & C3).
      change 0%N with (N.of_nat (length (@nil zinfo))). rewrite (app_get (z_info z) [] e0 (E ++ J) R). cbn [bind]. rewrite FB.
      match goal with |- context [rb_put _ _ ?v] => destruct (app_put zinfo0 (z_info z) [] e0 (E ++ J) v R) as (r1 & E1 & R1) end.
      rewrite E1. cbn [bind]. eexists _, (_ :: E), J. split; [reflexivity|]. cbn [z_info z_num z_win z_ready z_frame z_hyst z_state].
      split; [exact R1|]. split; [rewrite Nm; reflexivity|]. repeat (split; [reflexivity || assumption|]). split; [|intros; exact HJ].
      unfold chain, closed at 1. cbn [zi_lead zi_trail]. fold closed. split.
      * split; [lia|]. split; [unfold pulse_ok; cbn [zi_lead zi_trail]; assert (0 <= H) by (unfold H; lia); lia|]. split; [|split; [intros k Hk; lia|exact C3]].
        split; cbn [zi_trail].
        -- destruct C2 as [P1 P2 P3 P4 P5 P5' P6 P7 P8]. constructor; cbn [zi_lead zi_curr zi_prev zi_peak]; auto.
        -- rewrite EO, <- Es. split; [exact Hs|]. rewrite <- Hy. exact Sh.
      * destruct E; [auto|lia].
    + exists z, E, J. split; [reflexivity|]. split; [exact R|]. split; [exact Nm|]. repeat (split; [reflexivity || assumption|]).
      split; [|intros; exact HJ]. unfold chain in *. destruct (z_state z).
      * destruct E; [exact C|]. destruct C as (C1 & C2 & C3). split; [lia|]. split; [|exact C3].
        cbn [andb] in Sw. apply upto_ext; [exact C2| |]; rewrite EO, <- Es; [exact Hs|rewrite <- Hy; exact Sw].
      * destruct C as [C1 C2]. split; [|exact C2]. apply closed_le; [|exact C1]. rewrite EO, <- Es. exact Hs.
Qed.

Lemma step_inv n z E J s : 0 <= n -> fadd s (fdiv hyst (mk32 2 0)) = h n -> inv n z E J ->
  exists z' E' J', zc_step z s = Some z' /\ inv (n + 1) z' E' J'.
Proof.
  intros Hn Es I. unfold zc_step. rewrite (inv_hyst _ _ _ _ I). set (x := fadd s (fdiv hyst (mk32 2 0))) in *.
  assert (HH : 64 <= H <= 2 ^ 27) by (unfold H; change (2 ^ 27) with 134217728; change (2 ^ 28) with 268435456 in *; lia).
  assert (EH : 2 * H = W) by (unfold H; lia).
  assert (X1 : exists E1 J1, inv n (if (zc_capacity z <=? z_num z)%N then zc_reset z else z) E1 J1).
  { destruct (N.leb_spec (zc_capacity z) (z_num z)) as [L|L]; [|exists E, J; exact I].
    destruct I as [R Nm Hw Hy Hp P]. exists [], (E ++ J). apply reset_inv; [exact R|exact Hw|exact Hy|exact Hp|].
    destruct (z_ready z); [|reflexivity]. destruct P as (_ & _ & HJ & _). rewrite (cap_len _ _ _ R), Nm in L.
    destruct J; [congruence|]. cbn [length] in L. lia. }
  set (z1 := if (zc_capacity z <=? z_num z)%N then zc_reset z else z) in *.
  destruct X1 as (E1 & J1 & I1).
  assert (X2 : exists E2 J2, inv n (if ((z_frame z1 =? z_win z1 / 2) && (z_num z1 =? 0))%N then zc_reset z1 else z1) E2 J2).
  { destruct (((z_frame z1 =? z_win z1 / 2) && (z_num z1 =? 0))%N) eqn:Q; [|exists E1, J1; exact I1].
    apply andb_true_iff in Q. destruct Q as [_ Q]. apply N.eqb_eq in Q.
    destruct I1 as [R Nm Hw Hy Hp P]. exists [], (E1 ++ J1). apply reset_inv; [exact R|exact Hw|exact Hy|exact Hp|].
    destruct (z_ready z1); [|reflexivity]. destruct P as (_ & L & _). lia. }
  set (z2 := if ((z_frame z1 =? z_win z1 / 2) && (z_num z1 =? 0))%N then zc_reset z1 else z1) in *.
  destruct X2 as (E2 & J2 & I2).
  unfold zc_update. destruct (begin_inv n z2 E2 J2 I2) as (z3 & E3 & J3 & Eb & I3 & Rd3 & HJ3). rewrite Eb. cbn [bind].
  destruct (edge_inv n z3 E3 J3 x Hn Es I3 Rd3 HJ3) as (z4 & E4 & J4 & Ee & R4 & N4 & W4 & Rd4 & F4 & Hy4 & C4 & S4). rewrite Ee. cbn [bind].
  destruct I3 as [R3 N3 W3 Hy3 Hp3 P3]. rewrite Rd3 in P3. destruct P3 as [_ FB].
  assert (X5 : exists E5 J5, let z5 := if (z_win z4 * 2 <? z_frame z4)%N then zc_reset z4 else z4 in
     ring_rel (z_info z5) (E5 ++ J5) /\ z_num z5 = N.of_nat (length E5) /\ z_win z5 = z_win z3 /\ z_ready z5 = false /\
     z_hyst z5 = z_hyst z4 /\
     Z.of_N (z_frame z5) <= 2 * W /\ chain (z_state z5) (n - Z.of_N (z_frame z5)) (Z.of_N (z_frame z5) + 1) E5 /\ (z_state z5 = false -> J5 <> [])).
  { cbn zeta. destruct (N.ltb_spec (z_win z4 * 2) (z_frame z4)) as [L|L].
    - exists [], (E4 ++ J4). cbn [zc_reset z_info z_num z_win z_ready z_frame z_state z_hyst].
      split; [exact R4|]. split; [reflexivity|]. split; [exact W4|]. split; [exact Rd4|]. split; [reflexivity|]. split; [lia|].
      split; [split; exact Logic.I|]. intros _ N. pose proof (ring_rel_len _ _ R4) as B. rewrite N in B. cbn [length] in B. lia.
    - exists E4, J4. repeat (split; [assumption || reflexivity|]). rewrite W4 in L. split; [lia|]. split; [rewrite F4; exact C4|exact S4]. }
  destruct X5 as (E5 & J5 & X5). cbn zeta in X5. set (z5 := if (z_win z4 * 2 <? z_frame z4)%N then zc_reset z4 else z4) in *.
  destruct X5 as (R5 & N5 & W5 & Rd5 & Hy5 & F5 & C5 & S5).
  cbn [z_frame z_win z_state z_num z_ready].
  assert (Fa : add64 (z_frame z5) 1 = (z_frame z5 + 1)%N).
  { unfold add64, wrap64. apply N.mod_small. unfold W64. change (2 ^ 28) with 268435456 in HW. change (2 ^ 64)%N with 18446744073709551616%N. lia. }
  rewrite Fa. assert (Hw5 : Z.of_N (z_win z5) = W) by (rewrite W5; exact W3).
  assert (HyF : z_hyst z5 = hyst) by congruence.
  assert (EX : x = h (n + 1 - 1)) by (rewrite Es; f_equal; lia).
  destruct (z_win z5 <=? z_frame z5 + 1)%N eqn:L; cbn [andb].
  - apply N.leb_le in L. destruct (z_state z5) eqn:St; cbn [negb].
    + eexists _, E5, J5. split; [reflexivity|]. constructor; cbn [with_frame z_info z_num z_win z_ready z_state z_frame z_hyst z_prev]; auto.
      try rewrite Rd5; try rewrite St. split; [replace (Z.of_N (z_frame z5 + 1)) with (Z.of_N (z_frame z5) + 1) by lia; replace (n + 1 - (Z.of_N (z_frame z5) + 1)) with (n - Z.of_N (z_frame z5)) by lia; exact C5|lia].
    + assert (FH : Z.of_N (z_frame z5 + 1 - z_win z5 / 2) + H = Z.of_N (z_frame z5) + 1) by (rewrite (H_win z5 Hw5); lia).
      destruct (N.ltb_spec 1 (z_num z5)) as [Ln|Ln].
      * eexists _, E5, J5. split; [reflexivity|]. constructor; cbn [with_frame z_info z_num z_win z_ready z_state z_frame z_hyst z_prev]; auto.
        split; [first [exact St | reflexivity]|]. split; [lia|]. split; [apply S5; reflexivity|]. rewrite FH. replace (n + 1 - (Z.of_N (z_frame z5) + 1)) with (n - Z.of_N (z_frame z5)) by lia. unfold chain in C5. destruct C5 as [C5a C5b].
        split; [exact C5a|]. split; [|lia]. destruct E5 as [|e5 [|e6 E5]]; [exact Logic.I|cbn [length] in N5; lia|exact C5b].
      * eexists _, [], (E5 ++ J5). split; [reflexivity|]. apply reset_inv; cbn [with_frame z_info z_win z_ready z_hyst z_prev]; auto.
  - eexists _, E5, J5. split; [reflexivity|]. constructor; cbn [with_frame z_info z_num z_win z_ready z_state z_frame z_hyst z_prev]; auto.
    try rewrite Rd5. split; [replace (Z.of_N (z_frame z5 + 1)) with (Z.of_N (z_frame z5) + 1) by lia; replace (n + 1 - (Z.of_N (z_frame z5) + 1)) with (n - Z.of_N (z_frame z5)) by lia; exact C5|lia].
Qed.

Lemma run_inv xs : forall n z E J, 0 <= n -> 
  (forall k, (k < length xs)%nat -> h (n + Z.of_nat k) = fadd (nth k xs fzero) (fdiv hyst (mk32 2 0))) ->
  inv n z E J -> exists z' E' J', zc_run z xs = Some z' /\ inv (n + Z.of_nat (length xs)) z' E' J'.
Proof.
  induction xs as [|x xs IH]; intros n z E J Hn Hx I; [exists z, E, J; cbn [length]; rewrite Z.add_0_r; auto|].
  assert (E0 : fadd x (fdiv hyst (mk32 2 0)) = h n).
  { specialize (Hx 0%nat ltac:(cbn [length]; lia)). cbn [nth] in Hx. rewrite <- Hx. f_equal. lia. }
  destruct (step_inv n z E J x Hn E0 I) as (z1 & E1 & J1 & S1 & I1). cbn [zc_run]. rewrite S1. cbn [bind].
  replace (n + Z.of_nat (length (x :: xs))) with (n + 1 + Z.of_nat (length xs)) by (cbn [length]; lia).
  apply (IH (n + 1) z1 E1 J1); [lia| |exact I1]. intros k Hk. specialize (Hx (S k) ltac:(cbn [length]; lia)).
  cbn [nth] in Hx. rewrite <- Hx. f_equal. lia.
Qed.
End Zc.

Section Final.
Local Open Scope Z_scope.

Lemma zwin n : (n <= 2 ^ 28)%N ->
  exists w, wrap64 (adjust_window_size n * bs_w) = w /\ 128 <= Z.of_N w <= 2 ^ 28 /\ Z.of_N w mod 2 = 0 /\ (n <= w)%N.
Proof.
  intros Hn. eexists. split; [reflexivity|]. unfold adjust_window_size, bs_w.
  change (2 ^ 28)%N with 268435456%N in Hn. change (2 ^ 28) with 268435456.
  assert (A : add64 n 64 = (n + 64)%N) by (unfold add64, wrap64, W64; apply N.mod_small; change (2 ^ 64)%N with 18446744073709551616%N; lia).
  assert (B : sub64 (n + 64) 1 = (n + 63)%N).
  { unfold sub64, wrap64, W64. change (2 ^ 64)%N with 18446744073709551616%N. lia. }
  rewrite A, B. set (q := ((n + 63) / 64)%N). assert (Q : (q <= 4194304)%N /\ (n <= q * 64)%N) by (unfold q; lia).
  rewrite (wrap64_small _) by (unfold W64; change (2 ^ 64)%N with 18446744073709551616%N; lia).
  lia.
Qed.

Lemma make_inv hyst n xs : (n <= 2 ^ 28)%N ->
  exists z J, zc_make hyst n = Some z /\ inv (Z.of_N (z_win z)) (conditioned hyst xs) hyst 0 z [] J /\
    128 <= Z.of_N (z_win z) <= 2 ^ 28 /\ Z.of_N (z_win z) mod 2 = 0 /\ (n <= z_win z)%N /\
    least_pow2_ge (z_win z / 2) (zc_capacity z) /\ z_ready z = false.
Proof.
  intros Hn. destruct (zwin n Hn) as (w & Ew & B & M & L). unfold zc_make. rewrite Ew.
  change (2 ^ 28) with 268435456 in *.
  destruct (ring_rel_make zinfo0 (w / 2)) as (r & c & Er & R & Lp & Hs & Hc).
  { change (2 ^ 63)%N with 9223372036854775808%N. lia. }
  rewrite Er. cbn [bind]. eexists _, (repeat zinfo0 (N.to_nat c)). split; [reflexivity|]. cbn [z_win].
  split; [|unfold zc_capacity; cbn [z_info]; rewrite Hs; auto].
  constructor; cbn [z_info z_num z_win z_hyst z_prev z_ready z_state z_frame]; auto.
  split; [split; exact I|]. lia.
Qed.

Section Inv.
Context (W : Z) (h : Z -> f32) (hyst : f32).
Lemma closed_nth E : forall o top a e, closed W h hyst o top E -> nth_error E a = Some e ->
  pulse h hyst o e /\ zi_lead e < zi_trail e < top.
Proof.
  induction E as [|g t IH]; intros o top a e C Q; [destruct a; discriminate|].
  cbn [closed] in C. destruct C as (C1 & (C2 & _) & C3 & C4 & C5). destruct a as [|a]; cbn [nth_error] in Q.
  - injection Q as <-. split; [exact C3|lia].
  - destruct (IH o _ a e C5 Q) as [D1 D2]. split; [exact D1|]. lia.
Qed.
Lemma closed_two E : forall o top a b e f, closed W h hyst o top E -> (a < b)%nat -> nth_error E a = Some e -> nth_error E b = Some f ->
  zi_trail f < zi_lead e /\ (b = S a -> quiet h o (zi_trail f) (zi_lead e)).
Proof.
  induction E as [|g t IH]; intros o top a b e f C L Qa Qb; [destruct a; discriminate|].
  destruct b as [|b]; [lia|]. cbn [nth_error] in Qb.
  cbn [closed] in C. destruct C as (C1 & (C2 & _) & C3 & C4 & C5). destruct a as [|a]; cbn [nth_error] in Qa.
  - injection Qa as <-. destruct (closed_nth _ _ _ _ _ C5 Qb) as [_ D]. split; [lia|]. intros Eb. injection Eb as ->.
    destruct t as [|g2 t]; [discriminate Qb|]. cbn [nth_error] in Qb. injection Qb as <-. cbn [closed] in C5. tauto.
  - destruct (IH o _ a b e f C5 ltac:(lia) Qa Qb) as [D1 D2]. split; [exact D1|]. intros Eb. apply D2. lia.
Qed.
(** the same for a chain with the newest pulse possibly open *)
Lemma chain_nth open o now E a e : chain W h hyst open o now E -> nth_error E a = Some e ->
  if (open && Nat.eqb a 0)%bool then pulse_upto h hyst o now e else pulse h hyst o e /\ zi_trail e < now.
Proof.
  unfold chain. destruct open; cbn [andb].
  - destruct E as [|g t]; [destruct a; discriminate|]. intros (C1 & C2 & C3) Q. destruct a as [|a]; cbn [Nat.eqb nth_error] in *.
    + injection Q as <-. exact C2.
    + destruct (closed_nth _ _ _ _ _ C3 Q) as [D1 D2]. split; [exact D1|lia].
  - intros [C _] Q. destruct (closed_nth _ _ _ _ _ C Q) as [D1 D2]. split; [exact D1|lia].
Qed.
Lemma chain_two open o now E a b e f : chain W h hyst open o now E -> (a < b)%nat -> nth_error E a = Some e -> nth_error E b = Some f ->
  zi_trail f < zi_lead e /\ (b = S a -> quiet h o (zi_trail f) (zi_lead e)).
Proof.
  unfold chain. destruct open.
  - destruct E as [|g t]; [destruct a; discriminate|]. intros (C1 & C2 & C3) L Qa Qb. destruct b as [|b]; [lia|]. cbn [nth_error] in Qb.
    destruct a as [|a]; cbn [nth_error] in Qa; [|destruct (closed_two _ _ _ a b e f C3 ltac:(lia) Qa Qb) as [D1 D2]; split; [exact D1|intros Eb; apply D2; lia]].
    injection Qa as <-. destruct (closed_nth _ _ _ _ _ C3 Qb) as [_ D]. split; [lia|]. intros Eb. injection Eb as ->.
    destruct t as [|g2 t]; [discriminate Qb|]. cbn [nth_error] in Qb. injection Qb as <-. cbn [closed] in C3. tauto.
  - intros [C _] L Qa Qb. eapply closed_two; eassumption.
Qed.
Lemma closed_lo E : forall o top e, closed W h hyst o top E -> In e E -> - (W / 2) - (2 * W + 1) <= zi_lead e.
Proof.
  induction E as [|g t IH]; intros o top e C []; cbn [closed] in C; destruct C as (C1 & (C2 & C2' & C2'') & C3 & C4 & C5).
  - subst g. lia.
  - exact (IH _ _ e C5 H).
Qed.
End Inv.

Lemma ring_at z E J i : ring_rel (z_info z) (E ++ J) -> z_num z = N.of_nat (length E) -> (i < z_num z)%N ->
  exists e, zc_at z i = Some e /\ nth_error E (length E - 1 - N.to_nat i) = Some e.
Proof.
  intros R Nm L. pose proof (ring_rel_len _ _ R) as B. rewrite app_length in B. change (2 ^ 63)%N with 9223372036854775808%N in B.
  unfold zc_at.
  assert (S1 : sub64 (sub64 (z_num z) 1) i = (z_num z - 1 - i)%N).
  { unfold sub64, wrap64, W64. change (2 ^ 64)%N with 18446744073709551616%N. lia. }
  rewrite S1, (ring_rel_get _ _ _ R), N.mod_small by (rewrite app_length; lia).
  unfold vget. rewrite nth_error_app1 by lia. replace (N.to_nat (z_num z - 1 - i)) with (length E - 1 - N.to_nat i)%nat by lia.
  destruct (nth_error E (length E - 1 - N.to_nat i)) eqn:Q; [eexists; split; reflexivity|].
  apply nth_error_None in Q. lia.
Qed.

(** the capacity never changes *)
Lemma lset_len {A} (d : list A) i v : length (lset d i v) = length d.
Proof. revert i. induction d as [|g t IH]; intros [|i]; cbn [lset length]; [reflexivity..|]. rewrite IH. reflexivity. Qed.
Lemma vset_len {A} (d d' : list A) i v : vset d i v = Some d' -> length d' = length d.
Proof. unfold vset. destruct (_ <? _)%N; [|discriminate]. intros Q. injection Q as <-. apply lset_len. Qed.
Lemma put_size {A} (r r' : ring A) i v : rb_put r i v = Some r' -> rb_size r' = rb_size r.
Proof.
  unfold rb_put. destruct (vset _ _ _) eqn:Q; [|discriminate]. cbn [bind]. intros X. injection X as <-. unfold rb_size. cbn [rb_data].
  rewrite (vset_len _ _ _ _ Q). reflexivity.
Qed.
Lemma push_size {A} (r r' : ring A) v : rb_push r v = Some r' -> rb_size r' = rb_size r.
Proof.
  unfold rb_push. destruct (vset _ _ _) eqn:Q; [|discriminate]. cbn [bind]. intros X. injection X as <-. unfold rb_size. cbn [rb_data].
  rewrite (vset_len _ _ _ _ Q). reflexivity.
Qed.
Lemma loop_size fuel : forall r i num n t, shift_loop fuel r i num n = Some t -> rb_size (fst t) = rb_size r.
Proof.
  induction fuel as [|f IH]; intros r i num n t; cbn [shift_loop]; destruct (i =? num)%N; try discriminate;
    try (intros X; injection X as <-; reflexivity).
  destruct (rb_get r i); [|discriminate]. cbn [bind]. destruct (rb_put _ _ _) eqn:P; [|discriminate]. cbn [bind].
  destruct (_ <? 0)%Z; intros X; [injection X as <-; exact (put_size _ _ _ _ P)|]. rewrite (IH _ _ _ _ _ X). exact (put_size _ _ _ _ P).
Qed.
Lemma shift_cap z n z' : zc_shift z n = Some z' -> zc_capacity z' = zc_capacity z.
Proof.
  unfold zc_shift. destruct (rb_get _ _); [|discriminate]. cbn [bind]. destruct (rb_put _ _ _) eqn:P; [|discriminate]. cbn [bind].
  destruct (shift_loop _ _ _ _ _) eqn:Q; [|discriminate]. cbn [bind]. intros X. injection X as <-. unfold zc_capacity. cbn [z_info].
  rewrite (loop_size _ _ _ _ _ _ Q). exact (put_size _ _ _ _ P).
Qed.
Lemma reset_cap z : zc_capacity (zc_reset z) = zc_capacity z. Proof. reflexivity. Qed.
Lemma begin_cap z z' : zc_begin z = Some z' -> zc_capacity z' = zc_capacity z.
Proof.
  unfold zc_begin. destruct (z_ready z).
  - destruct (zc_shift z _) eqn:Q; [|discriminate]. cbn [bind]. intros X. injection X as <-. rewrite <- (shift_cap _ _ _ Q).
    destruct (_ <=? _)%N; reflexivity.
  - cbn [bind]. intros X. injection X as <-. destruct (_ <=? _)%N; reflexivity.
Qed.
Lemma edge_cap z s z' : zc_edge z s = Some z' -> zc_capacity z' = zc_capacity z.
Proof.
  unfold zc_edge. destruct (flt fzero s).
  - destruct (z_state z).
    + destruct (rb_get _ _); [|discriminate]. cbn [bind]. destruct (rb_put _ _ _) eqn:P; [|discriminate]. cbn [bind].
      intros X. injection X as <-. unfold zc_capacity. destruct (flt _ _); cbn [z_info]; exact (put_size _ _ _ _ P).
    + destruct (_ <? _)%N; [|discriminate]. destruct (rb_push _ _) eqn:P; [|discriminate]. cbn [bind].
      intros X. injection X as <-. unfold zc_capacity. destruct (flt _ _); cbn [z_info]; exact (push_size _ _ _ P).
  - destruct (z_state z && flt s (z_hyst z))%bool; [|intros X; injection X as <-; reflexivity].
    destruct (rb_get _ _); [|discriminate]. cbn [bind]. destruct (rb_put _ _ _) eqn:P; [|discriminate]. cbn [bind].
    intros X. injection X as <-. unfold zc_capacity. cbn [z_info]. exact (put_size _ _ _ _ P).
Qed.
Lemma step_cap z s z' : zc_step z s = Some z' -> zc_capacity z' = zc_capacity z.
Proof.
  unfold zc_step, zc_update. set (z1 := if (zc_capacity z <=? z_num z)%N then zc_reset z else z).
  assert (Q1 : zc_capacity z1 = zc_capacity z) by (unfold z1; destruct (_ <=? _)%N; reflexivity).
  set (z2 := if ((z_frame z1 =? z_win z1 / 2) && (z_num z1 =? 0))%N%bool then zc_reset z1 else z1).
  assert (Q2 : zc_capacity z2 = zc_capacity z) by (unfold z2; destruct (_ && _)%bool; [rewrite reset_cap|]; exact Q1).
  destruct (zc_begin z2) as [y3|] eqn:B; [|discriminate]. cbn [bind]. destruct (zc_edge y3 _) as [z4|] eqn:G; [|discriminate]. cbn [bind].
  assert (Q3 : zc_capacity z4 = zc_capacity z) by (rewrite (edge_cap _ _ _ G), (begin_cap _ _ B); exact Q2).
  clearbody z1 z2. intros X. rewrite <- Q3. clear - X. destruct (z_win z4 * 2 <? z_frame z4)%N; cbn [z_win z_frame z_state z_num zc_reset] in X;
    destruct (_ && _)%bool in X; try destruct (1 <? _)%N in X; injection X as <-; reflexivity.
Qed.
Lemma run_cap xs : forall z z', zc_run z xs = Some z' -> zc_capacity z' = zc_capacity z.
Proof.
  induction xs as [|x xs IH]; intros z z'; cbn [zc_run]; [intros X; injection X as <-; reflexivity|].
  destruct (zc_step z x) eqn:Q; [|discriminate]. cbn [bind]. intros X. rewrite (IH _ _ X). exact (step_cap _ _ _ Q).
Qed.

Definition zc_now (z : zc) : Z := Z.of_N (z_frame z) + (if z_ready z then Z.of_N (z_win z / 2) else 0).
Lemma zc_run_chain hyst n xs : (n <= 2 ^ 28)%N ->
  exists z0 z E J, zc_make hyst n = Some z0 /\ zc_run z0 xs = Some z /\
    (n <= z_win z0)%N /\ (128 <= z_win z0 <= 2 ^ 28)%N /\ least_pow2_ge (z_win z0 / 2) (zc_capacity z) /\ z_win z = z_win z0 /\
    inv (Z.of_N (z_win z)) (conditioned hyst xs) hyst (Z.of_nat (length xs)) z E J.
Proof.
  intros Hn. destruct (make_inv hyst n xs Hn) as (z0 & J0 & E0 & I0 & B & M & L & C & _).
  destruct (run_inv (Z.of_N (z_win z0)) B M (conditioned hyst xs) hyst xs 0 z0 [] J0) as (z & E & J & Er & I); [lia| |exact I0|].
  { intros k Hk. unfold conditioned. destruct (Z.ltb_spec (0 + Z.of_nat k) 0) as [X|_]; [lia|].
    rewrite Z.add_0_l, Nat2Z.id. rewrite (nth_indep _ fzero (fadd fzero (fdiv hyst (mk32 2 0)))) by (rewrite map_length; exact Hk).
    rewrite (map_nth (fun x => fadd x (fdiv hyst (mk32 2 0)))). reflexivity. }
  rewrite Z.add_0_l in I. exists z0, z, E, J. split; [exact E0|]. split; [exact Er|]. split; [exact L|].
  split; [change (2 ^ 28)%N with 268435456%N; change (2 ^ 28) with 268435456 in B; lia|].
  split; [rewrite (run_cap _ _ _ Er); exact C|]. assert (Ew : z_win z = z_win z0) by (pose proof (inv_win _ _ _ _ _ _ _ I); lia).
  split; [exact Ew|]. rewrite Ew. exact I.
Qed.

Lemma zc_final hyst n xs : (n <= 2 ^ 28)%N ->
  exists z0 z o, zc_make hyst n = Some z0 /\ zc_run z0 xs = Some z /\
    let h := conditioned hyst xs in let len := Z.of_nat (length xs) in
    (n <= z_win z)%N /\ least_pow2_ge (z_win z / 2) (zc_capacity z) /\
    (z_num z <= zc_capacity z)%N /\
    (z_ready z = true -> z_state z = false /\ (2 <= z_num z < zc_capacity z)%N) /\
    forall i, (i < z_num z)%N -> exists e, zc_at z i = Some e /\
      (if (z_state z && (i =? z_num z - 1)%N)%bool then pulse_upto h hyst o (len - o) e
       else pulse h hyst o e /\ o + zi_trail e < len) /\
      forall j, (i < j < z_num z)%N -> exists f, zc_at z j = Some f /\
        zi_trail e < zi_lead f /\ (j = i + 1 -> quiet h o (zi_trail e) (zi_lead f))%N /\
        zi_period e f = Some (Z.to_N (zi_lead f - zi_lead e)) /\ zi_frac_period e f <> None.
Proof.
  intros Hn. destruct (zc_run_chain hyst n xs Hn) as (z0 & z & E & J & E0 & Er & L & B & C & Ew & I).
  exists z0, z, (Z.of_nat (length xs) - zc_now z). split; [exact E0|]. split; [exact Er|]. cbn zeta.
  split; [rewrite Ew; exact L|]. split; [rewrite Ew; exact C|].
  pose proof I as [R Nm Hw Hy Hp P]. pose proof (cap_len _ _ _ R) as Hc.
  split; [lia|].
  assert (CH : chain (Z.of_N (z_win z)) (conditioned hyst xs) hyst (z_state z) (Z.of_nat (length xs) - zc_now z) (zc_now z) E /\ zc_now z <= 2 * Z.of_N (z_win z) + 1).
  { unfold zc_now. destruct (z_ready z).
    - destruct P as (S1 & S2 & S3 & S4 & S5 & S6 & S7). rewrite S1. unfold chain.
      replace (Z.of_N (z_win z / 2)) with (Z.of_N (z_win z) / 2) by lia. split; [split; [exact S4|]|exact S7].
      destruct E as [|e [|f E]]; auto.
    - rewrite Z.add_0_r. exact P. }
  destruct CH as [CH NB].
  split.
  { intros Rd. rewrite Rd in P. destruct P as (S1 & S2 & S3 & _). split; [exact S1|]. destruct J; [congruence|]. cbn [length] in Hc. lia. }
  intros i Hi. destruct (ring_at z E J i R Nm Hi) as (e & Ae & Qe). exists e. split; [exact Ae|]. split.
  - pose proof (chain_nth _ _ _ _ _ _ _ _ _ CH Qe) as X.
    replace (Nat.eqb (length E - 1 - N.to_nat i) 0) with (i =? z_num z - 1)%N in X by lia.
    replace (Z.of_nat (length xs) - (Z.of_nat (length xs) - zc_now z)) with (zc_now z) by lia.
    destruct (z_state z && (i =? z_num z - 1)%N)%bool; [exact X|]. destruct X as [X1 X2]. split; [exact X1|lia].
  - intros j Hj. destruct (ring_at z E J j R Nm ltac:(lia)) as (f & Af & Qf). exists f. split; [exact Af|].
    destruct (chain_two _ _ _ _ _ _ _ _ _ _ _ CH (ltac:(lia) : (length E - 1 - N.to_nat j < length E - 1 - N.to_nat i)%nat) Qf Qe) as [D1 D2].
    split; [exact D1|]. split; [intros Ej; apply D2; lia|].
    assert (D3 : zi_lead e < zi_trail e).
    { pose proof (chain_nth _ _ _ _ _ _ _ _ _ CH Qe) as X. replace (Nat.eqb (length E - 1 - N.to_nat i) 0) with false in X by lia.
      rewrite andb_false_r in X. destruct X as [[X _] _]. apply (pu_len _ _ _ _ _ X). }
    assert (D4 : - (5 * Z.of_N (z_win z) + 1) <= zi_lead e /\ zi_lead f < zc_now z).
    { split.
      - assert (In e (tl E)).
        { apply nth_error_In with (length E - 1 - N.to_nat i - 1)%nat. destruct E as [|g t]; [destruct (length (@nil zinfo) - 1 - N.to_nat i)%nat; discriminate Qe|].
          cbn [tl length] in *. replace (S (length t) - 1 - N.to_nat i)%nat with (S (length t - 1 - N.to_nat i)) in Qe by lia.
          cbn [nth_error] in Qe. rewrite <- Qe. f_equal. lia. }
        assert (CL : exists top, closed (Z.of_N (z_win z)) (conditioned hyst xs) hyst (Z.of_nat (length xs) - zc_now z) top (tl E)).
        { unfold chain in CH. destruct (z_state z); destruct E as [|g t]; cbn [tl]; [destruct CH|..].
          - exists (zi_lead g). tauto.
          - exists 0. exact Logic.I.
          - destruct CH as [CH _]. cbn [closed] in CH. exists (zi_lead g). tauto. }
        destruct CL as [top CL]. pose proof (closed_lo _ _ _ _ _ _ e CL H). lia.
      - pose proof (chain_nth _ _ _ _ _ _ _ _ _ CH Qf) as X. destruct (_ && _)%bool.
        + apply (pu_len _ _ _ _ _ X).
        + destruct X as [[X _] X2]. pose proof (pu_len _ _ _ _ _ X). lia. }
    change (2 ^ 28)%N with 268435456%N in B.
    unfold zi_period, zi_frac_period. destruct (Z.leb_spec (zi_lead e) (zi_lead f)) as [_|X]; [|lia]. split; [|discriminate].
    f_equal. f_equal. apply Z.mod_small. change (2 ^ 64) with 18446744073709551616. lia.
Qed.
End Final.
