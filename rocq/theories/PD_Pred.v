(** predict_period(): what it returns, and that it does not disturb the detection. *)
From Flocq Require Import Core.Core IEEE754.BinarySingleNaN.
From Verif Require Import Common CommonFacts Float Ring_Model Bitset_Model Bitset_Spec Zc_Model PD_Model PD_Spec PD_Proof.

(** equal up to the two mutable members *)
Definition with_pred (p : pd) (v : f32) (e : N) : pd :=
  mkPd (p_zc p) (p_period p) (p_periodicity p) (p_min p) (p_range p) (p_bits p) (p_weight p) (p_mid p)
    (p_diff p) v (p_mark p) e (p_pulses p) (p_half_empty p).
Lemma with_pred_id p : with_pred p (p_predicted p) (p_predict_edge p) = p. Proof. destruct p; reflexivity. Qed.

Lemma set_bitstream_pred p v e : set_bitstream (with_pred p v e) = do q <- set_bitstream p ; Some (with_pred q v e).
Proof.
  unfold set_bitstream. change (p_zc (with_pred p v e)) with (p_zc p). change (pd_threshold (with_pred p v e)) with (pd_threshold p).
  change (p_bits (with_pred p v e)) with (p_bits p).
  destruct (set_bits_loop _ _ _ _ _) as [[[[b l] t] n]|]; reflexivity.
Qed.
Lemma inner_pred oob p v e diff hthr ei i : forall k j c, inner_loop oob (with_pred p v e) diff hthr ei i k j c = inner_loop oob p diff hthr ei i k j c.
Proof.
  induction k as [|k IH]; intros j c; [reflexivity|]. cbn [inner_loop].
  change (p_zc (with_pred p v e)) with (p_zc p). change (pd_threshold (with_pred p v e)) with (pd_threshold p).
  change (p_min (with_pred p v e)) with (p_min p). change (p_bits (with_pred p v e)) with (p_bits p).
  change (p_mid (with_pred p v e)) with (p_mid p). change (p_weight (with_pred p v e)) with (p_weight p). change (p_range (with_pred p v e)) with (p_range p).
  destruct (zc_at (p_zc p) j) as [x|]; cbn [bind]; [|reflexivity].
  destruct (fge _ _); [|apply IH].
  destruct (zi_period ei x) as [per|]; cbn [bind]; [|reflexivity].
  destruct (_ <? per)%N; [reflexivity|]. destruct (_ <=? per)%N; [|apply IH].
  destruct (autocorr1 _ _ _ _) as [[u|[count per']]|]; cbn [bind]; [reflexivity| |reflexivity].
  destruct (collect _ _ _ _ _ _ _) as [c'|]; cbn [bind]; [|reflexivity]. destruct (count =? 0)%N; [reflexivity|apply IH].
Qed.
Lemma outer_pred oob p v e diff hthr : forall k i c, outer_loop oob (with_pred p v e) diff hthr k i c = outer_loop oob p diff hthr k i c.
Proof.
  induction k as [|k IH]; intros i c; [reflexivity|]. cbn [outer_loop].
  change (p_zc (with_pred p v e)) with (p_zc p). change (pd_threshold (with_pred p v e)) with (pd_threshold p).
  destruct (zc_at _ _) as [x|]; cbn [bind]; [|reflexivity]. destruct (fge _ _); [|apply IH].
  rewrite inner_pred. destruct (inner_loop _ _ _ _ _ _ _ _ _) as [[c1 r]|]; cbn [bind]; [|reflexivity]. cbn [fst snd]. destruct r; [reflexivity|apply IH].
Qed.
Lemma autocorrelate_pred oob p v e : autocorrelate oob (with_pred p v e) = do q <- autocorrelate oob p ; Some (with_pred q v e).
Proof.
  unfold autocorrelate. change (p_zc (with_pred p v e)) with (p_zc p). change (p_half_empty (with_pred p v e)) with (p_half_empty p).
  change (p_pulses (with_pred p v e)) with (p_pulses p). change (p_diff (with_pred p v e)) with (p_diff p).
  rewrite outer_pred.
  destruct (1 <? _)%N; [|reflexivity]. cbv zeta. destruct (_ || _)%bool; [reflexivity|].
  destruct (outer_loop _ _ _ _ _ _ _) as [c|]; cbn [bind]; [|reflexivity]. destruct (coll_empty c); [reflexivity|].
  destruct (period_of _ _); reflexivity.
Qed.

(** the sample ended a pulse *)
Definition fell (p q : pd) : bool := (z_state (p_zc p) && negb (z_state (p_zc q)))%bool.
Lemma set_bitstream_keep p q : set_bitstream p = Some q ->
  p_zc q = p_zc p /\ p_predicted q = p_predicted p /\ p_mark q = p_mark p /\ p_predict_edge q = p_predict_edge p.
Proof. unfold set_bitstream. destruct (set_bits_loop _ _ _ _ _) as [[[[b l] t] n]|]; cbn [bind]; [|discriminate]. intros E. injection E as <-. auto. Qed.
Lemma autocorrelate_keep oob p q : autocorrelate oob p = Some q ->
  p_zc q = p_zc p /\ p_predicted q = p_predicted p /\ p_mark q = p_mark p /\ p_predict_edge q = p_predict_edge p.
Proof.
  unfold autocorrelate. destruct (1 <? _)%N; [|discriminate]. cbv zeta. destruct (_ || _)%bool; [intros E; injection E as <-; auto|].
  destruct (outer_loop _ _ _ _ _ _ _) as [c|]; cbn [bind]; [|discriminate]. destruct (coll_empty c); [intros E; injection E as <-; auto|].
  destruct (period_of _ _); cbn [bind]; [|discriminate]. intros E; injection E as <-; auto.
Qed.
Lemma step_mutable oob p s q : pd_step oob p s = Some q ->
  p_predicted q = (if fell p q then z32 (-1) else p_predicted p) /\
  p_mark q = (if fell p q then add64 (p_mark p) 1 else p_mark p) /\ p_predict_edge q = p_predict_edge p /\
  (z_ready (p_zc q) = false -> if zc_is_reset (p_zc q) then p_period q = z32 (-1) /\ p_periodicity q = fzero
     else p_period q = p_period p /\ p_periodicity q = p_periodicity p).
Proof.
  unfold pd_step. destruct (zc_step (p_zc p) s) as [z|]; cbn [bind]; [|discriminate]. set (p1 := mkPd z _ _ _ _ _ _ _ _ _ _ _ _ _).
  assert (K : forall q, p_zc q = z -> (negb (z_state z) && negb (Bool.eqb (z_state (p_zc p)) (z_state z)))%bool = fell p q).
  { intros q' E. unfold fell. rewrite E. destruct (z_state z), (z_state (p_zc p)); reflexivity. }
  destruct (z_ready z) eqn:Rd.
  - destruct (set_bitstream p1) as [p2|] eqn:E2; cbn [bind]; [|discriminate]. intros E3.
    destruct (set_bitstream_keep _ _ E2) as (Z2 & A2 & B2 & C2). destruct (autocorrelate_keep _ _ _ E3) as (Z3 & A3 & B3 & C3).
    assert (Zq : p_zc q = z) by (rewrite Z3, Z2; reflexivity).
    rewrite A3, A2, B3, B2, C3, C2. unfold p1. cbn [p_predicted p_mark p_predict_edge]. rewrite (K q Zq). rewrite Zq, Rd. repeat (split; [reflexivity|]). discriminate.
  - intros E. injection E as <-. split; [|split; [|split]].
    + unfold p1. cbn [p_predicted]. rewrite (K p1 eq_refl). reflexivity.
    + unfold p1. cbn [p_mark]. rewrite (K p1 eq_refl). reflexivity.
    + reflexivity.
    + intros _. unfold p1. cbn [p_zc p_period p_periodicity]. destruct (zc_is_reset z); auto.
Qed.
Lemma step_pred oob p v e s : exists v', pd_step oob (with_pred p v e) s = do q <- pd_step oob p s ; Some (with_pred q v' e).
Proof.
  unfold pd_step. change (p_zc (with_pred p v e)) with (p_zc p). destruct (zc_step (p_zc p) s) as [z|]; cbn [bind]; [|exists v; reflexivity].
  set (edge := (_ && _)%bool). exists (if edge then z32 (-1) else v).
  set (p1 := mkPd z _ _ (p_min p) (p_range p) (p_bits p) (p_weight p) (p_mid p) (p_diff p) (if edge then z32 (-1) else p_predicted p) _ _ _ _).
  match goal with |- context [set_bitstream ?x] => change x with (with_pred p1 (if edge then z32 (-1) else v) e) end.
  destruct (z_ready z); [|reflexivity]. rewrite set_bitstream_pred. destruct (set_bitstream p1) as [p2|]; cbn [bind]; [|reflexivity]. apply autocorrelate_pred.
Qed.
Lemma run_pred oob xs : forall p v e, exists v', pd_run oob (with_pred p v e) xs = do q <- pd_run oob p xs ; Some (with_pred q v' e).
Proof.
  induction xs as [|x xs IH]; intros p v e; [exists v; reflexivity|]. cbn [pd_run].
  destruct (step_pred oob p v e x) as (v1 & E1). rewrite E1. destruct (pd_step oob p x) as [q|]; cbn [bind]; [apply IH|exists v; reflexivity].
Qed.
Lemma predict_form p q r : pd_predict p = Some (q, r) -> exists v e, q = with_pred p v e.
Proof.
  unfold pd_predict. destruct (_ && _)%bool.
  - destruct (if (1 <? z_num (p_zc p))%N then predict_outer p (N.to_nat (z_num (p_zc p))) else Some None) as [o|]; cbn [bind]; [|discriminate]. intros E. injection E as <- <-. do 2 eexists. reflexivity.
  - intros E. injection E as <- <-. exists (p_predicted p), (p_predict_edge p). symmetry. apply with_pred_id.
Qed.
(** a history with predictions reaches the state that its samples alone reach, up to the two
    members of the prediction *)
Lemma calls_run oob cs : forall p q, pd_calls oob p cs = Some q -> exists r v e, pd_run oob p (samples cs) = Some r /\ q = with_pred r v e.
Proof.
  induction cs as [|[s|] cs IH]; intros p q; cbn [pd_calls samples pd_run].
  - intros E. injection E as <-. exists p, (p_predicted p), (p_predict_edge p). split; [reflexivity|symmetry; apply with_pred_id].
  - destruct (pd_step oob p s) as [p1|]; cbn [bind]; [|discriminate]. apply IH.
  - destruct (pd_predict p) as [[p1 r]|] eqn:E1; cbn [bind fst]; [|discriminate]. intros E2.
    destruct (predict_form _ _ _ E1) as (v & e & ->). destruct (IH _ _ E2) as (r0 & v0 & e0 & E3 & ->).
    destruct (run_pred oob (samples cs) p v e) as (v1 & E4). rewrite E4 in E3. destruct (pd_run oob p (samples cs)) as [r1|]; cbn [bind] in E3; [|discriminate].
    injection E3 as <-. exists r1, v0, e0. auto.
Qed.
Lemma pinv_pred W p v e : pinv W p -> pinv W (with_pred p v e).
Proof. intros [A B C]. constructor; assumption. Qed.
(** every history succeeds *)
Lemma calls_total oob hyst n min range p0 cs : (n <= 2 ^ 28)%N -> pd_make hyst n min range = Some p0 ->
  exists p, pd_calls oob p0 cs = Some p /\ pinv (z_win (p_zc p0)) p.
Proof.
  intros Hn E0. induction cs as [|c cs IH] using rev_ind.
  { destruct (pd_run_ok oob hyst n min range [] Hn) as (q0 & q & F0 & F1 & _ & _ & _ & _ & I & _). rewrite E0 in F0. injection F0 as <-.
    cbn [pd_run] in F1. injection F1 as <-. exists p0. auto. }
  assert (Sn : forall p cs c, pd_calls oob p (cs ++ [c]) = do q <- pd_calls oob p cs ; pd_calls oob q [c]).
  { clear. intros p cs. revert p. induction cs as [|[x|] cs IH]; intros p c; cbn [app pd_calls]; [destruct c; reflexivity| |].
    - destruct (pd_step oob p x); cbn [bind]; [apply IH|reflexivity].
    - destruct (pd_predict p); cbn [bind]; [apply IH|reflexivity]. }
  destruct IH as (p & Ep & I). rewrite Sn, Ep. cbn [bind].
  destruct (calls_run oob cs p0 p Ep) as (r & v & e & Er & ->).
  destruct c as [s|]; cbn [pd_calls].
  - destruct (pd_run_ok oob hyst n min range (samples cs ++ [s]) Hn) as (q0 & q & F0 & F1 & _ & _ & _ & _ & I' & _).
    rewrite E0 in F0. injection F0 as <-. rewrite pd_run_snoc, Er in F1. cbn [bind] in F1.
    destruct (step_pred oob r v e s) as (v' & E'). rewrite E', F1. cbn [bind]. eexists. split; [reflexivity|]. apply pinv_pred. exact I'.
  - destruct (pd_run_ok oob hyst n min range [] Hn) as (q0 & q & F0 & _ & _ & _ & B & M & _). rewrite E0 in F0. injection F0 as <-.
    destruct (predict_ok_all _ B M _ I) as (p' & w & Ew & _). rewrite Ew. cbn [bind fst]. exists p'. split; [reflexivity|].
    destruct (predict_form _ _ _ Ew) as (v1 & e1 & ->). apply pinv_pred. exact I.
Qed.

(** what is computed *)
Lemma inner_spec p f : forall k, (N.of_nat k <= z_num (p_zc p))%N -> forall r, predict_inner p f k = Some r ->
  match r with
  | Some v => exists j, (j < N.of_nat k)%N /\ long_before p f j v /\ forall i w, (j < i < N.of_nat k)%N -> ~ long_before p f i w
  | None => forall i w, (i < N.of_nat k)%N -> ~ long_before p f i w
  end.
Proof.
  induction k as [|k IH]; intros Hk r; cbn [predict_inner].
  { intros E. injection E as <-. intros i w Hi. lia. }
  destruct (zc_at (p_zc p) (N.of_nat k)) as [e|] eqn:Ae; cbn [bind]; [|discriminate].
  assert (Down : (forall w, ~ long_before p f (N.of_nat k) w) -> predict_inner p f k = Some r ->
    match r with
    | Some v => exists j, (j < N.of_nat (S k))%N /\ long_before p f j v /\ forall i w, (j < i < N.of_nat (S k))%N -> ~ long_before p f i w
    | None => forall i w, (i < N.of_nat (S k))%N -> ~ long_before p f i w
    end).
  { intros No E. specialize (IH ltac:(lia) r E). destruct r as [v|].
    - destruct IH as (j & Hj & L & Q). exists j. split; [lia|]. split; [exact L|]. intros i w Hi.
      destruct (N.eq_dec i (N.of_nat k)) as [->|Ne]; [apply No|apply Q; lia].
    - intros i w Hi. destruct (N.eq_dec i (N.of_nat k)) as [->|Ne]; [apply No|apply IH; lia]. }
  destruct (fge (zi_peak e) (pd_threshold p)) eqn:G.
  - destruct (zi_frac_period e f) as [q|] eqn:Fq; cbn [bind]; [|discriminate]. destruct (fgt q _) eqn:Gt.
    + intros E. injection E as <-. exists (N.of_nat k). split; [lia|]. split; [|intros; lia].
      exists e. split; [|auto]. repeat split; [lia|exact Ae|exact G].
    + apply Down. intros w (e' & (_ & A & _) & Fw & Gw). rewrite Ae in A. injection A as <-. rewrite Fq in Fw. injection Fw as <-. rewrite Gt in Gw. discriminate.
  - apply Down. intros w (e' & (_ & A & G') & _). rewrite Ae in A. injection A as <-. rewrite G in G'. discriminate.
Qed.
Lemma outer_spec p : forall k, (N.of_nat k <= z_num (p_zc p))%N -> (forall i g, (N.of_nat k <= i)%N -> ~ strong p i g) ->
  forall r, predict_outer p k = Some r -> predicts p (match r with Some v => v | None => z32 (-1) end).
Proof.
  induction k as [|k IH]; intros Hk Up r; cbn [predict_outer].
  { intros E. injection E as <-. right. split; [reflexivity|]. intros i g Hi. apply Up. lia. }
  destruct k as [|k]; [intros E; injection E as <-; right; split; [reflexivity|]; intros i g Hi; apply Up; lia|].
  destruct (zc_at (p_zc p) (N.of_nat (S k))) as [e|] eqn:Ae; cbn [bind]; [|discriminate].
  destruct (fge (zi_peak e) (pd_threshold p)) eqn:G.
  - destruct (predict_inner p e (S k)) as [r'|] eqn:Ei; cbn [bind]; [|discriminate]. intros E. injection E as <-.
    left. exists (N.of_nat (S k)), e. split; [lia|]. split; [repeat split; [lia|exact Ae|exact G]|]. split; [intros i g Hi; apply Up; lia|].
    pose proof (inner_spec p e (S k) ltac:(lia) r' Ei) as S. destruct r' as [v|]; [left; exact S|right; split; [reflexivity|exact S]].
  - apply IH; [lia|]. intros i g Hi. destruct (N.eq_dec i (N.of_nat (S k))) as [->|Ne]; [|apply Up; lia].
    intros (_ & A & G'). rewrite Ae in A. injection A as <-. rewrite G in G'. discriminate.
Qed.
Lemma z32_m1_feq : feq (z32 (-1)) (z32 (-1)) = true. Proof. vm_compute. reflexivity. Qed.
Lemma predict_fresh p q v : p_predicted p = z32 (-1) -> p_mark p <> p_predict_edge p -> pd_predict p = Some (q, v) -> predicts p v.
Proof.
  intros Hp Hm. unfold pd_predict. rewrite Hp, z32_m1_feq. replace (p_mark p =? p_predict_edge p)%N with false by (symmetry; apply N.eqb_neq; exact Hm).
  cbn [andb negb]. destruct (1 <? z_num (p_zc p))%N eqn:L.
  - destruct (predict_outer _ _) as [r|] eqn:E; cbn [bind]; [|discriminate]. intros X. injection X as <- <-.
    refine (outer_spec p _ _ _ r E); [lia|]. intros i g Hi (H & _). lia.
  - cbn [bind]. intros X. injection X as <- <-. right. split; [reflexivity|]. intros k g Hk (H & _). apply N.ltb_ge in L. lia.
Qed.
Lemma predict_again p q v : pd_predict p = Some (q, v) -> pd_predict q = Some (q, v).
Proof.
  unfold pd_predict at 1. destruct (_ && _)%bool eqn:C.
  - destruct (if (1 <? z_num (p_zc p))%N then predict_outer p (N.to_nat (z_num (p_zc p))) else Some None) as [o|]; cbn [bind]; [|discriminate]. intros E. injection E as <- <-.
    unfold pd_predict. cbn [p_predicted p_mark p_predict_edge]. rewrite N.eqb_refl. cbn [negb]. rewrite andb_false_r. reflexivity.
  - intros E. injection E as <- <-. unfold pd_predict. rewrite C. reflexivity.
Qed.
Lemma predict_kept oob p q v s r : pd_predict p = Some (q, v) -> pd_step oob q s = Some r -> fell q r = false -> pd_predict r = Some (r, v).
Proof.
  intros P S F. pose proof (predict_again _ _ _ P) as A. destruct (step_mutable _ _ _ _ S) as (M1 & M2 & M3 & _). rewrite F in M1, M2.
  assert (C : (feq (p_predicted q) (z32 (-1)) && negb (p_mark q =? p_predict_edge q)%N)%bool = false /\ p_predicted q = v).
  { unfold pd_predict in P. destruct (_ && _)%bool eqn:C.
    - destruct (if (1 <? z_num (p_zc p))%N then predict_outer p (N.to_nat (z_num (p_zc p))) else Some None) as [o|]; cbn [bind] in P; [|discriminate]. injection P as <- <-. cbn [p_predicted p_mark p_predict_edge].
      rewrite N.eqb_refl, andb_false_r. auto.
    - injection P as <- <-. auto. }
  unfold pd_predict. rewrite M1, M2, M3, (proj1 C), (proj2 C). reflexivity.
Qed.
(** the edge counters *)
Definition minv (p : pd) (n : N) : Prop := (p_predict_edge p <= p_mark p <= n)%N.
Lemma step_minv oob p s q n : (n < 2 ^ 64 - 1)%N -> minv p n -> pd_step oob p s = Some q -> minv q (n + 1).
Proof.
  intros Hn [A B] S. destruct (step_mutable _ _ _ _ S) as (_ & M & E & _). unfold minv. rewrite M, E.
  change (2 ^ 64 - 1)%N with 18446744073709551615%N in Hn.
  destruct (fell p q); [|lia]. unfold add64, wrap64, W64. rewrite N.mod_small by (change (2 ^ 64)%N with 18446744073709551616%N; lia). lia.
Qed.
Lemma predict_minv p q v n : minv p n -> pd_predict p = Some (q, v) -> minv q n.
Proof.
  intros [A B]. unfold pd_predict. destruct (_ && _)%bool.
  - destruct (if (1 <? z_num (p_zc p))%N then predict_outer p (N.to_nat (z_num (p_zc p))) else Some None); cbn [bind]; [|discriminate]. intros E. injection E as <- <-. unfold minv. cbn [p_mark p_predict_edge]. lia.
  - intros E. injection E as <- <-. split; assumption.
Qed.
Lemma calls_minv oob cs : forall p q n, (n + N.of_nat (length cs) < 2 ^ 64)%N -> minv p n -> pd_calls oob p cs = Some q -> minv q (n + N.of_nat (length cs)).
Proof.
  change (2 ^ 64)%N with 18446744073709551616%N.
  induction cs as [|[s|] cs IH]; intros p q n Hn I; cbn [pd_calls length] in *.
  - intros E. injection E as <-. replace (n + N.of_nat 0)%N with n by lia. exact I.
  - destruct (pd_step oob p s) as [p1|] eqn:E1; cbn [bind]; [|discriminate]. intros E.
    replace (n + N.of_nat (S (length cs)))%N with (n + 1 + N.of_nat (length cs))%N by lia. apply (IH p1); [lia| |exact E].
    apply (step_minv oob p s); [change (2 ^ 64 - 1)%N with 18446744073709551615%N; lia|exact I|exact E1].
  - destruct (pd_predict p) as [[p1 v]|] eqn:E1; cbn [bind fst]; [|discriminate]. intros E.
    replace (n + N.of_nat (S (length cs)))%N with (n + 1 + N.of_nat (length cs))%N by lia. apply (IH p1); [lia| |exact E].
    destruct (predict_minv p p1 v n I E1). split; lia.
Qed.
(** no prediction since an edge *)
Definition due (p : pd) : Prop := p_predicted p = z32 (-1) /\ (p_predict_edge p < p_mark p)%N.
Lemma run_due oob xs : forall p q n, (n + N.of_nat (length xs) < 2 ^ 64)%N -> minv p n -> due p -> pd_run oob p xs = Some q -> due q.
Proof.
  change (2 ^ 64)%N with 18446744073709551616%N.
  induction xs as [|x xs IH]; intros p q n Hn I [D1 D2]; cbn [pd_run length] in *; [intros E; injection E as <-; split; assumption|].
  destruct (pd_step oob p x) as [p1|] eqn:E1; cbn [bind]; [|discriminate]. intros E.
  assert (I1 : minv p1 (n + 1)) by (apply (step_minv oob p x); [change (2 ^ 64 - 1)%N with 18446744073709551615%N; lia|exact I|exact E1]).
  apply (IH p1 q (n + 1)%N); [lia|exact I1| |exact E].
  destruct (step_mutable _ _ _ _ E1) as (M1 & M2 & M3 & _). destruct I as [A B]. split.
  - rewrite M1, D1. destruct (fell p p1); reflexivity.
  - rewrite M2, M3. destruct (fell p p1); [|exact D2]. unfold add64, wrap64, W64. rewrite N.mod_small by (change (2 ^ 64)%N with 18446744073709551616%N; lia). lia.
Qed.
Lemma make_minv hyst n min range p0 : pd_make hyst n min range = Some p0 -> minv p0 0 /\ p_predicted p0 = z32 (-1).
Proof. unfold pd_make. destruct (zc_make hyst n); cbn [bind]; [|discriminate]. intros E. injection E as <-. split; [split; cbn; lia|reflexivity]. Qed.
Lemma predict_after_edge oob hyst n min range p0 cs p1 s p2 xs p3 q v :
  (N.of_nat (length cs) + N.of_nat (length xs) + 1 < 2 ^ 64)%N ->
  pd_make hyst n min range = Some p0 -> pd_calls oob p0 cs = Some p1 -> pd_step oob p1 s = Some p2 -> fell p1 p2 = true ->
  pd_run oob p2 xs = Some p3 -> pd_predict p3 = Some (q, v) -> predicts p3 v.
Proof.
  change (2 ^ 64)%N with 18446744073709551616%N.
  intros L E0 E1 E2 F E3 E4. destruct (make_minv _ _ _ _ _ E0) as [I0 _].
  pose proof (calls_minv oob cs p0 p1 0%N ltac:(change (2 ^ 64)%N with 18446744073709551616%N; lia) I0 E1) as I1.
  assert (I2 : minv p2 (0 + N.of_nat (length cs) + 1)) by (apply (step_minv oob p1 s); [change (2 ^ 64 - 1)%N with 18446744073709551615%N; lia|exact I1|exact E2]).
  assert (D2 : due p2).
  { destruct (step_mutable _ _ _ _ E2) as (M1 & M2 & M3 & _). rewrite F in M1, M2. destruct I1 as [A B]. split; [exact M1|]. rewrite M2, M3.
    unfold add64, wrap64, W64. rewrite N.mod_small by (change (2 ^ 64)%N with 18446744073709551616%N; lia). lia. }
  destruct (run_due oob xs p2 p3 (0 + N.of_nat (length cs) + 1)%N ltac:(change (2 ^ 64)%N with 18446744073709551616%N; lia) I2 D2 E3) as [D3 D4].
  apply (predict_fresh p3 q v D3); [lia|exact E4].
Qed.
