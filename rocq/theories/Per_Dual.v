(** C55 for the predictions of the dual pitch detector. *)
From Coq Require Import Reals Lra.
From Flocq Require Import Core.Core IEEE754.BinarySingleNaN.
From Verif Require Import Common CommonFacts Float FloatFacts FloatRel Zc_Model Zc_Spec Zc_Proof PD_Model PD_Spec PD_Proof PD_Pred
  Pitch_Model Pitch_Spec Pitch_Proof Filt_Model Dual_Model Dual_Spec Dual_Proof Per_Spec Per_Zc Per_Ana Per_Proof Per_Pred.
Local Open Scope Z_scope.

Lemma dual_app oob cs1 : forall d cs2, dual_calls oob d (cs1 ++ cs2) = do q <- dual_calls oob d cs1 ; dual_calls oob q cs2.
Proof.
  induction cs1 as [|[s|] cs IH]; intros d cs2; cbn [app dual_calls]; [reflexivity| |].
  - destruct (dual_step oob d s); cbn [bind]; [apply IH|reflexivity].
  - destruct (dual_predict d); cbn [bind]; [apply IH|reflexivity].
Qed.
(** where a prediction held after a sample comes from *)
Lemma step_pred oob (Ho : forall y, (- 2 ^ 31 <= oob y < 2 ^ 31)%Z) hyst n min range sps (Hn : (n <= 2 ^ 28)%N) (Hm : (min < 2 ^ 64)%N) t0
  (Et : pit_make hyst n min range sps = Some t0) d xs s d' b :
  dinv oob t0 d xs -> dual_step oob d s = Some (d', b) ->
  d_pred d' = fzero \/ d_pred d' = d_pred d \/ exists q r, dinv oob t0 q (xs ++ [s]) /\ dual_compute q = Some r /\ d_pred d' = d_pred r.
Proof.
  intros (A1 & A2 & C & Pd) E. unfold dual_step in E.
  destruct (after_step oob Ho hyst n min range sps Hn Hm t0 Et _ _ s A1) as (t1 & b1 & E1 & B1).
  destruct (after_step oob Ho hyst n min range sps Hn Hm t0 Et _ _ (fneg s) A2) as (t2 & b2 & E2 & B2).
  rewrite E1 in E. cbn [bind] in E. rewrite E2 in E. cbn [bind fst snd] in E.
  assert (B2' : after oob t0 t2 (map fneg (xs ++ [s]))) by (rewrite map_app; exact B2). clear B2.
  destruct (b1 || b2)%bool; [|injection E as <- _; right; left; reflexivity].
  destruct (indeterminate t1), (indeterminate t2); cbn [negb andb] in E.
  - right. right. match type of E with (do c <- dual_compute ?q ; _) = _ => exists q; destruct (dual_compute q) as [r|] eqn:Er end; cbn [bind] in E; [|discriminate E].
    exists r. injection E as <- _. split; [|split; reflexivity]. unfold dinv. cbn [d_1 d_2 d_cur d_mean d_pred d_first]. auto.
  - injection E as <- _. right; left; reflexivity.
  - injection E as <- _. right; left; reflexivity.
  - destruct (d_first d); [injection E as <- _; left; reflexivity|]. destruct (within_octave _ _); injection E as <- _; [left|right; left]; reflexivity.
Qed.
