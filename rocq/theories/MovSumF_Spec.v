(** 24-bit PCM samples and the exact sum of a window of them. *)
From Coq Require Import Reals.
From Flocq Require Import Core.Core IEEE754.BinarySingleNaN.
From Verif Require Import Common MovSum_Model MovSum_Spec Float.

(** a sample of the form k / 2^23 with |k| <= 2^23 (24-bit audio, range [-1, 1]) *)
Definition pcm24 (x : f32) : Prop :=
  is_finite x = true /\ exists k : Z, (Z.abs k <= 2 ^ 23)%Z /\ B2R x = (IZR k / 8388608)%R.
(** exact real sum of a list of samples *)
Definition rsum (l : list f32) : R := fold_right (fun x s => (B2R x + s)%R) 0%R l.
