(** Property C38 (note frequencies, binary64).  Theorems only. *)
From Coq Require Import Reals Lra.
From Flocq Require Import Core.Core IEEE754.BinarySingleNaN.
From Verif Require Import Common Float FloatFacts Notes_Model Notes_Spec Notes_Proof.
Local Open Scope R_scope.

(** C38: every MIDI key from 9 to 119 has the equal-tempered frequency 440 * 2^((key-69)/12)
    to within one part in 10^14 ... *)
Theorem C38_equal_temperament :
  forall key : N, (9 <= key <= 119)%N ->
  exists f, note_frequency key = Some f /\ is_finite f = true /\ 0 < B2R f /\
    Rabs (B2R f - tempered (Z.of_N key - 69)) <= tempered (Z.of_N key - 69) / 100000000000000.
Proof.
  intros key H. destruct (nf_test_ok _ _ (keys_near key ltac:(lia) ltac:(lia))) as (f & E & N).
  exists f. split; [exact E|]. exact (near12_correct _ _ N).
Qed.
Print Assumptions C38_equal_temperament.

(** ... doubles exactly every 12 keys ... *)
Theorem C38_octave_doubles :
  forall key : N, (9 <= key <= 107)%N ->
  exists f g, note_frequency key = Some f /\ note_frequency (key + 12) = Some g /\ B2R g = 2 * B2R f.
Proof. exact (fun key H => keys_double_R key (proj1 H) (proj2 H)). Qed.
Print Assumptions C38_octave_doubles.

(** ... is strictly increasing in the key ... *)
Theorem C38_strictly_increasing :
  forall k1 k2 : N, (9 <= k1)%N -> (k1 < k2)%N -> (k2 <= 119)%N ->
  exists f g, note_frequency k1 = Some f /\ note_frequency k2 = Some g /\ B2R f < B2R g.
Proof.
  intros k1 k2 H1 H2 H3. destruct (keys_incr_all (N.to_nat (k2 - k1 - 1)) k1 H1) as (f & g & E & G & H); [lia|].
  exists f, g. replace (k1 + N.of_nat (S (N.to_nat (k2 - k1 - 1))))%N with k2 in G by lia. auto.
Qed.
Print Assumptions C38_strictly_increasing.

(** ... and A4 (key 69) is exactly 440 Hz *)
Theorem C38_A4 : exists f, note_frequency 69 = Some f /\ B2R f = 440.
Proof.
  exists (mk64 440 0). split; [reflexivity|]. destruct (mk64_small 440 0) as [E _]; [lia|lia|].
  rewrite E. cbn [bpow]. lra.
Qed.
Print Assumptions C38_A4.

(** The claim "every MIDI key 0..127 has its frequency" is false: keys 0..8 and 120..127
    give 0 Hz *)
Theorem C38_outer_keys_refuted :
  forall key : N, (key < 9 \/ 119 < key)%N -> exists f, note_frequency key = Some f /\ B2R f = 0.
Proof.
  intros key H. exists fzero. split; [|reflexivity]. unfold note_frequency.
  destruct (N.ltb_spec key 9); [reflexivity|]. destruct (N.ltb_spec 119 key); [reflexivity|lia].
Qed.
Print Assumptions C38_outer_keys_refuted.

(** C38 (named notes, namespace notes): array entry i of every note except [eb] is the
    tempered frequency of that note, the A of octave i being 12 (i - 4) semitones from A4 *)
Theorem C38_named_notes :
  forall (a : note_array) (i : nat), (i < 8)%nat -> a <> arr_eb ->
  exists f, nth_error (notes_array a) i = Some f /\
    let t := tempered (12 * (Z.of_nat i - 4) + semitones a) in
    Rabs (B2R f - t) <= t / 100000000000000.
Proof.
  intros a i Hi Ha. pose proof (arr_near a i Hi Ha) as H. unfold arr_test in H.
  destruct (nth_error (notes_array a) i) as [f|]; [|discriminate]. exists f. split; [reflexivity|].
  apply (near12_correct _ _ H).
Qed.
Print Assumptions C38_named_notes.

(** false for [notes::eb], which holds the frequencies of E, a semitone (over 5 %) too high *)
Theorem C38_e_flat_refuted :
  forall i : nat, (i < 8)%nat ->
  exists f, nth_error (notes_array arr_eb) i = Some f /\
    1.05 * tempered (12 * (Z.of_nat i - 4) + semitones arr_eb) < B2R f.
Proof.
  intros i Hi. pose proof (arr_eb_E i Hi) as H. unfold arr_test in H.
  destruct (nth_error (notes_array arr_eb) i) as [f|]; [|discriminate]. exists f. split; [reflexivity|].
  destruct (near12_correct _ _ H) as (_ & _ & N). apply Rabs_le_inv in N. cbn [semitones] in *.
  pose proof (tempered_step (12 * (Z.of_nat i - 4) + -6)) as S.
  replace (12 * (Z.of_nat i - 4) + -6 + 1)%Z with (12 * (Z.of_nat i - 4) + -5)%Z in S by ring.
  pose proof (tempered_pos (12 * (Z.of_nat i - 4) + -6)). lra.
Qed.
Print Assumptions C38_e_flat_refuted.

Example C38_example :
  nf_test 60 (fun f => flt (mk64 523 (-1)) f && flt f (mk64 262 0)) = true /\
  nf_test 0 (fun f => feq f fzero) = true /\ nf_test 127 (fun f => feq f fzero) = true.
Proof. vm_compute. repeat split. Qed.
