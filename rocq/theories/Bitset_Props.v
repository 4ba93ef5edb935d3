(** Properties C04, C05, C06.  Theorems only. *)
From Verif Require Import Common Bitset_Model Bitset_Spec Bitset_Proof.
Local Open Scope N_scope.

(** C04 (construction): the requested number of bits rounded up to whole words,
    all zero. *)
Theorem C04_bitset_make :
  forall w, word_width w -> forall nbits, nbits <= 2 ^ 62 ->
  let b := bs_make w nbits in
  bs_wf w b /\ nbits <= bs_size w b /\ bs_size w b < nbits + w /\ bs_size w b mod w = 0 /\
  forall j, j < bs_size w b -> bs_get w b j = Some false.
Proof. exact make_spec. Qed.
Print Assumptions C04_bitset_make.

(** C04 (range write): exactly the bits of [i, i+n) below size() change, nothing is
    accessed outside the storage; all widths, contents, i, n (i+n not wrapping). *)
Theorem C04_bitset_range_set :
  forall w, word_width w -> forall b i n val,
  bs_wf w b -> i + n < 2 ^ 64 ->
  exists b', bs_set w b i n val = Some b' /\ bs_wf w b' /\ bs_size w b' = bs_size w b /\
    forall j, j < bs_size w b ->
      bs_get w b' j = if (i <=? j) && (j <? i + n) then Some val else bs_get w b j.
Proof. exact set_get. Qed.
Print Assumptions C04_bitset_range_set.

Theorem C04_bitset_clear :
  forall w, word_width w -> forall b, bs_wf w b ->
  bs_wf w (bs_clear b) /\ bs_size w (bs_clear b) = bs_size w b /\
  forall j, j < bs_size w b -> bs_get w (bs_clear b) j = Some false.
Proof. exact clear_get. Qed.
Print Assumptions C04_bitset_clear.

(** C04: without the no-wrap hypothesis the claim is false: i = 64, n = 2^64-1 on a
    128-bit set passes the check [(i+n) > size_] and writes out of bounds. *)
Theorem C04_range_set_wrap_refuted :
  exists b i n, bs_wf 64 b /\ i < bs_size 64 b /\ n < 2 ^ 64 /\ bs_set 64 b i n true = None.
Proof.
  exists [0; 0], 64, (2 ^ 64 - 1).
  split; [split; [repeat constructor|reflexivity]|].
  split; [reflexivity|]. split; [reflexivity|]. vm_compute. reflexivity.
Qed.
Print Assumptions C04_range_set_wrap_refuted.

Example C04_example :
  bs_wf 64 (bs_make 64 200) /\ bs_size 64 (bs_make 64 200) = 256 /\
  exists b', bs_set 64 (bs_make 64 200) 60 75 true = Some b' /\
     b' = [N.ones 64 - N.ones 60; N.ones 64; N.ones 7; 0].
Proof.
  split; [split; [repeat constructor|reflexivity]|].
  split; [reflexivity|]. eexists. split; vm_compute; reflexivity.
Qed.

(** C05, sound part only: single-bit set works for every index below size() of a
    bitset of 8-, 16- or 32-bit words, and on 64-bit words when the bit lies in the
    low 31 bits of its word. The full property is refuted below; together with
    [C05_bit31_of_wide_words] and [C05_bitset_set_high_bit_refuted] every index below
    size() is accounted for. *)
Theorem C05_bitset_set_bit_partial :
  forall w, word_width w -> forall b i val,
  bs_wf w b -> i < bs_size w b -> i mod w < 31 \/ w <= 32 ->
  exists b', bs_set1 w b i val = Some b' /\ bs_wf w b' /\ bs_size w b' = bs_size w b /\
    forall j, j < bs_size w b -> bs_get w b' j = if j =? i then Some val else bs_get w b j.
Proof. exact set1_spec. Qed.
Print Assumptions C05_bitset_set_bit_partial.

(** C05: what does happen on bit 31 of a 64-bit word: bits 31..63 of that word are
    all written, nothing else. *)
Theorem C05_bit31_of_wide_words :
  forall b i val, bs_wf 64 b -> i < bs_size 64 b -> i mod 64 = 31 ->
  exists b', bs_set1 64 b i val = Some b' /\ bs_wf 64 b' /\ bs_size 64 b' = bs_size 64 b /\
    forall j, j < bs_size 64 b ->
      bs_get 64 b' j = if (i <=? j) && (j <? i + 33) then Some val else bs_get 64 b j.
Proof.
  intros b i val Hwf Hi Hm.
  destruct (set1_mask 64 ltac:(unfold word_width; auto) b i val (2 ^ 64 - 2 ^ 31) 64 Hwf Hi)
    as (b' & E1 & E2 & E3 & E4); rewrite ?Hm; [reflexivity| |lia|lia|].
  { intros k. replace (2 ^ 64 - 2 ^ 31) with (N.shiftl (N.ones 33) 31) by reflexivity.
    destruct (N.leb_spec 31 k) as [L|L].
    - rewrite N.shiftl_spec_high' by exact L.
      destruct (N.ltb_spec k 64); [rewrite N.ones_spec_low by lia|rewrite N.ones_spec_high by lia]; reflexivity.
    - rewrite N.shiftl_spec_low by exact L. reflexivity. }
  exists b'. split; [exact E1|]. split; [exact E2|]. split; [exact E3|].
  intros j Hj. rewrite E4 by exact Hj. rewrite Hm. reflexivity.
Qed.
Print Assumptions C05_bit31_of_wide_words.

(** C05: indices beyond size() are ignored by set and read as false. *)
Theorem C05_index_beyond_size_ignored :
  forall w b i val, bs_size w b < i -> bs_set1 w b i val = Some b /\ bs_get w b i = Some false.
Proof.
  intros w b i val H. unfold bs_set1, bs_get.
  destruct (N.ltb_spec (bs_size w b) i); [auto|lia].
Qed.
Print Assumptions C05_index_beyond_size_ignored.

(** C05 refuted (1): on 64-bit words, setting bit 31 also sets bits 32..63. *)
Theorem C05_bitset_set_bit31_refuted :
  exists b i j b', bs_wf 64 b /\ i < bs_size 64 b /\ j < bs_size 64 b /\ j <> i /\
    bs_set1 64 b i true = Some b' /\ bs_get 64 b j = Some false /\ bs_get 64 b' j = Some true.
Proof.
  exists [0], 31, 40, [18446744071562067968].
  split; [split; [repeat constructor|reflexivity]|].
  split; [reflexivity|]. split; [reflexivity|]. split; [discriminate|]. vm_compute. auto.
Qed.
Print Assumptions C05_bitset_set_bit31_refuted.

(** C05 refuted (2): every bit position >= 32 of a 64-bit word is undefined. *)
Theorem C05_bitset_set_high_bit_refuted :
  forall b i val, i <= bs_size 64 b -> 32 <= i mod 64 -> bs_set1 64 b i val = None.
Proof.
  intros b i val H1 H2. unfold bs_set1, int_mask.
  destruct (N.ltb_spec (bs_size 64 b) i); [lia|].
  destruct (N.ltb_spec (i mod 64) 31); [lia|].
  destruct (N.eqb_spec (i mod 64) 31); [lia|]. reflexivity.
Qed.
Print Assumptions C05_bitset_set_high_bit_refuted.

(** C05 refuted (3): the index equal to size() is not rejected: out-of-bounds
    access in both get and set, for every bitset. *)
Theorem C05_bitset_index_size_refuted :
  forall w, word_width w -> forall b val,
    bs_get w b (bs_size w b) = None /\ bs_set1 w b (bs_size w b) val = None.
Proof.
  intros w Hw b val. assert (Wp : 0 < w) by (apply w_pos; auto).
  assert (E : vget b (bs_size w b / w) = None).
  { unfold bs_size. rewrite N.div_mul by lia. unfold vget. apply nth_error_None. lia. }
  unfold bs_get, bs_set1. rewrite E. rewrite N.ltb_irrefl. split; [reflexivity|].
  unfold int_mask. destruct (_ <? 31); [reflexivity|]. destruct (_ =? 31); reflexivity.
Qed.
Print Assumptions C05_bitset_index_size_refuted.

Example C05_example : exists b', bs_set1 64 [0; 5] 65 true = Some b' /\ b' = [0; 7] /\ 65 mod 64 < 31.
Proof. eexists. vm_compute. repeat split. Qed.
Example C05_example32 : exists b', bs_set1 32 [0; 5] 63 true = Some b' /\ b' = [0; 2147483653].
Proof. eexists. vm_compute. repeat split. Qed.

(** C06: for every bitset of at least two words and every lag up to half of it the
    correlator reads in bounds and returns the number of positions j of the first
    half (max(words/2-1,1) words) where bit j and bit j+pos differ. *)
Theorem C06_acf_counts_mismatches :
  forall w, word_width w -> forall b pos,
  bs_wf w b -> 2 * w <= bs_size w b -> 2 * pos <= bs_size w b ->
  acf w b pos = Some (countN (mismatch w b pos)
                        (N.to_nat (N.max (bs_size w b / w / 2 - 1) 1 * w))).
Proof. exact acf_half. Qed.
Print Assumptions C06_acf_counts_mismatches.

(** C06: a lag equal to a period of the bit stream gives zero. *)
Theorem C06_acf_zero_at_period :
  forall w, word_width w -> forall b pos,
  bs_wf w b -> 2 * w <= bs_size w b -> 2 * pos <= bs_size w b ->
  (forall j, j + pos < bs_size w b -> bs_get w b j = bs_get w b (j + pos)) ->
  acf w b pos = Some 0.
Proof.
  intros w Hw b pos H1 H2 H3 Hper. rewrite acf_half by auto. f_equal.
  pose proof (w_pos w Hw) as Wp.
  assert (Hm : pos + N.max (bs_size w b / w / 2 - 1) 1 * w <= bs_size w b).
  { unfold bs_size in *. rewrite N.div_mul by lia. set (L := N.of_nat (length b)) in *. clearbody L.
    assert (Hl : 2 <= L) by nia. assert (E : L / 2 * 2 <= L) by lia.
    clear Hper. generalize dependent (L / 2). intros h E.
    assert (N.max (h - 1) 1 * 2 <= L) by lia. nia. }
  rewrite (countN_ext _ (fun _ => false)); [apply countN_false|].
  intros j Hj. rewrite N2Nat.id in Hj. unfold mismatch. rewrite (Hper j) by lia.
  rewrite get_bit by (auto; lia). destruct (bit w b (j + pos)); reflexivity.
Qed.
Print Assumptions C06_acf_zero_at_period.

(** C06: on a bitset of a single word the word count wraps around and the
    correlator reads out of bounds, whatever the lag. *)
Theorem C06_acf_single_word_refuted : forall x pos, acf 64 [x] pos = None.
Proof.
  intros x pos. unfold acf. change (acf_mid 64 [x]) with (2 ^ 64 - 1).
  destruct (N.to_nat (2 ^ 64 - 1)) as [|[|m]] eqn:E; [lia|lia|].
  cbn [acf_loop]. destruct (acf_word 64 [x] (pos / 64) (pos mod 64) 0); [|reflexivity].
  reflexivity.
Qed.
Print Assumptions C06_acf_single_word_refuted.

Example C06_example : acf 64 [N.ones 64; 0; 6; 9] 3 = Some 3 /\ bs_wf 64 [N.ones 64; 0; 6; 9].
Proof. split; [vm_compute; reflexivity|]. split; [repeat constructor|reflexivity]. Qed.
