From Verif Require Import Common Io_Model Io_Spec.

Section W.
Context {A : Type} (zero : A).

Lemma slice_map (l : list A) s n :
  s + n <= length l -> firstn n (skipn s l) = map (fun j => nth (s + j) l zero) (seq 0 n).
Proof.
  intros H. apply nth_ext with (d := zero) (d' := zero).
  - rewrite firstn_length, skipn_length, map_length, seq_length. lia.
  - intros i Hi. rewrite firstn_length, skipn_length in Hi.
    assert (Hi' : i < n) by lia.
    rewrite (nth_indep _ zero (nth (s + 0) l zero)) at 1
      by (rewrite firstn_length, skipn_length; lia).
    rewrite (nth_indep (map _ _) zero ((fun j => nth (s + j) l zero) 0))
      by (rewrite map_length, seq_length; lia).
    rewrite (map_nth (fun j => nth (s + j) l zero)), seq_nth by lia. cbn [Nat.add].
    rewrite nth_indep with (d' := zero) by (rewrite firstn_length, skipn_length; lia).
    revert s l H Hi. clear. intros s l H Hi.
    rewrite <- (firstn_skipn s l) at 2.
    rewrite app_nth2; rewrite firstn_length, Nat.min_l by lia; [|lia].
    replace (s + i - s) with i by lia.
    rewrite <- (firstn_skipn n (skipn s l)) at 2.
    rewrite app_nth1; auto. rewrite firstn_length, skipn_length. lia.
Qed.

Lemma nth_past (l : list A) i : length l <= i -> nth i l zero = zero.
Proof. intros. now apply nth_overflow. Qed.

(** The frame call number [i] from now will return. *)
Definition pending (m : wav_mem (A:=A)) (n : nat) : nat :=
  if wm_first m then (length (wm_buff m) / n - wm_pos m / n - 1) else 0.
Definition upcoming (m : wav_mem (A:=A)) (w : wav (A:=A)) (i : nat) : list A :=
  let n := wav_nch w in
  if i <? pending m n then firstn n (skipn (wm_pos m + S i * n) (wm_buff m))
  else frame_from zero (wav_data w) n (wav_at w) (i - pending m n).

Definition inv (B : nat) (m : wav_mem (A:=A)) (w : wav (A:=A)) : Prop :=
  wm_wav m = Some w /\ 1 <= wav_nch w /\
  exists b q, 1 <= b <= B /\ q < b /\ length (wm_buff m) = b * wav_nch w /\
              wm_pos m = q * wav_nch w /\ (N.of_nat (B * wav_nch w) < 2 ^ 32)%N.

Lemma pending_eq (m : wav_mem (A:=A)) (w : wav (A:=A)) b q : 1 <= wav_nch w -> q < b ->
  length (wm_buff m) = b * wav_nch w -> wm_pos m = q * wav_nch w ->
  pending m (wav_nch w) = if wm_first m then b - q - 1 else 0.
Proof.
  intros Hn Hq Hb Hp. unfold pending. rewrite Hb, Hp, !Nat.div_mul by lia. reflexivity.
Qed.

Lemma wav_read_eq (w : wav (A:=A)) len : (N.of_nat len < 2 ^ 32)%N ->
  wav_read w (N.of_nat len) =
  (firstn len (skipn (wav_at w) (wav_data w)),
   Wav (wav_data w) (wav_nch w) (wav_at w + length (firstn len (skipn (wav_at w) (wav_data w))))).
Proof.
  intros H. unfold wav_read.
  rewrite N.mod_small by assumption.
  rewrite Nat2N.id. reflexivity.
Qed.

Lemma mul_bound b n q : q < b -> (q * n + n <= b * n)%nat.
Proof.
  intros H. replace (q * n + n) with ((S q) * n) by lia.
  apply Nat.mul_le_mono_r. lia.
Qed.


Lemma slice_nth (d : list A) p len j : j < len -> nth j (firstn len (skipn p d)) zero = nth (p + j) d zero.
Proof.
  revert p d j. induction len as [|len IH]; intros p d j H; [lia|].
  revert d. induction p as [|p IHp]; intros d.
  - destruct d as [|x d]; cbn; [now destruct j|].
    destruct j; [reflexivity|]. specialize (IH 0 d j). cbn in IH. apply IH. lia.
  - destruct d as [|x d]; cbn [skipn].
    + cbn. now destruct j.
    + apply IHp.
Qed.

Lemma chunk_nth (d : list A) p len j :
  let chunk := firstn len (skipn p d) in
  j < len ->
  nth j (chunk ++ repeat zero (len - length chunk)) zero = padded zero d (p + j).
Proof.
  intros chunk Hj. unfold padded.
  assert (Hc : length chunk = Nat.min len (length d - p))
    by (unfold chunk; rewrite firstn_length, skipn_length; reflexivity).
  destruct (Nat.lt_ge_cases j (length chunk)) as [L|L].
  - rewrite app_nth1 by exact L. unfold chunk. apply slice_nth; lia.
  - rewrite app_nth2 by exact L. rewrite nth_repeat.
    symmetry. apply nth_past. lia.
Qed.

Lemma map_const {X} (l : list X) : map (fun _ => zero) l = repeat zero (length l).
Proof. induction l as [|x l IH]; cbn; congruence. Qed.

Lemma frame_past (d : list A) n p k : length d <= p -> frame_from zero d n p k = repeat zero n.
Proof.
  intros H. unfold frame_from, padded.
  rewrite map_ext with (g := fun _ => zero) by (intros j; apply nth_past; lia).
  rewrite map_const, seq_length. reflexivity.
Qed.

Lemma wm_call_step B m w : inv B m w ->
  exists m' w', wm_call zero m = Some (upcoming m w 0, m') /\ inv B m' w' /\
    wav_data w' = wav_data w /\ wav_nch w' = wav_nch w /\ wm_first m' = true /\
    pending m' (wav_nch w) <= B - 1 /\
    forall i, upcoming m' w' i = upcoming m w (S i).
Proof.
  intros (Hw & Hn & b & q & Hb & Hq & Hl & Hp & Hs).
  pose proof (pending_eq m w b q Hn Hq Hl Hp) as Hpend.
  destruct w as [d n p]. cbn [wav_data wav_nch wav_at] in *.
  unfold wm_call. rewrite Hw. cbn [wav_data wav_nch wav_at].
  assert (Hbn : (N.of_nat (b * n) < 2 ^ 32)%N).
  { pose proof (Nat.mul_le_mono_r b B n ltac:(lia)). lia. }
  assert (Hbn1 : 1 <= b * n) by (apply (Nat.mul_le_mono 1 b 1 n); lia).
  destruct (negb (wm_first m) || (length (wm_buff m) <=? wm_pos m + n)) eqn:C.
  - (* refill *)
    rewrite wav_read_eq by (rewrite Hl; exact Hbn). cbn [wav_data wav_nch wav_at].
    assert (Hr : pending m n = 0).
    { rewrite Hpend. destruct (wm_first m); [|reflexivity]. cbn in C.
      apply Nat.leb_le in C. rewrite Hl, Hp in C.
      assert (b <= q + 1).
      { apply Nat.nlt_ge. intros G.
        pose proof (mul_bound b n (q+1) G). rewrite Nat.mul_add_distr_r in H. lia. }
      lia. }
    rewrite Hl.
    set (chunk := firstn (b * n) (skipn p d)).
    assert (Hc : length chunk = Nat.min (b * n) (length d - p))
      by (unfold chunk; rewrite firstn_length, skipn_length; reflexivity).
    destruct (length chunk =? 0) eqn:Z.
    + apply Nat.eqb_eq in Z. assert (Hend : length d <= p) by lia.
      unfold wm_frame. rewrite repeat_length.
      replace ((0 <? n) && (0 + n <=? n)) with true
        by (symmetry; apply andb_true_intro; split; [apply Nat.ltb_lt | apply Nat.leb_le]; lia).
      cbn [bind skipn]. rewrite firstn_all2 by (rewrite repeat_length; lia).
      eexists; exists (Wav d n (p + length chunk)). split.
      { unfold upcoming. cbn [wav_data wav_nch wav_at]. rewrite Hr. cbn [Nat.ltb Nat.leb].
        rewrite Nat.sub_0_r, frame_past by exact Hend. reflexivity. }
      split.
      { split; [reflexivity|]. split; [exact Hn|]. exists 1, 0. cbn.
        rewrite repeat_length. repeat split; lia. }
      cbn [wav_data wav_nch wm_first]. split; [reflexivity|]. split; [reflexivity|].
      split; [reflexivity|].
      assert (Hr' : pending (WavMem (Some (Wav d n (p + length chunk))) (repeat zero n) 0 true) n = 0).
      { unfold pending. cbn [wm_first wm_buff wm_pos]. rewrite repeat_length, Nat.div_same by lia.
        rewrite Nat.div_0_l by lia. reflexivity. }
      split; [rewrite Hr'; lia|].
      intros i. unfold upcoming. cbn [wav_data wav_nch wav_at]. rewrite Hr', Hr.
      cbn [Nat.ltb Nat.leb]. rewrite !frame_past by lia. reflexivity.
    + apply Nat.eqb_neq in Z.
      set (buff := chunk ++ repeat zero (b * n - length chunk)).
      assert (Hlb : length buff = b * n)
        by (unfold buff; rewrite app_length, repeat_length; lia).
      pose proof (mul_bound b n 0 ltac:(lia)) as Hb0. cbn in Hb0.
      unfold wm_frame. rewrite Hlb.
      replace ((0 <? b * n) && (0 + n <=? b * n)) with true
        by (symmetry; apply andb_true_intro; split; [apply Nat.ltb_lt | apply Nat.leb_le]; lia).
      cbn [bind].
      assert (Hfr : forall k, k < b -> firstn n (skipn (k * n) buff) = frame_from zero d n p k).
      { intros k Hk. pose proof (mul_bound b n k Hk) as Hkn.
        rewrite slice_map by lia. unfold frame_from. apply map_ext_in.
        intros j Hj. apply in_seq in Hj. unfold buff, chunk.
        rewrite chunk_nth by lia. f_equal. lia. }
      eexists; exists (Wav d n (p + length chunk)). split.
      { unfold upcoming. cbn [wav_data wav_nch wav_at]. rewrite Hr. cbn [Nat.ltb Nat.leb].
        rewrite Nat.sub_0_r, <- (Hfr 0) by lia. cbn [Nat.mul]. reflexivity. }
      split.
      { split; [reflexivity|]. split; [exact Hn|]. exists b, 0. cbn. repeat split; try lia. }
      cbn [wav_data wav_nch wm_first]. split; [reflexivity|]. split; [reflexivity|].
      split; [reflexivity|].
      assert (Hr' : pending (WavMem (Some (Wav d n (p + length chunk))) buff 0 true) n = b - 1).
      { unfold pending. cbn [wm_first wm_buff wm_pos]. rewrite Hlb, Nat.div_mul by lia.
        rewrite Nat.div_0_l by lia. lia. }
      split; [rewrite Hr'; lia|].
      intros i. unfold upcoming. cbn [wav_data wav_nch wav_at wm_pos wm_buff]. rewrite Hr', Hr.
      replace (S i <? 0) with false by reflexivity. rewrite Nat.sub_0_r.
      destruct (i <? b - 1) eqn:I.
      * apply Nat.ltb_lt in I. cbn [Nat.add]. apply Hfr. lia.
      * apply Nat.ltb_ge in I.
        destruct (Nat.lt_ge_cases (length chunk) (b * n)) as [L|L].
        -- rewrite frame_past by lia. unfold frame_from, padded.
           rewrite map_ext_in with (g := fun _ => zero).
           ++ rewrite map_const, seq_length. reflexivity.
           ++ intros j Hj. apply nth_past.
              pose proof (Nat.mul_le_mono_r b (S i) n ltac:(lia)). lia.
        -- unfold frame_from. apply map_ext. intros j. f_equal.
           replace (S i) with (b + (i - (b - 1))) by lia.
           rewrite Nat.mul_add_distr_r. lia.
  - (* next frame of the buffer *)
    apply orb_false_elim in C. destruct C as [C1 C2].
    apply negb_false_iff in C1. apply Nat.leb_gt in C2.
    rewrite C1 in Hpend. rewrite Hl, Hp in C2.
    assert (Hq1 : q + 1 < b).
    { apply Nat.nle_gt. intros G. pose proof (Nat.mul_le_mono_r b (q + 1) n G).
      rewrite Nat.mul_add_distr_r in H. lia. }
    pose proof (mul_bound b n (q + 1) Hq1) as Hq2.
    unfold wm_frame. rewrite Hl, Hp.
    replace ((q * n + n <? b * n) && (q * n + n + n <=? b * n)) with true.
    2:{ symmetry. rewrite Nat.mul_add_distr_r in Hq2.
        apply andb_true_intro; split; [apply Nat.ltb_lt | apply Nat.leb_le]; lia. }
    cbn [bind].
    eexists; exists (Wav d n p). split.
    { unfold upcoming. cbn [wav_nch]. rewrite Hpend.
      replace (0 <? b - q - 1) with true by (symmetry; apply Nat.ltb_lt; lia).
      rewrite Hp, Nat.mul_1_l. reflexivity. }
    split.
    { split; [reflexivity|]. split; [exact Hn|]. exists b, (q + 1). cbn.
      rewrite Nat.mul_add_distr_r. repeat split; lia. }
    cbn [wav_data wav_nch wm_first]. split; [reflexivity|]. split; [reflexivity|].
    split; [reflexivity|].
    assert (Hr' : pending (WavMem (Some (Wav d n p)) (wm_buff m) (q * n + n) true) n = b - q - 2).
    { unfold pending. cbn [wm_first wm_buff wm_pos]. rewrite Hl, Nat.div_mul by lia.
      replace (q * n + n) with ((q + 1) * n) by lia. rewrite Nat.div_mul by lia. lia. }
    split; [rewrite Hr'; lia|].
    intros i. unfold upcoming. cbn [wav_nch wav_data wav_at wm_pos wm_buff]. rewrite Hr', Hpend.
    destruct (i <? b - q - 2) eqn:I.
    + apply Nat.ltb_lt in I. replace (S i <? b - q - 1) with true
        by (symmetry; apply Nat.ltb_lt; lia).
      f_equal. f_equal. rewrite Hp. lia.
    + apply Nat.ltb_ge in I. replace (S i <? b - q - 1) with false
        by (symmetry; apply Nat.ltb_ge; lia).
      f_equal. lia.
Qed.

Lemma wm_calls_upcoming B k : forall m w, inv B m w ->
  exists m' w', wm_calls zero k m = Some (map (upcoming m w) (seq 0 k), m') /\ inv B m' w' /\
    wav_data w' = wav_data w /\ wav_nch w' = wav_nch w.
Proof.
  induction k as [|k IH]; intros m w H; cbn.
  - exists m, w. repeat split; auto; apply H.
  - destruct (wm_call_step B m w H) as (m1 & w1 & E & I1 & D1 & N1 & _ & _ & U).
    rewrite E. cbn [bind fst snd].
    destruct (IH m1 w1 I1) as (m2 & w2 & E2 & I2 & D2 & N2).
    rewrite E2. cbn [bind fst snd]. exists m2, w2.
    split; [|split; [exact I2|split; congruence]].
    rewrite <- (seq_shift k 0), map_map.
    rewrite (map_ext _ _ U). reflexivity.
Qed.

Lemma inv_make file n B : 1 <= n -> 1 <= B -> (N.of_nat (B * n) < 2 ^ 32)%N ->
  inv B (wm_make zero (Some (Wav file n 0)) B) (Wav file n 0).
Proof.
  intros. split; [reflexivity|]. split; [cbn; assumption|].
  exists B, 0. cbn. rewrite repeat_length. repeat split; lia.
Qed.

Lemma playback file n B k : 1 <= n -> 1 <= B -> (N.of_nat (B * n) < 2 ^ 32)%N ->
  exists m, wm_calls zero k (wm_make zero (Some (Wav file n 0)) B)
            = Some (map (frame_from zero file n 0) (seq 0 k), m).
Proof.
  intros Hn HB Hs.
  destruct (wm_calls_upcoming B k _ _ (inv_make file n B Hn HB Hs)) as (m & w & E & _).
  exists m. rewrite E. f_equal. f_equal. apply map_ext. intros i.
  unfold upcoming, pending. cbn. rewrite Nat.sub_0_r. reflexivity.
Qed.

Lemma inv_reposition B m w p : inv B m w ->
  inv B (wm_reposition m p) (Wav (wav_data w) (wav_nch w) p).
Proof.
  intros (Hw & Hn & b & q & H). unfold wm_reposition. rewrite Hw.
  split; [reflexivity|]. split; [exact Hn|]. exists b, q. exact H.
Qed.

Lemma inv_pending B m w : inv B m w -> pending m (wav_nch w) <= B - 1.
Proof.
  intros (Hw & Hn & b & q & Hb & Hq & Hl & Hp & _).
  rewrite (pending_eq m w b q Hn Hq Hl Hp). destruct (wm_first m); lia.
Qed.

Lemma history_inv B ops : forall m w, inv B m w ->
  exists m' w', wm_history zero ops m = Some m' /\ inv B m' w' /\
    wav_data w' = wav_data w /\ wav_nch w' = wav_nch w.
Proof.
  induction ops as [|[|p] ops IH]; intros m w H; cbn.
  - exists m, w. auto.
  - destruct (wm_call_step B m w H) as (m1 & w1 & E & I1 & D1 & N1 & _).
    rewrite E. cbn [bind snd].
    destruct (IH m1 w1 I1) as (m2 & w2 & E2 & I2 & D2 & N2).
    exists m2, w2. repeat split; try apply I2; congruence.
  - destruct (IH _ _ (inv_reposition B m w p H)) as (m2 & w2 & E2 & I2 & D2 & N2).
    exists m2, w2. repeat split; try apply I2; auto.
Qed.

Lemma reposition_effect file n B ops : 1 <= n -> 1 <= B -> (N.of_nat (B * n) < 2 ^ 32)%N ->
  exists m old,
    wm_history zero ops (wm_make zero (Some (Wav file n 0)) B) = Some m /\
    length old < B /\
    forall p k, exists m',
      wm_calls zero k (wm_reposition m p) =
        Some (firstn k (old ++ map (frame_from zero file n p) (seq 0 k)), m').
Proof.
  intros Hn HB Hs.
  destruct (history_inv B ops _ _ (inv_make file n B Hn HB Hs)) as (m & w & E & I & D & N).
  exists m, (map (fun i => upcoming m w i) (seq 0 (pending m (wav_nch w)))).
  split; [exact E|]. rewrite map_length, seq_length.
  pose proof (inv_pending B m w I). split; [lia|].
  intros p k.
  destruct (wm_calls_upcoming B k _ _ (inv_reposition B m w p I)) as (m' & w' & E' & _).
  exists m'. rewrite E'. f_equal. f_equal.
  cbn [wav_data wav_nch] in D, N.
  assert (Hpp : pending (wm_reposition m p) (wav_nch w) = pending m (wav_nch w)).
  { unfold wm_reposition. destruct I as (Hw & _). rewrite Hw. reflexivity. }
  assert (Hbb : wm_buff (wm_reposition m p) = wm_buff m /\ wm_pos (wm_reposition m p) = wm_pos m).
  { unfold wm_reposition. destruct I as (Hw & _). rewrite Hw. auto. }
  destruct Hbb as [Hbb Hps].
  set (r := pending m (wav_nch w)) in *.
  apply nth_ext with (d := []) (d' := []).
  - rewrite firstn_length, app_length, !map_length, !seq_length. lia.
  - intros i Hi. rewrite map_length, seq_length in Hi.
    assert (Hf : forall (l : list (list A)), nth i (firstn k l) [] = nth i l []).
    { clear -Hi. revert i Hi. induction k as [|k IH]; intros i Hi l; [lia|].
      destruct l as [|x l]; cbn; [reflexivity|]. destruct i; [reflexivity|]. apply IH. lia. }
    rewrite Hf.
    rewrite (nth_indep (map _ (seq 0 k)) [] (upcoming (wm_reposition m p) (Wav (wav_data w) (wav_nch w) p) 0))
      by (rewrite map_length, seq_length; lia).
    rewrite map_nth, seq_nth by lia. cbn [Nat.add].
    unfold upcoming at 1. cbn [wav_nch wav_data wav_at]. rewrite Hpp, Hbb, Hps. fold r.
    destruct (i <? r) eqn:L.
    + apply Nat.ltb_lt in L. rewrite app_nth1 by (rewrite map_length, seq_length; exact L).
      rewrite (nth_indep _ [] (upcoming m w 0)) by (rewrite map_length, seq_length; exact L).
      rewrite map_nth, seq_nth by exact L. cbn [Nat.add]. unfold upcoming.
      fold r. replace (i <? r) with true by (symmetry; apply Nat.ltb_lt; exact L). reflexivity.
    + apply Nat.ltb_ge in L. rewrite app_nth2; rewrite map_length, seq_length; [|exact L].
      rewrite (nth_indep _ [] (frame_from zero file n p 0)) by (rewrite map_length, seq_length; lia).
      rewrite map_nth, seq_nth by lia. cbn [Nat.add]. rewrite D, N. reflexivity.
Qed.

Lemma position_read_ahead file n B : 1 <= n -> 1 <= B -> (N.of_nat (B * n) < 2 ^ 32)%N ->
  exists f m, wm_call zero (wm_make zero (Some (Wav file n 0)) B) = Some (f, m) /\
    wm_position m = Nat.min (length file) (B * n).
Proof.
  intros Hn HB Hs. unfold wm_call, wm_make. cbn [wm_wav wm_first negb orb wav_nch wm_buff].
  rewrite repeat_length, wav_read_eq by exact Hs. cbn [wav_data wav_nch wav_at skipn].
  set (chunk := firstn (B * n) file).
  assert (Hc : length chunk = Nat.min (B * n) (length file)) by apply firstn_length.
  pose proof (mul_bound B n 0 ltac:(lia)) as HBn. cbn in HBn.
  destruct (length chunk =? 0) eqn:Z.
  - apply Nat.eqb_eq in Z. unfold wm_frame. rewrite repeat_length.
    replace ((0 <? n) && (0 + n <=? n)) with true
      by (symmetry; apply andb_true_intro; split; [apply Nat.ltb_lt | apply Nat.leb_le]; lia).
    eexists; eexists. split; [reflexivity|]. cbn. lia.
  - unfold wm_frame. rewrite app_length, repeat_length.
    replace (length chunk + (B * n - length chunk)) with (B * n) by lia.
    replace ((0 <? B * n) && (0 + n <=? B * n)) with true
      by (symmetry; apply andb_true_intro; split; [apply Nat.ltb_lt | apply Nat.leb_le]; lia).
    eexists; eexists. split; [reflexivity|]. cbn. lia.
Qed.

Lemma buff_size_zero file n k : 1 <= n -> (N.of_nat n < 2 ^ 32)%N ->
  exists m, wm_calls zero (S k) (wm_make zero (Some (Wav file n 0)) 0)
            = Some (repeat zero n :: map (frame_from zero file n 0) (seq 0 k), m).
Proof.
  intros Hn Hs. cbn [wm_calls].
  assert (E : wm_call zero (wm_make zero (Some (Wav file n 0)) 0) =
    Some (repeat zero n, WavMem (Some (Wav file n 0)) (repeat zero n) 0 true)).
  { unfold wm_call, wm_make. cbn [wm_wav wm_first negb orb wav_nch wm_buff Nat.mul repeat length].
    change (wav_read (Wav file n 0) (N.of_nat 0)) with (@nil A, Wav file n 0).
    cbn [length Nat.eqb]. unfold wm_frame. rewrite repeat_length.
    replace ((0 <? n) && (0 + n <=? n)) with true
      by (symmetry; apply andb_true_intro; split; [apply Nat.ltb_lt | apply Nat.leb_le]; lia).
    cbn [bind skipn]. rewrite firstn_all2 by (rewrite repeat_length; lia). reflexivity. }
  rewrite E. cbn [bind fst snd].
  set (m0 := WavMem (Some (Wav file n 0)) (repeat zero n) 0 true).
  assert (I : inv 1 m0 (Wav file n 0)).
  { split; [reflexivity|]. split; [exact Hn|]. exists 1, 0. cbn.
    rewrite repeat_length. repeat split; lia. }
  destruct (wm_calls_upcoming 1 k m0 _ I) as (m & w & E2 & _).
  exists m. rewrite E2. cbn [bind fst snd]. f_equal. f_equal. f_equal. apply map_ext. intros i.
  unfold upcoming, pending. cbn [wm_first m0 wm_buff wm_pos wav_nch].
  rewrite repeat_length, Nat.div_same by lia. rewrite Nat.div_0_l by lia.
  cbn. rewrite Nat.sub_0_r. reflexivity.
Qed.
End W.

(** ** Devices *)
Lemma ad_scan_numbered l : forall i,
  map (fun d => (ad_id d, ad_info d)) (ad_scan i l) =
  filter (fun x => pa_usable (snd x)) (combine (seq i (length l)) l).
Proof.
  induction l as [|d l IH]; intros i; cbn; [reflexivity|].
  destruct (pa_usable d); cbn; rewrite <- IH; reflexivity.
Qed.
Lemma ad_scan_le l : forall i, length (ad_scan i l) <= length l.
Proof. induction l as [|d l IH]; intros i; cbn; [lia|]. destruct (pa_usable d); cbn; specialize (IH (S i)); lia. Qed.
Lemma ad_scan_lt l : forall i, forallb pa_usable l = false -> length (ad_scan i l) < length l.
Proof.
  induction l as [|d l IH]; intros i H; cbn in *; [discriminate|].
  destruct (pa_usable d); cbn in *.
  - specialize (IH (S i) H). lia.
  - pose proof (ad_scan_le l (S i)). lia.
Qed.
Lemma ad_scan_all l : forall i, forallb pa_usable l = true ->
  ad_scan i l = map (fun p => ADev (fst p) (snd p)) (combine (seq i (length l)) l).
Proof.
  induction l as [|d l IH]; intros i H; cbn in *; [reflexivity|].
  apply andb_prop in H. destruct H as [H1 H2]. rewrite H1, (IH (S i) H2). reflexivity.
Qed.

Lemma get_devices_const l s :
  av_list s = ad_scan 0 l -> av_list (get_devices (PaDevices l) s) = ad_scan 0 l.
Proof.
  intros H. cbn. destruct (_ && _); auto.
Qed.
Lemma get_devices_fresh l s : length (av_list s) <> length l ->
  (l = [] -> False) -> av_list (get_devices (PaDevices l) s) = ad_scan 0 l.
Proof.
  intros H Hl. cbn.
  replace (length l =? 0) with false by (symmetry; apply Nat.eqb_neq; destruct l; [congruence|cbn; lia]).
  apply Nat.eqb_neq in H. rewrite H. reflexivity.
Qed.
Lemma history_const l k : av_list (ad_history (repeat (PaDevices l) k) (get_devices (PaDevices l) adevs_init)) = ad_scan 0 l.
Proof.
  assert (G : forall s, av_list s = ad_scan 0 l -> av_list (ad_history (repeat (PaDevices l) k) s) = ad_scan 0 l).
  { induction k as [|k IH]; intros s H; cbn; [exact H|]. apply IH. now apply get_devices_const. }
  apply G. destruct l as [|d l]; [reflexivity|]. apply get_devices_fresh; cbn; [lia|discriminate].
Qed.

Lemma ad_read_list s : map (fun i => ad_read s (AHandle (av_gen s) i)) (seq 0 (length (av_list s)))
  = map Some (av_list s).
Proof.
  unfold ad_read. cbn. rewrite Nat.eqb_refl. generalize (av_list s). intros l. clear.
  induction l as [|x l IH]; [reflexivity|]. cbn. f_equal. rewrite <- IH, <- seq_shift, map_map.
  reflexivity.
Qed.

Lemma audio_list_ok l k :
  let s := ad_history (repeat (PaDevices l) k) adevs_init in
  let '(hs, s') := ad_list (PaDevices l) s in
  map (option_map (fun d => (ad_id d, ad_info d))) (map (ad_read s') hs)
  = map Some (numbered pa_usable l).
Proof.
  intros s. unfold ad_list. cbn zeta.
  assert (H : av_list (get_devices (PaDevices l) s) = ad_scan 0 l).
  { pose proof (history_const l k) as G.
    replace (get_devices (PaDevices l) s) with
      (ad_history (repeat (PaDevices l) k) (get_devices (PaDevices l) adevs_init)); [exact G|].
    unfold s. clear. generalize adevs_init. induction k as [|k IH]; intros s; [reflexivity|].
    cbn -[get_devices]. rewrite <- IH. reflexivity. }
  rewrite !map_map. cbn [fst snd].
  rewrite <- (map_map (fun x => ad_read _ _) (option_map _)).
  rewrite ad_read_list, H, map_map. cbn [option_map].
  rewrite <- (map_map (fun d => (ad_id d, ad_info d)) Some).
  rewrite ad_scan_numbered. reflexivity.
Qed.

Lemma audio_fresh l s :
  l <> [] -> length (av_list s) <> length l ->
  let '(hs, s') := ad_list (PaDevices l) s in
  map (option_map (fun d => (ad_id d, ad_info d))) (map (ad_read s') hs)
  = map Some (numbered pa_usable l).
Proof.
  intros Hl Hs. unfold ad_list. cbn zeta.
  pose proof (get_devices_fresh l s Hs (fun e => Hl e)) as H.
  rewrite !map_map. cbn [fst snd].
  rewrite <- (map_map (fun x => ad_read _ _) (option_map _)).
  rewrite ad_read_list, H, map_map. cbn [option_map].
  rewrite <- (map_map (fun d => (ad_id d, ad_info d)) Some).
  rewrite ad_scan_numbered. reflexivity.
Qed.

Lemma combine_seq_nth {A} (l : list A) : forall s i,
  nth_error (combine (seq s (length l)) l) i = option_map (fun d => (s + i, d)) (nth_error l i).
Proof.
  induction l as [|x l IH]; intros s i; cbn; [now destruct i|].
  destruct i; cbn; [now rewrite Nat.add_0_r|]. rewrite IH. destruct (nth_error l i); cbn; [|reflexivity].
  now rewrite Nat.add_succ_r.
Qed.

Lemma usable_stays l s k :
  forallb pa_usable l = true -> av_list s = ad_scan 0 l ->
  ad_history (repeat (PaDevices l) k) s = s.
Proof.
  intros H. induction k as [|k IH]; intros E; [reflexivity|]. cbn.
  assert (L : length (av_list s) = length l).
  { rewrite E, ad_scan_all by exact H. rewrite map_length, combine_length, seq_length. lia. }
  rewrite L, Nat.eqb_refl. cbn. rewrite andb_false_r. apply IH, E.
Qed.

Lemma audio_get_ok l j k i d :
  forallb pa_usable l = true -> nth_error l i = Some d ->
  let s := ad_history (repeat (PaDevices l) j) adevs_init in
  exists h s', ad_get (PaDevices l) s i = (Some h, s') /\
    ad_read (ad_history (repeat (PaDevices l) k) s') h = Some (ADev i d).
Proof.
  intros H Hi s.
  assert (Hs : av_list (get_devices (PaDevices l) s) = ad_scan 0 l).
  { pose proof (history_const l j) as G.
    replace (get_devices (PaDevices l) s) with
      (ad_history (repeat (PaDevices l) j) (get_devices (PaDevices l) adevs_init)); [exact G|].
    unfold s. clear. generalize adevs_init. induction j as [|k IH]; intros s; [reflexivity|].
    cbn -[get_devices]. rewrite <- IH. reflexivity. }
  assert (N : nth_error (ad_scan 0 l) i = Some (ADev i d)).
  { rewrite ad_scan_all by exact H. rewrite nth_error_map, combine_seq_nth, Hi. reflexivity. }
  unfold ad_get. cbn zeta. rewrite Hs.
  replace (i <? length (ad_scan 0 l)) with true.
  2:{ symmetry. apply Nat.ltb_lt, nth_error_Some. rewrite N. discriminate. }
  eexists; eexists. split; [reflexivity|].
  rewrite usable_stays by (auto; exact Hs).
  unfold ad_read. cbn [ah_gen ah_idx]. rewrite Nat.eqb_refl, Hs. exact N.
Qed.

Lemma audio_get_any l j i :
  let s := ad_history (repeat (PaDevices l) j) adevs_init in
  match nth_error (numbered pa_usable l) i with
  | Some (id, d) => exists h s', ad_get (PaDevices l) s i = (Some h, s') /\ ad_read s' h = Some (ADev id d)
  | None => fst (ad_get (PaDevices l) s i) = None
  end.
Proof.
  intros s.
  assert (Hs : av_list (get_devices (PaDevices l) s) = ad_scan 0 l).
  { pose proof (history_const l j) as G.
    replace (get_devices (PaDevices l) s) with
      (ad_history (repeat (PaDevices l) j) (get_devices (PaDevices l) adevs_init)); [exact G|].
    unfold s. clear. generalize adevs_init. induction j as [|k IH]; intros s; [reflexivity|].
    cbn -[get_devices]. rewrite <- IH. reflexivity. }
  unfold numbered. rewrite <- ad_scan_numbered, nth_error_map.
  unfold ad_get. cbn zeta. rewrite Hs.
  destruct (nth_error (ad_scan 0 l) i) as [[id d]|] eqn:N; cbn [option_map ad_id ad_info].
  - replace (i <? length (ad_scan 0 l)) with true.
    2:{ symmetry. apply Nat.ltb_lt, nth_error_Some. rewrite N. discriminate. }
    eexists; eexists. split; [reflexivity|].
    unfold ad_read. cbn [ah_gen ah_idx]. rewrite Nat.eqb_refl, Hs. exact N.
  - apply nth_error_None in N. replace (i <? length (ad_scan 0 l)) with false; [reflexivity|].
    symmetry. apply Nat.ltb_ge. exact N.
Qed.

Lemma audio_dangle l j i k h s' :
  forallb pa_usable l = false ->
  ad_get (PaDevices l) (ad_history (repeat (PaDevices l) j) adevs_init) i = (Some h, s') ->
  ad_read (ad_history (repeat (PaDevices l) (S k)) s') h = None.
Proof.
  intros H E.
  assert (Hl : l <> []) by (intros ->; discriminate).
  assert (Hgen : forall s, length (av_list s) < length l ->
     av_gen (get_devices (PaDevices l) s) = S (av_gen s) /\
     length (av_list (get_devices (PaDevices l) s)) < length l).
  { intros s L. cbn.
    replace (length l =? 0) with false by (symmetry; apply Nat.eqb_neq; lia).
    replace (length (av_list s) =? length l) with false by (symmetry; apply Nat.eqb_neq; lia).
    cbn. split; [reflexivity|]. now apply ad_scan_lt. }
  assert (Hh : forall n s, length (av_list s) < length l ->
     av_gen (ad_history (repeat (PaDevices l) n) s) = n + av_gen s /\
     length (av_list (ad_history (repeat (PaDevices l) n) s)) < length l).
  { induction n as [|n IH]; intros s L; [cbn; auto|].
    cbn -[get_devices]. destruct (Hgen s L) as [G1 G2].
    change (fold_left _ (repeat (PaDevices l) n) (get_devices (PaDevices l) s)) with
      (ad_history (repeat (PaDevices l) n) (get_devices (PaDevices l) s)).
    destruct (IH _ G2) as [G3 G4]. rewrite G3, G1. split; [lia|exact G4]. }
  destruct (Hh j adevs_init) as [J1 J2]; [destruct l; [congruence|cbn; lia]|].
  unfold ad_get in E. cbn zeta in E.
  destruct (Hgen _ J2) as [K1 K2].
  set (s0 := ad_history (repeat (PaDevices l) j) adevs_init) in *.
  destruct (i <? length (av_list (get_devices (PaDevices l) s0))); [|discriminate].
  assert (E1 := f_equal fst E). assert (E2 := f_equal snd E). cbn [fst snd] in E1, E2.
  assert (E3 : h = AHandle (av_gen (get_devices (PaDevices l) s0)) i) by congruence.
  subst h. rewrite <- E2.
  unfold ad_read. cbn [ah_gen].
  destruct (Hh (S k) _ K2) as [M1 _]. rewrite M1.
  replace (_ =? _) with false; [reflexivity|]. symmetry. apply Nat.eqb_neq. lia.
Qed.

Lemma md_scan_numbered l : forall i,
  map (fun d => (md_id d, md_info d)) (md_scan i l) =
  filter (fun x => pm_usable (snd x)) (combine (seq i (length l)) l).
Proof.
  induction l as [|d l IH]; intros i; cbn; [reflexivity|].
  destruct (pm_usable d); cbn; rewrite <- IH; reflexivity.
Qed.

Lemma midi_copies l k : forall s j, j < k ->
  nth_error (md_lists (repeat (Some l) k) s) j = Some (s ++ concat (repeat (md_scan 0 l) (S j))).
Proof.
  induction k as [|k IH]; intros s j H; [lia|].
  change (repeat (Some l) (S k)) with (Some l :: repeat (Some l) k).
  cbn [md_lists md_list fst snd]. destruct j as [|j]; cbn [nth_error].
  - cbn [repeat concat]. now rewrite app_nil_r.
  - rewrite IH by lia. rewrite <- app_assoc. reflexivity.
Qed.

Lemma map_concat_repeat {A B} (f : A -> B) (l : list A) n :
  map f (concat (repeat l n)) = concat (repeat (map f l) n).
Proof. induction n as [|n IH]; cbn; [reflexivity|]. rewrite map_app, IH. reflexivity. Qed.

Lemma midi_lists_grow l k j : j < k ->
  option_map (map (fun d => (md_id d, md_info d))) (nth_error (md_lists (repeat (Some l) k) []) j)
  = Some (concat (repeat (numbered pm_usable l) (S j))).
Proof.
  intros H. rewrite midi_copies by exact H. cbn [option_map app].
  rewrite map_concat_repeat, md_scan_numbered. reflexivity.
Qed.

(** ** Channels *)
Section C.
Context {A : Type}.
Notation mem := (@mem A).

Lemma view_spec (c : chans) i base : nth_error (ch_bufs c) i = Some base ->
  exists v, ch_view c i = Some v /\
   (forall (m : mem) j, (j < ch_frames c)%N -> v_get m v j = Some (m (base + j)%N)) /\
   (forall (m : mem) j, (ch_frames c <= j)%N -> v_get m v j = None) /\
   (forall (m : mem) j x, (j < ch_frames c)%N -> exists m', v_put m v j x = Some m' /\
       forall a, m' a = if (a =? base + j)%N then x else m a) /\
   (forall (m : mem) j x, (ch_frames c <= j)%N -> v_put m v j x = None).
Proof.
  intros H. unfold ch_view. rewrite H. cbn [bind]. eexists. split; [reflexivity|].
  unfold v_get, v_put, v_addr. cbn [fst snd].
  repeat split; intros.
  - replace (base + j <? base + ch_frames c)%N with true by (symmetry; apply N.ltb_lt; lia). reflexivity.
  - replace (base + j <? base + ch_frames c)%N with false by (symmetry; apply N.ltb_ge; lia). reflexivity.
  - replace (base + j <? base + ch_frames c)%N with true by (symmetry; apply N.ltb_lt; lia).
    cbn [bind]. eexists. split; reflexivity.
  - replace (base + j <? base + ch_frames c)%N with false by (symmetry; apply N.ltb_ge; lia). reflexivity.
Qed.

Lemma frame_loop_each {S} (body : N -> S -> option S) last : (last < W64)%N ->
  forall n i s, (i + N.of_nat n = last)%N ->
  frame_loop (Datatypes.S n) i last body s = each body (map (fun k => (i + N.of_nat k)%N) (seq 0 n)) s.
Proof.
  intros Hl. induction n as [|n IH]; intros i s H.
  - cbn. replace (i =? last)%N with true by (symmetry; apply N.eqb_eq; lia). reflexivity.
  - change (frame_loop (Datatypes.S (Datatypes.S n)) i last body s) with
      (if (i =? last)%N then Some s
       else do s' <- body i s; frame_loop (Datatypes.S n) (wrap64 (i + 1)) last body s').
    replace (i =? last)%N with false by (symmetry; apply N.eqb_neq; lia).
    cbn [seq map each]. rewrite N.add_0_r. unfold bind.
    destruct (body i s) as [s'|]; [|reflexivity].
    assert (W : wrap64 (i + 1) = (i + 1)%N) by (unfold wrap64; apply N.mod_small; lia).
    rewrite W, IH by lia. rewrite <- (seq_shift n 0), map_map.
    f_equal. apply map_ext. intros k. lia.
Qed.

Lemma for_frames_each {S} (c : chans) (body : N -> S -> option S) s : (ch_frames c < W64)%N ->
  for_frames c body s = each body (upto (ch_frames c)) s.
Proof.
  intros H. unfold for_frames, upto. rewrite (frame_loop_each body (ch_frames c) H) by lia.
  reflexivity.
Qed.

(** Fill channel by channel. *)
Lemma each_app {X S} (body : X -> S -> option S) l1 l2 s :
  each body (l1 ++ l2) s = match each body l1 s with Some s' => each body l2 s' | None => None end.
Proof.
  revert s. induction l1 as [|x l IH]; intros s; cbn; [reflexivity|].
  destruct (body x s); auto.
Qed.

(** One channel: out[f] = g f (in[f]) for every frame f. *)
Lemma channel_map (g : N -> A -> A) n ib ob (m : mem) :
  ib = ob \/ apart n ib ob ->
  exists m',
    each (fun f m => do x <- v_get m (ib, ib + n)%N f; v_put m (ob, ob + n)%N f (g f x)) (upto n) m = Some m' /\
    (forall f, (f < n)%N -> m' (ob + f)%N = g f (m (ib + f)%N)) /\
    (forall a, (a < ob \/ ob + n <= a)%N -> m' a = m a).
Proof.
  intros D.
  assert (G : forall k, (N.of_nat k <= n)%N -> exists m',
     each (fun f m => do x <- v_get m (ib, ib + n)%N f; v_put m (ob, ob + n)%N f (g f x))
          (map N.of_nat (seq 0 k)) m = Some m' /\
     (forall f, (f < N.of_nat k)%N -> m' (ob + f)%N = g f (m (ib + f)%N)) /\
     (forall a, (a < ob \/ ob + N.of_nat k <= a)%N -> m' a = m a)).
  { induction k as [|k IH]; intros Hk.
    - exists m. cbn. repeat split; auto. intros f Hf. lia.
    - destruct IH as (m1 & E1 & F1 & O1); [lia|].
      rewrite seq_S, map_app, each_app, E1. cbn [map each Nat.add].
      unfold v_get, v_put, v_addr. cbn [fst snd].
      replace (ib + N.of_nat k <? ib + n)%N with true by (symmetry; apply N.ltb_lt; lia).
      replace (ob + N.of_nat k <? ob + n)%N with true by (symmetry; apply N.ltb_lt; lia).
      cbn [bind]. eexists. split; [reflexivity|].
      assert (In1 : m1 (ib + N.of_nat k)%N = m (ib + N.of_nat k)%N).
      { apply O1. destruct D as [->|D]; [right; lia|]. unfold apart in D. lia. }
      split.
      + intros f Hf. cbn beta.
        destruct (ob + f =? ob + N.of_nat k)%N eqn:E.
        * apply N.eqb_eq in E. replace f with (N.of_nat k) by lia. rewrite In1. reflexivity.
        * apply N.eqb_neq in E. apply F1. lia.
      + intros a Ha. cbn beta.
        replace (a =? ob + N.of_nat k)%N with false by (symmetry; apply N.eqb_neq; lia).
        apply O1. lia. }
  destruct (G (N.to_nat n) ltac:(lia)) as (m' & E & F & O).
  exists m'. unfold upto. split; [exact E|]. split.
  - intros f Hf. apply F. lia.
  - intros a Ha. apply O. lia.
Qed.

Lemma map_process_ok (g : nat -> N -> A -> A) ib ob nch n (m : mem) :
  (n < W64)%N -> length ib = nch -> length ob = nch ->
  (forall c1 c2 a b, c1 <> c2 -> nth_error ob c1 = Some a -> nth_error ob c2 = Some b -> apart n a b) ->
  (forall c1 c2 a b, nth_error ob c1 = Some a -> nth_error ib c2 = Some b ->
      apart n a b \/ (c1 = c2 /\ a = b)) ->
  exists m', map_process g (Chans ib nch n) (Chans ob nch n) m = Some m' /\
    (forall c f a b, nth_error ob c = Some a -> nth_error ib c = Some b -> (f < n)%N ->
        m' (a + f)%N = g c f (m (b + f)%N)) /\
    (forall x, (forall a, In a ob -> (x < a \/ a + n <= x)%N) -> m' x = m x).
Proof.
  intros Hn Li Lo Hoo Hio. unfold map_process. cbn [ch_size].
  assert (G : forall k, k <= nch -> exists m',
    each (fun c m =>
      do vi <- ch_view (Chans ib nch n) c; do vo <- ch_view (Chans ob nch n) c;
      for_frames (Chans ob nch n) (fun f m => do x <- v_get m vi f; v_put m vo f (g c f x)) m)
      (seq 0 k) m = Some m' /\
    (forall c f a b, c < k -> nth_error ob c = Some a -> nth_error ib c = Some b -> (f < n)%N ->
        m' (a + f)%N = g c f (m (b + f)%N)) /\
    (forall x, (forall c a, c < k -> nth_error ob c = Some a -> (x < a \/ a + n <= x)%N) -> m' x = m x)).
  { induction k as [|k IH]; intros Hk.
    - exists m. cbn. repeat split; auto. intros; lia.
    - destruct IH as (m1 & E1 & F1 & O1); [lia|].
      rewrite seq_S, each_app, E1. cbn [each Nat.add].
      destruct (nth_error ib k) as [b|] eqn:Eb; [|apply nth_error_None in Eb; lia].
      destruct (nth_error ob k) as [a|] eqn:Ea; [|apply nth_error_None in Ea; lia].
      unfold ch_view. cbn [ch_bufs ch_frames]. rewrite Ea, Eb. cbn [bind].
      rewrite for_frames_each by exact Hn. cbn [ch_frames].
      destruct (channel_map (g k) n b a m1) as (m2 & E2 & F2 & O2).
      { destruct (Hio k k a b Ea Eb) as [D|[_ D]]; [right; unfold apart in *; lia|left; congruence]. }
      unfold bind in E2 |- *. rewrite E2. exists m2. split; [reflexivity|]. split.
      + intros c f a' b' Hc Ha' Hb' Hf.
        destruct (Nat.eq_dec c k) as [->|Hck].
        * assert (a' = a) by congruence. assert (b' = b) by congruence. subst a' b'.
          rewrite F2 by exact Hf. f_equal. apply O1.
          intros c1 a1 Hc1 Ha1. destruct (Hio c1 k a1 b Ha1 Eb) as [D|[D _]]; [|lia].
          unfold apart in D. lia.
        * rewrite O2; [apply F1; auto; lia|].
          pose proof (Hoo c k a' a Hck Ha' Ea) as D. unfold apart in D. lia.
      + intros x Hx. rewrite O2 by (apply (Hx k a); auto).
        apply O1. intros c a1 Hc Ha1. apply (Hx c a1); auto. }
  destruct (G nch ltac:(lia)) as (m' & E & F & O).
  exists m'. split; [exact E|]. split.
  - intros c f a b Ha Hb Hf. apply F; auto. rewrite <- Lo. apply (proj1 (nth_error_Some ob c)). rewrite Ha. discriminate.
  - intros x Hx. apply O. intros c a Hc Ha. apply Hx. eapply nth_error_In; eauto.
Qed.
End C.

(** ** MIDI stream *)
Lemma ms_poll_ok {E} (rs : list (pm_read E)) log :
  ~ In PmErr rs ->
  ms_poll true (fun m t l => l ++ [(m, t)]) rs log =
  Some (log ++ flat_map (fun r => match r with PmEvent m t => [(m, t)] | _ => [] end) rs).
Proof.
  revert log. induction rs as [|r rs IH]; intros log H; cbn.
  - now rewrite app_nil_r.
  - assert (H' : ~ In PmErr rs) by (intro; apply H; right; assumption).
    destruct r as [m t| |].
    + cbn. rewrite IH by exact H'. rewrite <- app_assoc. reflexivity.
    + cbn. apply IH, H'.
    + exfalso. apply H. left. reflexivity.
Qed.
Lemma ms_poll_app {E S} v (proc : E -> N -> S -> S) (a b : list (pm_read E)) : forall s,
  ms_poll v proc (a ++ b) s = bind (ms_poll v proc a s) (ms_poll v proc b).
Proof.
  induction a as [|r a IH]; intros s; [reflexivity|]. cbn [ms_poll app].
  destruct (ms_process v proc r s); cbn [bind]; [apply IH|reflexivity].
Qed.
Lemma ms_poll_until_error {E} (rs : list (pm_read E)) (log : list (E * N)) :
  (ms_poll true (fun m t l => l ++ [(m, t)]) rs log <> None <-> ~ In PmErr rs) /\
  forall before after, rs = before ++ PmErr :: after -> ~ In PmErr before ->
    ms_poll true (fun m t l => l ++ [(m, t)]) before log =
    Some (log ++ flat_map (fun r => match r with PmEvent m t => [(m, t)] | _ => [] end) before) /\
    ms_poll true (fun m t l => l ++ [(m, t)]) (before ++ [PmErr]) log = None.
Proof.
  split.
  - split.
    + intros H Hin. apply H. apply in_split in Hin. destruct Hin as (a & b & ->).
      rewrite ms_poll_app. destruct (ms_poll _ _ a log); reflexivity.
    + intros H. rewrite ms_poll_ok by exact H. discriminate.
  - intros a b -> H. rewrite ms_poll_app, ms_poll_ok by exact H. split; reflexivity.
Qed.
Lemma ms_poll_invalid {E S} (proc : E -> N -> S -> S) (rs : list (pm_read E)) s :
  ms_poll false proc rs s = Some s.
Proof. revert s. induction rs as [|r rs IH]; intros s; cbn; auto. Qed.
