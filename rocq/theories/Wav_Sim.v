(** [wav_memory] over the bytes of a file behaves as the model of [Io_Model] over its samples. *)
From Verif Require Import Common Wav_Model Wav_Spec Wav_Proof Io_Model Io_Spec Io_Proof.

Lemma read_mod r n : wr_read r n = wr_read r (n mod 2 ^ 32)%N.
Proof. unfold wr_read. rewrite N.mod_mod by discriminate. reflexivity. Qed.

Definition sim (m : memory) (w : wav_mem) (ch sps : N) (samples : list N) : Prop :=
  exists p, rinv (y_reader m) ch sps samples p /\
    w = WavMem (Some (Wav samples (N.to_nat ch) (N.to_nat p))) (y_buff m) (y_pos m) (y_first m).

Lemma rinv_ch r ch sps samples p : rinv r ch sps samples p -> wr_channels r = ch.
Proof. intros (B & dp & rest & -> & _). reflexivity. Qed.

Lemma sim_read r ch sps samples p (buff : list N) : rinv r ch sps samples p ->
  exists r' q, wr_read r (lenN buff) = Some (fst (wav_read (Wav samples (N.to_nat ch) (N.to_nat p)) (N.of_nat (length buff))), r') /\
    rinv r' ch sps samples q /\
    snd (wav_read (Wav samples (N.to_nat ch) (N.to_nat p)) (N.of_nat (length buff))) = Wav samples (N.to_nat ch) (N.to_nat q).
Proof.
  intros I. rewrite read_mod. unfold wav_read. cbn [wav_at wav_data wav_nch fst snd].
  set (n := (N.of_nat (length buff) mod 2 ^ 32)%N).
  assert (Hn : (n < 2 ^ 32)%N) by (apply N.mod_lt; discriminate).
  destruct (rinv_read r ch sps samples p n I Hn) as (r' & E & I').
  exists r', (p + lenN (takeN n (dropN p samples)))%N.
  change (lenN buff mod 2 ^ 32)%N with n. rewrite E.
  split; [reflexivity|]. split; [exact I'|]. f_equal.
  unfold takeN, dropN, lenN. rewrite N2Nat.inj_add, Nat2N.id. reflexivity.
Qed.

Lemma sim_call m w ch sps samples : sim m w ch sps samples ->
  match wm_call 0%N w with
  | Some (f, w') => exists m', mem_call m = Some (f, m') /\ sim m' w' ch sps samples
  | None => mem_call m = None
  end.
Proof.
  intros (p & I & ->). unfold wm_call, mem_call. cbn [wm_wav wm_buff wm_pos wm_first wav_nch].
  rewrite (rinv_ch _ _ _ _ _ I).
  destruct (negb (y_first m) || (length (y_buff m) <=? y_pos m + N.to_nat ch)).
  - destruct (sim_read _ ch sps samples p (y_buff m) I) as (r' & q & E & I' & Ew).
    rewrite E. cbn [bind fst snd].
    destruct (wav_read _ _) as [c w'] eqn:Er. cbn [fst snd] in *. subst w'.
    unfold wm_frame. destruct c as [|x c]; cbn [length Nat.eqb].
    + set (b := repeat 0%N (N.to_nat ch)).
      destruct ((0 <? length b) && (0 + N.to_nat ch <=? length b)); cbn [bind]; [|reflexivity].
      eexists. split; [reflexivity|]. exists q. split; [exact I'|reflexivity].
    + set (b := (x :: c) ++ _).
      destruct ((0 <? length b) && (0 + N.to_nat ch <=? length b)); cbn [bind]; [|reflexivity].
      eexists. split; [reflexivity|]. exists q. split; [exact I'|reflexivity].
  - cbn [bind]. unfold wm_frame.
    destruct ((y_pos m + N.to_nat ch <? length (y_buff m)) && (y_pos m + N.to_nat ch + N.to_nat ch <=? length (y_buff m)));
      cbn [bind]; [|reflexivity].
    eexists. split; [reflexivity|]. exists p. split; [exact I|reflexivity].
Qed.
Lemma sim_calls k : forall m w ch sps samples, sim m w ch sps samples ->
  mem_calls k m = option_map fst (wm_calls 0%N k w).
Proof.
  induction k as [|k IH]; intros m w ch sps samples S; [reflexivity|]. cbn [mem_calls wm_calls].
  pose proof (sim_call _ _ _ _ _ S) as C. destruct (wm_call 0%N w) as [[f w']|]; cbn [bind].
  - destruct C as (m' & -> & S'). cbn [bind fst snd]. rewrite (IH _ _ _ _ _ S').
    destruct (wm_calls 0%N k w') as [[fs w2]|]; reflexivity.
  - rewrite C. reflexivity.
Qed.
Lemma memory_plays r ch sps samples buff_size k :
  rinv r ch sps samples 0 -> (1 <= ch)%N -> 1 <= buff_size -> (N.of_nat buff_size * ch < 2 ^ 32)%N ->
  mem_calls k (mem_make r buff_size) = Some (map (frame_from 0%N samples (N.to_nat ch) 0) (seq 0 k)).
Proof.
  intros I Hc Hb Hs.
  assert (S : sim (mem_make r buff_size) (wm_make 0%N (Some (Wav samples (N.to_nat ch) 0)) buff_size) ch sps samples).
  { exists 0%N. split; [exact I|]. unfold mem_make, wm_make. cbn [y_buff y_pos y_first wav_nch].
    rewrite (rinv_ch _ _ _ _ _ I). reflexivity. }
  rewrite (sim_calls k _ _ _ _ _ S).
  destruct (playback 0%N samples (N.to_nat ch) buff_size k) as (m & E).
  - lia.
  - exact Hb.
  - rewrite Nat2N.inj_mul, N2Nat.id. exact Hs.
  - rewrite E. reflexivity.
Qed.

Local Open Scope N_scope.
(** the whole trip *)
Lemma record_reopen ch sps bufs :
  1 <= ch < 2 ^ 14 -> 1 <= sps < 2 ^ 32 -> Forall (fun b => lenN b < 2 ^ 32) bufs ->
  4 * lenN (concat bufs) < 2 ^ 32 -> Forall is_sample (concat bufs) ->
  fst (write_all (ww_open ch sps) bufs) = map (fun b => lenN b) bufs /\
  exists r, wr_open (disk (ww_close (snd (write_all (ww_open ch sps) bufs)))) = Opened r /\
    rinv r ch sps (concat bufs) 0.
Proof.
  intros Hc Hs Hb Hl Ha. change (2 ^ 32) with 4294967296 in Hl.
  assert (H64 : 4 * lenN (concat bufs) < 2 ^ 64) by (change (2 ^ 64) with 18446744073709551616; lia).
  destruct (session ch sps bufs Hc Hb H64) as (l & E & _).
  split; [exact E|]. rewrite (disk_closed ch sps bufs Hc Hs Hb H64).
  assert (Ed : data_size (4 * lenN (concat bufs)) = 4 * lenN (concat bufs)).
  { unfold data_size. change (2 ^ 32 - 1) with 4294967295.
    destruct (N.leb_spec (4 * lenN (concat bufs)) 4294967295); [reflexivity|lia]. }
  assert (Er : 36 <= riff_size (4 * lenN (concat bufs)) < 2 ^ 32).
  { unfold riff_size. change (2 ^ 32 - 1 - 36) with 4294967259. change (2 ^ 32) with 4294967296.
    destruct (N.leb_spec (4 * lenN (concat bufs)) 4294967259); lia. }
  rewrite Ed. rewrite <- (app_nil_r (samples_bytes (concat bufs))), image_float_wav.
  destruct (open_ok (riff_size (4 * lenN (concat bufs))) ch sps ((32 * sps * ch) mod 2 ^ 32 / 8) [] [] [] (concat bufs) [] Er Hc Hs
    (or_introl eq_refl) (Forall_nil _) (Forall_nil _) eq_refl Ha Hl eq_refl) as (r & Eo & I).
  exists r. auto.
Qed.
