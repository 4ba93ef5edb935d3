(** Properties C51, C52.  Theorems only. *)
From Verif Require Import Common Wav_Model Wav_Spec Wav_Proof Io_Spec Wav_Sim.
Local Open Scope N_scope.

(** C51: whatever sequence of buffers is written, every write reports all its samples written, and
    the closed file opens as a recording of exactly those samples with the given channel count and
    rate, under every later sequence of reads, seeks and restarts. *)
Theorem C51_record_and_reopen :
  forall (channels sps : N) (bufs : list (list N)),
  1 <= channels < 2 ^ 14 -> 1 <= sps < 2 ^ 32 ->
  Forall (fun b => lenN b < 2 ^ 32) bufs -> 4 * lenN (concat bufs) < 2 ^ 32 ->
  Forall is_sample (concat bufs) ->
  fst (write_all (ww_open channels sps) bufs) = map (fun b => lenN b) bufs /\
  exists r, wr_open (disk (ww_close (snd (write_all (ww_open channels sps) bufs)))) = Opened r /\
    plays r channels sps (concat bufs).
Proof.
  intros ch sps bufs Hc Hs Hb Hl Ha.
  destruct (record_reopen ch sps bufs Hc Hs Hb Hl Ha) as (E & r & Eo & I).
  split; [exact E|]. exists r. split; [exact Eo|]. apply rinv_plays, I.
Qed.
Print Assumptions C51_record_and_reopen.

(** C51: the closed file is the canonical float WAV file, byte for byte: "RIFF", its size, "WAVEfmt ",
    a 16-byte float format, "data", its size, the samples; little-endian. *)
Theorem C51_file_bytes :
  forall (channels sps : N) (bufs : list (list N)),
  1 <= channels < 2 ^ 14 -> 1 <= sps < 2 ^ 32 -> 32 * sps * channels < 2 ^ 32 ->
  Forall (fun b => lenN b < 2 ^ 32) bufs -> 36 + 4 * lenN (concat bufs) < 2 ^ 32 ->
  disk (ww_close (snd (write_all (ww_open channels sps) bufs))) =
    [82; 73; 70; 70] ++ le 4 (36 + 4 * lenN (concat bufs)) ++ [87; 65; 86; 69]
    ++ [102; 109; 116; 32] ++ le 4 16
    ++ le 2 3 ++ le 2 channels ++ le 4 sps ++ le 4 (4 * sps * channels) ++ le 2 (4 * channels) ++ le 2 32
    ++ [100; 97; 116; 97] ++ le 4 (4 * lenN (concat bufs)) ++ flat_map (le 4) (concat bufs).
Proof.
  intros ch sps bufs Hc Hs Hr Hb Hl. change (2 ^ 32) with 4294967296 in *. change (2 ^ 14) with 16384 in *.
  rewrite (disk_closed ch sps bufs Hc Hs Hb) by (change (2 ^ 64) with 18446744073709551616; lia).
  assert (Er : riff_size (4 * lenN (concat bufs)) = 36 + 4 * lenN (concat bufs)).
  { unfold riff_size. change (2 ^ 32 - 1 - 36) with 4294967259.
    destruct (N.leb_spec (4 * lenN (concat bufs)) 4294967259); [reflexivity|lia]. }
  assert (Ed : data_size (4 * lenN (concat bufs)) = 4 * lenN (concat bufs)).
  { unfold data_size. change (2 ^ 32 - 1) with 4294967295.
    destruct (N.leb_spec (4 * lenN (concat bufs)) 4294967295); [reflexivity|lia]. }
  rewrite Er, Ed. unfold image, head2, float_format, samples_bytes, riff_id, wave_id, fmt_id, data_id.
  assert (E1 : (32 * sps * ch) mod 2 ^ 32 / 8 = 4 * sps * ch).
  { change (2 ^ 32) with 4294967296. rewrite N.mod_small by exact Hr.
    replace (32 * sps * ch) with (4 * sps * ch * 8) by lia. apply N.div_mul. discriminate. }
  rewrite E1. replace (ch * 4) with (4 * ch) by lia. rewrite <- ?app_assoc. reflexivity.
Qed.
Print Assumptions C51_file_bytes.

(** C51: and [wav_memory] on that file delivers it frame by frame, silence afterwards. *)
Theorem C51_record_and_play_back :
  forall (channels sps : N) (bufs : list (list N)) (buff_size k : nat),
  1 <= channels < 2 ^ 14 -> 1 <= sps < 2 ^ 32 ->
  Forall (fun b => lenN b < 2 ^ 32) bufs -> 4 * lenN (concat bufs) < 2 ^ 32 ->
  Forall is_sample (concat bufs) ->
  (1 <= buff_size)%nat -> N.of_nat buff_size * channels < 2 ^ 32 ->
  exists r, wr_open (disk (ww_close (snd (write_all (ww_open channels sps) bufs)))) = Opened r /\
    mem_calls k (mem_make r buff_size)
    = Some (map (frame_from 0 (concat bufs) (N.to_nat channels) 0) (seq 0 k)).
Proof.
  intros ch sps bufs bs k Hc Hs Hb Hl Ha Hbs Hsz.
  destruct (record_reopen ch sps bufs Hc Hs Hb Hl Ha) as (E & r & Eo & I).
  exists r. split; [exact Eo|]. apply memory_plays with (sps := sps); [exact I|apply Hc|exact Hbs|exact Hsz].
Qed.
Print Assumptions C51_record_and_play_back.

(** C51: files of other programs: any float RIFF file, with any other chunks before the format and
    the data (padded when odd), an extended format chunk, and anything after the data. *)
Theorem C51_any_float_file :
  forall (riffsize channels sps byte_rate : N) (tail : list N) (pre mid : list (list N * list N))
         (samples after : list N),
  36 <= riffsize < 2 ^ 32 -> 1 <= channels < 2 ^ 14 -> 1 <= sps < 2 ^ 32 ->
  format_tail tail -> Forall extra_chunk pre -> Forall extra_chunk mid ->
  lenN (concat (map chunk pre)) + lenN tail + lenN (concat (map chunk mid)) < 2 ^ 30 ->
  Forall is_sample samples -> 4 * lenN samples < 2 ^ 32 -> lenN after < 2 ^ 61 ->
  exists r, wr_open (float_wav riffsize channels sps byte_rate tail pre mid samples after) = Opened r /\
    plays r channels sps samples.
Proof.
  intros. destruct (open_ok riffsize channels sps byte_rate tail pre mid samples after) as (r & E & I); auto.
  exists r. split; [exact E|]. apply rinv_plays, I.
Qed.
Print Assumptions C51_any_float_file.

(** C51: opening ends for every file: the search for chunks never runs longer than the file. *)
Theorem C51_open_ends : forall bytes, wr_open bytes <> NoFuel.
Proof. exact open_ends. Qed.
Print Assumptions C51_open_ends.

(** C51: a recording of 2^30 samples or more cannot be reopened faithfully: the size field saturates
    (at a number that is not even a multiple of the sample size, so that every seek fails dr_wav's
    assertion). *)
Theorem C51_long_recording_refuted :
  forall (channels sps : N) (bufs : list (list N)),
  1 <= channels < 2 ^ 14 -> 1 <= sps < 2 ^ 32 -> Forall (fun b => lenN b < 2 ^ 32) bufs ->
  2 ^ 30 <= lenN (concat bufs) < 2 ^ 59 ->
  exists r, wr_open (disk (ww_close (snd (write_all (ww_open channels sps) bufs)))) = Opened r /\
    wr_length r = 2 ^ 30 - 1 /\ forall t, wr_seek r t = None.
Proof. exact oversize. Qed.
Print Assumptions C51_long_recording_refuted.

(** C51: the writer accepts formats its reader rejects: 16384 channels, rate 0, no channels. *)
Theorem C51_unreadable_formats_refuted :
  wr_open (disk (ww_close (snd (write_all (ww_open 16384 44100) [[1; 2]])))) = Failed /\
  wr_open (disk (ww_close (snd (write_all (ww_open 1 0) [[1; 2]])))) = Failed /\
  wr_open (disk (ww_close (snd (write_all (ww_open 0 44100) [[1; 2]])))) = Failed.
Proof. split; [|split]; vm_compute; reflexivity. Qed.
Print Assumptions C51_unreadable_formats_refuted.

(** C51: a file cut off after [samples] although its header announces [total]: length() reports
    [total], but position() never gets there, and every further read delivers nothing: a loop that
    reads until position() reaches length() does not end. *)
Theorem C51_truncated_file_stalls :
  forall (channels sps riffsize total : N) (samples : list N) (n : N),
  1 <= channels < 2 ^ 14 -> 1 <= sps < 2 ^ 32 -> 36 <= riffsize < 2 ^ 32 ->
  Forall is_sample samples -> lenN samples < total -> 4 * total < 2 ^ 32 -> lenN samples < n < 2 ^ 32 ->
  exists r r', wr_open (image channels sps (le 4 riffsize) (le 4 (4 * total)) (flat_map (le 4) samples)) = Opened r /\
    wr_length r = total /\ wr_read r n = Some (samples, r') /\ wr_position r' = lenN samples /\
    forall k, wr_read r' k = Some ([], r').
Proof. exact truncated. Qed.
Print Assumptions C51_truncated_file_stalls.

(** C51, example: stereo, three buffers (one empty); the file has 44 + 4 * 5 bytes; read 2, seek to 4,
    read 3 (only one left), restart, read 1. *)
Example C51_example :
  let w := write_all (ww_open 2 44100) [[7; 8]; []; [1065353216; 3212836864; 9]] in
  fst w = [2; 0; 3] /\ lenN (disk (ww_close (snd w))) = 64 /\
  match wr_open (disk (ww_close (snd w))) with
  | Opened r => reader_uses r [Read 2; Seek 4; Read 3; Restart; Read 1]
                = Some [([7; 8], 2); ([], 4); ([9], 5); ([], 0); ([7], 1)] /\
                mem_calls 4 (mem_make r 2) = Some [[7; 8]; [1065353216; 3212836864]; [9; 0]; [0; 0]]
  | _ => False
  end.
Proof. vm_compute. repeat split. Qed.
(** a file with a LIST chunk of odd size, an extended format chunk, a fact chunk and a trailer *)
Example C51_example_chunks :
  let pre := [([76; 73; 83; 84], [1; 2; 3])] in let mid := [(fact_id, [2; 0; 0; 0])] in
  let tail := le 2 2 ++ [5; 6] in
  (Forall extra_chunk pre /\ Forall extra_chunk mid /\ format_tail tail) /\
  match wr_open (float_wav 100 1 8000 32000 tail pre mid [5; 6] [1; 2; 3]) with
  | Opened r => wr_length r = 2 /\ option_map fst (wr_read r 10) = Some [5; 6]
  | _ => False
  end.
Proof.
  cbn zeta. split.
  - split; [|split].
    + repeat constructor; cbn; try discriminate; try reflexivity; intros H; discriminate H.
    + repeat constructor; cbn; try discriminate; try reflexivity; intros; lia.
    + right. exists [5; 6], []. split; [reflexivity|]. split; reflexivity.
  - vm_compute. repeat split.
Qed.

(** C52: stop the program after any number [k] of the bytes (and seeks) it sends to the file, from
    the creation of the writer to its destruction: what is on disk either does not open, or opens as
    a recording of the first samples written, with the right format; never anything else. *)
Theorem C52_crash_leaves_a_prefix :
  forall (channels sps : N) (bufs : list (list N)) (k : nat),
  1 <= channels < 2 ^ 14 -> 1 <= sps < 2 ^ 32 ->
  Forall (fun b => lenN b < 2 ^ 32) bufs -> 4 * lenN (concat bufs) < 2 ^ 32 ->
  Forall is_sample (concat bufs) ->
  let w := snd (write_all (ww_open channels sps) bufs) in
  let found := wr_open (disk (firstn k (flat_map bytewise (ww_close w)))) in
  found = Failed \/ exists r n, found = Opened r /\ plays r channels sps (takeN n (concat bufs)).
Proof. exact crash_reads. Qed.
Print Assumptions C52_crash_leaves_a_prefix.

(** C52: but nothing written is durable before the writer is destroyed: until then the file, however
    long, opens as an empty recording. *)
Theorem C52_durable_before_close_refuted :
  forall (channels sps : N) (bufs : list (list N)),
  1 <= channels < 2 ^ 14 -> 1 <= sps < 2 ^ 32 ->
  Forall (fun b => lenN b < 2 ^ 32) bufs -> 4 * lenN (concat bufs) < 2 ^ 32 ->
  exists r, wr_open (disk (w_log (snd (write_all (ww_open channels sps) bufs)))) = Opened r /\
    plays r channels sps [].
Proof.
  intros ch sps bufs Hc Hs Hb Hl. change (2 ^ 32) with 4294967296 in Hl.
  rewrite (disk_open ch sps bufs Hc Hb) by (change (2 ^ 64) with 18446744073709551616; lia).
  apply (image_open ch sps 36 [] (samples_bytes (concat bufs)) Hc Hs).
  - split; [discriminate|reflexivity].
  - constructor.
  - reflexivity.
  - rewrite lenN_samples. change (2 ^ 61) with 2305843009213693952. lia.
Qed.
Print Assumptions C52_durable_before_close_refuted.

(** C52, example: 70 samples (280 = 24 + 256 bytes of data). Cut inside the header: no file; while
    writing: empty; inside the final size update: the first 6 samples; at the end: all 70. *)
Example C52_example :
  let w := snd (write_all (ww_open 1 44100) [repeat 7 64; repeat 8 6]) in
  let ops := flat_map bytewise (ww_close w) in
  let len k := match wr_open (disk (firstn k ops)) with Opened r => Some (wr_length r) | _ => None end in
  length ops = 334%nat /\ map len [43; 44; 200; 324; 331; 334]%nat = [None; Some 0; Some 0; Some 0; Some 6; Some 70].
Proof. vm_compute. repeat split. Qed.
