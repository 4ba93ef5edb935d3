(** Specification for C51, C52: the layout of a RIFF file in terms of chunks, and a recording seen
    as a list of samples with a cursor. *)
From Verif Require Import Common Wav_Model.
Local Open Scope N_scope.

(** A RIFF chunk: identifier, size, contents, and a padding byte when the size is odd. *)
Definition chunk (c : list N * list N) : list N :=
  fst c ++ le 4 (lenN (snd c)) ++ snd c ++ repeat 0 (N.to_nat (lenN (snd c) mod 2)).
(** a chunk a reader has to skip *)
Definition extra_chunk (c : list N * list N) : Prop :=
  length (fst c) = 4%nat /\ lenN (snd c) < 2 ^ 32 /\
  fst c <> fmt_id /\ fst c <> data_id /\ (fst c = fact_id -> 4 <= lenN (snd c)).
(** the 16 bytes describing 32-bit float samples *)
Definition float_format (channels sps byte_rate : N) : list N :=
  le 2 3 ++ le 2 channels ++ le 4 sps ++ le 4 byte_rate ++ le 2 (4 * channels) ++ le 2 32.
(** what may follow them: nothing, or a counted extension of [ext] bytes and more *)
Definition format_tail (t : list N) : Prop :=
  t = [] \/ exists ext more, t = le 2 (lenN ext) ++ ext ++ more /\ lenN ext < 2 ^ 16 /\ lenN t < 2 ^ 30.
(** a float RIFF file: other chunks before and after the format, data last but [after] *)
Definition float_wav (riffsize channels sps byte_rate : N) (tail : list N)
    (pre mid : list (list N * list N)) (samples after : list N) : list N :=
  riff_id ++ le 4 riffsize ++ wave_id ++ concat (map chunk pre)
  ++ chunk (fmt_id, float_format channels sps byte_rate ++ tail) ++ concat (map chunk mid)
  ++ data_id ++ le 4 (4 * lenN samples) ++ flat_map (le 4) samples ++ after.

(** Using a recording: read some samples, go to a sample, go to the start. *)
Inductive use := Read (n : N) | Seek (target : N) | Restart.
(** On the list of samples with the cursor at [p]: what is delivered, and the new cursor. A seek
    beyond the end goes to the last sample. *)
Definition cursor_use (samples : list N) (p : N) (u : use) : list N * N :=
  match u with
  | Read n => let out := takeN n (dropN p samples) in (out, p + lenN out)
  | Seek t => ([], N.min t (lenN samples - 1))
  | Restart => ([], 0)
  end.
Fixpoint cursor_uses (samples : list N) (p : N) (us : list use) : list (list N * N) :=
  match us with
  | [] => []
  | u :: t => cursor_use samples p u :: cursor_uses samples (snd (cursor_use samples p u)) t
  end.
(** The same on a [wav_reader]: the samples delivered, and position() afterwards. [None] when a call
    reports failure. *)
Definition reader_use (r : reader) (u : use) : option (list N * reader) :=
  match u with
  | Read n => wr_read r n
  | Seek t => match wr_seek r t with Some (true, r') => Some ([], r') | _ => None end
  | Restart => match wr_restart r with (true, r') => Some ([], r') | _ => None end
  end.
Fixpoint reader_uses (r : reader) (us : list use) : option (list (list N * N)) :=
  match us with
  | [] => Some []
  | u :: t => do x <- reader_use r u;
              do rest <- reader_uses (snd x) t;
              Some ((fst x, wr_position (snd x)) :: rest)
  end.
(** [read] takes a 32-bit count *)
Definition use_ok (u : use) : Prop := match u with Read n => n < 2 ^ 32 | _ => True end.

(** [r] is a recording of these samples, freshly opened *)
Definition plays (r : reader) (channels sps : N) (samples : list N) : Prop :=
  wr_sps r = sps /\ wr_channels r = channels /\ wr_length r = lenN samples /\ wr_position r = 0 /\
  forall us, Forall use_ok us -> reader_uses r us = Some (cursor_uses samples 0 us).

(** Writing buffers one after the other: the counts returned, and the writer. *)
Fixpoint write_all (w : writer) (bufs : list (list N)) : list N * writer :=
  match bufs with
  | [] => ([], w)
  | b :: t => let '(n, w1) := ww_write_buffer w b in
              let '(ns, w2) := write_all w1 t in (n :: ns, w2)
  end.
Definition is_sample (x : N) : Prop := x < 2 ^ 32.

(** The file [wav_writer] makes, with given size fields and given bytes after them. *)
Definition head2 (channels sps : N) : list N :=
  wave_id ++ fmt_id ++ le 4 16 ++ float_format channels sps ((32 * sps * channels) mod 2 ^ 32 / 8) ++ data_id.
Definition image (channels sps : N) (riffsize datasize payload : list N) : list N :=
  riff_id ++ riffsize ++ head2 channels sps ++ datasize ++ payload.
