(** Model of q_io [wav_writer] and [wav_reader] (q_io/src/audio_file.cpp:15-106) down to the
    bytes of the file, through the functions of the bundled q_io/external/include/dr_wav.h they
    call.  stdio is the trusted base: a file is a byte sequence with a position; fwrite and fread
    transfer everything they can.  The host is little-endian (dr_wav writes integers by copying
    their memory).  Samples are the 32-bit patterns of [float]s: nothing here computes with them. *)
From Verif Require Import Common.
Local Open Scope N_scope.

Definition lenN {A} (l : list A) : N := N.of_nat (length l).
Definition takeN {A} (n : N) (l : list A) : list A := firstn (N.to_nat n) l.
Definition dropN {A} (n : N) (l : list A) : list A := skipn (N.to_nat n) l.

(** An integer of [k] bytes in memory, and back (dr_wav.h:787-806 drwav__bytes_to_u16/u32). *)
Fixpoint le (k : nat) (x : N) : list N :=
  match k with O => [] | S j => x mod 256 :: le j (x / 256) end.
Fixpoint unle (l : list N) : N := match l with [] => 0 | b :: t => b + 256 * unle t end.

(** ** stdio *)
Record file := File { f_bytes : list N; f_pos : N }.
(** fwrite at the current position (a gap left by seeking past the end is filled with zeros) *)
Definition fwrite (f : file) (bs : list N) : file :=
  let b := f_bytes f ++ repeat 0 (N.to_nat (f_pos f - lenN (f_bytes f))) in
  File (takeN (f_pos f) b ++ bs ++ dropN (f_pos f + lenN bs) b) (f_pos f + lenN bs).
Definition fread (f : file) (n : N) : list N * file :=
  let c := takeN n (dropN (f_pos f) (f_bytes f)) in (c, File (f_bytes f) (f_pos f + lenN c)).
(** conversion of an unsigned number to [int] *)
Definition int_of (x : N) : Z :=
  let y := Z.of_N (x mod 2 ^ 32) in if (y <? 2 ^ 31)%Z then y else (y - 2 ^ 32)%Z.
(** fseek(f, int, SEEK_SET / SEEK_CUR): fails when the target is negative *)
Definition fseek_set (f : file) (off : Z) : option file :=
  if (off <? 0)%Z then None else Some (File (f_bytes f) (Z.to_N off)).
Definition fseek_cur (f : file) (off : Z) : option file :=
  fseek_set f (Z.of_N (f_pos f) + off).

(** ** The writer. [w_log] is the sequence of stdio calls made so far. *)
Inductive fop := Fwrite (bs : list N) | Fseek (pos : N).
Definition fop_run (f : file) (o : fop) : file :=
  match o with Fwrite bs => fwrite f bs | Fseek p => File (f_bytes f) p end.
Record writer := Writer { w_log : list fop; w_datasize : N }.

Definition riff_id : list N := [82; 73; 70; 70].
Definition wave_id : list N := [87; 65; 86; 69].
Definition fmt_id : list N := [102; 109; 116; 32].
Definition data_id : list N := [100; 97; 116; 97].
Definition fact_id : list N := [102; 97; 99; 116].

(** audio_file.cpp:87-98 [wav_writer::wav_writer]: float32 RIFF;
    dr_wav.h:1611-1739 drwav_init_write__internal (not sequential, so the sizes are 36 and 0 for
    now). The file was just opened with "wb": empty. Opening is assumed to succeed. *)
Definition ww_open (channels sps : N) : writer :=
  let ch := channels mod 2 ^ 32 in
  Writer [ Fwrite riff_id; Fwrite (le 4 36); Fwrite wave_id;
           Fwrite fmt_id; Fwrite (le 4 16);
           Fwrite (le 2 3);                                       (* DR_WAVE_FORMAT_IEEE_FLOAT *)
           Fwrite (le 2 ch);
           Fwrite (le 4 sps);
           Fwrite (le 4 ((32 * sps * ch) mod 2 ^ 32 / 8));        (* avgBytesPerSec, uint32 *)
           Fwrite (le 2 ((ch * 32) mod 2 ^ 32 / 8));              (* blockAlign, uint16 *)
           Fwrite (le 2 32);                                      (* bitsPerSample *)
           Fwrite data_id; Fwrite (le 4 0) ] 0.

(** the memory of an array of floats *)
Definition samples_bytes (data : list N) : list N := flat_map (le 4) data.

(** audio_file.cpp:100-105, dr_wav.h:2031-2062 drwav_write, 2018-2029 drwav_write_raw; returns the
    number of samples written. [len] is the uint32 parameter, [data] the buffer it points to
    (at least [len] floats). *)
Definition ww_write (w : writer) (data : list N) (len : N) : N * writer :=
  let n := len mod 2 ^ 32 in
  if n =? 0 then (0, w)
  else let bs := samples_bytes (takeN n data) in
       (lenN bs * 8 / 32, Writer (w_log w ++ [Fwrite bs]) (wrap64 (w_datasize w + lenN bs))).
(** audio_file.hpp:121-126 [write(Buffer const&)] *)
Definition ww_write_buffer (w : writer) (data : list N) : N * writer :=
  ww_write w data (lenN data).

(** dr_wav.h:1583-1599 drwav_riff_chunk_size_riff, drwav_data_chunk_size_riff *)
Definition riff_size (n : N) : N := if n <=? 2 ^ 32 - 1 - 36 then 36 + n else 2 ^ 32 - 1.
Definition data_size (n : N) : N := if n <=? 2 ^ 32 - 1 then n else 2 ^ 32 - 1.

(** audio_file.cpp:21-25 (destructor), dr_wav.h:1751-1820 drwav_uninit: padding, then the two
    sizes are filled in. [dataChunkDataPos] is 36 here (1716). *)
Definition ww_close (w : writer) : list fop :=
  w_log w
  ++ (if w_datasize w mod 2 =? 0 then [] else [Fwrite (le 1 0)])
  ++ [Fseek 4; Fwrite (le 4 (riff_size (w_datasize w)));
      Fseek 40; Fwrite (le 4 (data_size (w_datasize w)))].

(** What is on disk after the given stdio calls on a new file. *)
Definition disk (ops : list fop) : list N := f_bytes (fold_left fop_run ops (File [] 0)).
(** Writing byte by byte, to say where a crash can happen. *)
Definition bytewise (o : fop) : list fop :=
  match o with Fwrite bs => map (fun b => Fwrite [b]) bs | Fseek p => [Fseek p] end.

(** ** The reader *)
(** The fields of [drwav] that matter for reading uncompressed RIFF files. *)
Record reader := Reader {
  r_file : file; r_tag : N; r_rate : N; r_ch : N; r_bps : N;
  r_remaining : N; r_total : N; r_datapos : N; r_datasize : N }.
(** [Unsupported]: Wave64 and ADPCM files, not modelled. [NoFuel]: a parsing loop ran longer than
    the file has bytes (theorem: never). *)
Inductive opened := NoFuel | Failed | Unsupported | Opened (r : reader).

Fixpoint bytes_eqb (a b : list N) : bool :=
  match a, b with
  | [], [] => true
  | x :: s, y :: t => (x =? y) && bytes_eqb s t
  | _, _ => false
  end.

(** exactly [n] bytes, or nothing *)
Definition fread_exactly (f : file) (n : N) : option (list N * file) :=
  let '(c, f') := fread f n in if lenN c =? n then Some (c, f') else None.

(** dr_wav.h:849-879 drwav__read_chunk_header (RIFF): id, size, padding. *)
Definition chunk_header (f : file) : option (list N * N * N * file) :=
  do a <- fread_exactly f 4;
  do b <- fread_exactly (snd a) 4;
  Some (fst a, unle (fst b), unle (fst b) mod 2, snd b).

(** dr_wav.h:881-899 drwav__seek_forward: repeated fseek by at most 2^31 - 1. Simplification: an
    offset beyond what off_t holds makes fseek fail in the code; here the position is unbounded.
    Either way nothing can be read afterwards. *)
Definition seek_forward (f : file) (off : N) : file := File (f_bytes f) (f_pos f + off).

(** dr_wav.h:903-924: skip the chunks before "fmt ". [Some None]: end of file. [rp] is
    *pRunningBytesReadOut. *)
Fixpoint find_fmt (fuel : nat) (f : file) (rp : N) : option (option (N * N * file * N)) :=
  match fuel with
  | O => None
  | S k =>
      match chunk_header f with
      | None => Some None
      | Some (id, size, pad, f1) =>
          let rp1 := wrap64 (rp + 8) in
          if bytes_eqb id fmt_id then Some (Some (size, pad, f1, rp1))
          else find_fmt k (seek_forward f1 (size + pad)) (wrap64 (rp1 + size + pad))
      end
  end.

(** drwav_fmt, the fields used *)
Record fmt := Fmt { m_tag : N; m_ch : N; m_rate : N; m_align : N; m_bits : N; m_sub : N }.

(** dr_wav.h:940-1007 drwav__read_fmt after the header: [None] = false. *)
Definition read_fmt (size pad : N) (f : file) (rp : N) : option (fmt * file * N) :=
  do a <- fread_exactly f 16;
  let b := fst a in
  let rp1 := wrap64 (rp + 16) in
  let tag := unle (takeN 2 b) in
  let m sub := Fmt tag (unle (takeN 2 (dropN 2 b))) (unle (takeN 4 (dropN 4 b)))
                   (unle (takeN 2 (dropN 12 b))) (unle (takeN 2 (dropN 14 b))) sub in
  do e <- (if 16 <? size then
             do c <- fread_exactly (snd a) 2;
             let ext := unle (fst c) in
             let rp2 := wrap64 (rp1 + 2) in
             do x <- (if 0 <? ext then
                        if tag =? 65534 then                       (* DR_WAVE_FORMAT_EXTENSIBLE *)
                          if negb (ext =? 22) then None
                          else do g <- fread_exactly (snd c) 22;
                               Some (unle (takeN 2 (dropN 6 (fst g))), snd g, wrap64 (rp2 + ext))
                        else do g <- fseek_cur (snd c) (Z.of_N ext);
                             Some (0, g, wrap64 (rp2 + ext))
                      else Some (0, snd c, rp2));
             let left := sub64 size (18 + ext) in
             do g <- fseek_cur (snd (fst x)) (int_of left);
             Some (fst (fst x), g, wrap64 (snd x + left))
           else Some (0, snd a, rp1));
  do p <- (if 0 <? pad then do g <- fseek_cur (snd (fst e)) (Z.of_N pad); Some (g, wrap64 (snd e + pad))
           else Some (snd (fst e), snd e));
  Some (m (fst (fst e)), fst p, snd p).

(** dr_wav.h:1460-1518: skip to the "data" chunk; the result of drwav__seek_forward is ignored. The
    count in a "fact" chunk is only used for ADPCM (and [translatedFormatTag] is still 0 there). *)
Fixpoint find_data (fuel : nat) (f : file) (rp : N) : option (option (N * file * N)) :=
  match fuel with
  | O => None
  | S k =>
      match chunk_header f with
      | None => Some None
      | Some (id, size, pad, f1) =>
          let rp1 := wrap64 (rp + 8) in
          if bytes_eqb id data_id then Some (Some (size, f1, rp1))
          else if bytes_eqb id fact_id then
            match fread_exactly f1 4 with
            | None => Some None
            | Some (_, f2) =>
                let sz := wrap64 (sub64 size 4 + pad) in
                find_data k (seek_forward f2 sz) (wrap64 (wrap64 (rp1 + 4) + sz))
            end
          else find_data k (seek_forward f1 (size + pad)) (wrap64 (rp1 + size + pad))
      end
  end.

(** audio_file.cpp:46-49 [wav_reader::wav_reader], dr_wav.h:1354-1575 drwav_init, on a file with
    the given contents. *)
Definition wr_open (bytes : list N) : opened :=
  let f0 := File bytes 0 in
  match fread_exactly f0 4 with
  | None => Failed
  | Some (riff, f1) =>
    if negb (bytes_eqb riff riff_id)
    then if bytes_eqb riff [114; 105; 102; 102] then Unsupported else Failed
    else
    match fread_exactly f1 4 with
    | None => Failed
    | Some (cs, f2) =>
      if unle cs <? 36 then Failed else
      match fread_exactly f2 4 with
      | None => Failed
      | Some (wave, f3) =>
        if negb (bytes_eqb wave wave_id) then Failed else
        match find_fmt (S (length bytes)) f3 12 with
        | None => NoFuel
        | Some None => Failed
        | Some (Some (size, pad, f4, rp)) =>
          match read_fmt size pad f4 rp with
          | None => Failed
          | Some (m, f5, rp5) =>
            if (m_rate m =? 0) || (m_ch m =? 0) || (m_bits m =? 0) || (m_align m =? 0) then Failed else
            let tag := if m_tag m =? 65534 then m_sub m else m_tag m in
            match find_data (S (length bytes)) f5 rp5 with
            | None => NoFuel
            | Some None => Failed
            | Some (Some (dsize, f6, rp6)) =>
              let bps := m_align m / m_ch m in
              if bps =? 0 then Failed
              else if (tag =? 2) || (tag =? 17) then Unsupported          (* ADPCM *)
              else Opened (Reader f6 tag (m_rate m) (m_ch m) bps dsize (dsize / bps) rp6 dsize)
            end
          end
        end
      end
    end
  end.

(** audio_file.cpp:32-44, 51-56, 76-81 *)
Definition wr_sps (r : reader) : N := r_rate r.
Definition wr_channels (r : reader) : N := r_ch r.
Definition wr_length (r : reader) : N := r_total r.
Definition wr_position (r : reader) : N := sub64 (r_total r) (r_remaining r / r_bps r).

(** whole samples in a piece of memory *)
Fixpoint bytes_samples (l : list N) : list N :=
  match l with
  | a :: b :: c :: d :: t => unle [a; b; c; d] :: bytes_samples t
  | _ => []
  end.

(** audio_file.cpp:58-63; dr_wav.h:2889-2912 drwav_read_f32, 2812-2817, 1885-1903 drwav_read,
    1868-1883 drwav_read_raw: the samples read and the reader afterwards. [None]: sample formats
    other than 32-bit float, whose conversion is not modelled. *)
Definition wr_read (r : reader) (len : N) : option (list N * reader) :=
  let n := len mod 2 ^ 32 in
  if (n =? 0) then Some ([], r)
  else if (r_tag r =? 3) && (r_bps r =? 4) then
    let bytes := N.min (n * 4) (r_remaining r) in
    let '(c, f) := fread (r_file r) bytes in
    Some (bytes_samples c,
          Reader f (r_tag r) (r_rate r) (r_ch r) (r_bps r)
                 (r_remaining r - lenN c) (r_total r) (r_datapos r) (r_datasize r))
  else None.

(** audio_file.cpp:68-73; dr_wav.h:1905-1921 drwav_seek_to_first_sample *)
Definition wr_restart (r : reader) : bool * reader :=
  match fseek_set (r_file r) (int_of (r_datapos r)) with
  | None => (false, r)
  | Some f => (true, Reader f (r_tag r) (r_rate r) (r_ch r) (r_bps r)
                            (r_datasize r) (r_total r) (r_datapos r) (r_datasize r))
  end.

(** audio_file.cpp:83-88; dr_wav.h:1923-2015 drwav_seek_to_sample, uncompressed; [None] is the
    failing assertion at 1985. The loop of relative seeks at 2002-2010 is one seek here. *)
Definition wr_seek (r : reader) (target : N) : option (bool * reader) :=
  if r_total r =? 0 then Some (true, r)
  else
    let sample := if r_total r <=? target then r_total r - 1 else target in
    let total_bytes := r_total r * r_bps r in
    if total_bytes <? r_remaining r then None
    else
      let cur := total_bytes - r_remaining r in
      let tgt := sample * r_bps r in
      let go (r : reader) (off : N) :=
        Reader (seek_forward (r_file r) off) (r_tag r) (r_rate r) (r_ch r) (r_bps r)
               (sub64 (r_remaining r) off) (r_total r) (r_datapos r) (r_datasize r) in
      if cur <? tgt then Some (true, go r (tgt - cur))
      else let '(ok, r1) := wr_restart r in
           if ok then Some (true, go r1 tgt) else Some (false, r1).

(** ** [wav_memory] on top of a [wav_reader]: q_io/include/q_io/audio_file.hpp:62-90, 128-168.
    [y_pos] is [_pos] as an index into [_buff]; the bit pattern 0 is the sample 0.0f. *)
Record memory := Memory { y_reader : reader; y_buff : list N; y_pos : nat; y_first : bool }.
(** the [char const*] constructor on a file that could be opened *)
Definition mem_make (r : reader) (buff_size : nat) : memory :=
  Memory r (repeat 0 (buff_size * N.to_nat (wr_channels r))) 0 false.
(** audio_file.hpp:138-168 [operator()]; [None] outside what is modelled or outside [_buff] *)
Definition mem_call (m : memory) : option (list N * memory) :=
  let n := N.to_nat (wr_channels (y_reader m)) in
  do s <- (if negb (y_first m) || (length (y_buff m) <=? y_pos m + n)%nat
           then do x <- wr_read (y_reader m) (lenN (y_buff m));
                Some (match fst x with
                      | [] => repeat 0 n
                      | c => c ++ repeat 0 (length (y_buff m) - length c)
                      end, 0%nat, snd x)
           else Some (y_buff m, (y_pos m + n)%nat, y_reader m));
  let '(buff, pos, r) := s in
  if ((pos <? length buff) && (pos + n <=? length buff))%nat
  then Some (firstn n (skipn pos buff), Memory r buff pos true) else None.
Fixpoint mem_calls (k : nat) (m : memory) : option (list (list N)) :=
  match k with
  | O => Some []
  | S j => do x <- mem_call m; do rest <- mem_calls j (snd x); Some (fst x :: rest)
  end.
