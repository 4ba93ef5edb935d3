(** Model of q_io: [wav_memory], the device lists and the audio stream views.
    The third-party libraries (dr_wav, PortAudio, PortMidi) are represented by
    the contract stated at each use. *)
From Verif Require Import Common Io_Spec.

(** ** wav_memory, q_io/include/q_io/audio_file.hpp:62-90, 128-168 *)
Section Wav.
Context {A : Type} (zero : A).

(** An open file: interleaved samples, number of channels ([_wav->channels]) and
    dr_wav's read position, in samples. *)
Record wav := Wav { wav_data : list A; wav_nch : nat; wav_at : nat }.

(** [wav_memory]: [_wav] ([None] = could not be opened), [_buff], [_pos]
    (as an index into [_buff]) and [first_read]. *)
Record wav_mem := WavMem {
  wm_wav : option wav; wm_buff : list A; wm_pos : nat; wm_first : bool }.

(** src/audio_file.cpp:41-46 [num_channels]. *)
Definition wm_channels (m : wav_mem) : nat :=
  match wm_wav m with Some w => wav_nch w | None => 0 end.

(** audio_file.hpp:128-136, the [char const*] constructor. [_pos] is a singular
    iterator until the first call; 0 here, never read before being set because
    [first_read] is false. *)
Definition wm_make (w : option wav) (buff_size : nat) : wav_mem :=
  match w with
  | Some f => WavMem (Some f) (repeat zero (buff_size * wav_nch f)) 0 false
  | None => WavMem None (repeat zero 0) 0 false
  end.
(** audio_file.hpp:71-73, the [std::string] constructor: it delegates without
    passing [buff_size], so the default 1024 is used. *)
Definition wm_make_string (w : option wav) (buff_size : nat) : wav_mem :=
  wm_make w 1024.

(** src/audio_file.cpp:61-66 [read(data, len)], [len] a 32-bit count.
    Contract of [drwav_read_f32]: copies the next [min(len, remaining)] samples,
    advances the position and returns that number. *)
Definition wav_read (w : wav) (len : N) : list A * wav :=
  let n := N.to_nat (len mod 2 ^ 32) in
  let chunk := firstn n (skipn (wav_at w) (wav_data w)) in
  (chunk, Wav (wav_data w) (wav_nch w) (wav_at w + length chunk)).

(** src/audio_file.cpp:69-74, 83-88 [restart], [seek]: they reposition dr_wav's
    read position (to 0, or to the sample dr_wav chooses for the target) and
    touch nothing else: not [_buff], not [_pos]. *)
Definition wm_reposition (m : wav_mem) (p : nat) : wav_mem :=
  match wm_wav m with
  | Some w => WavMem (Some (Wav (wav_data w) (wav_nch w) p))
                     (wm_buff m) (wm_pos m) (wm_first m)
  | None => m
  end.
Definition wm_restart (m : wav_mem) : wav_mem := wm_reposition m 0.

(** src/audio_file.cpp:76-81 [position]: total - bytesRemaining/bytesPerSample,
    that is dr_wav's read position. *)
Definition wm_position (m : wav_mem) : nat :=
  match wm_wav m with Some w => wav_at w | None => 0 end.

(** The range [{p, p + num_channels}]: [None] when it does not lie inside the
    vector, or when [&*_pos] dereferences an empty vector. *)
Definition wm_frame (b : list A) (pos n : nat) : option (list A) :=
  if (pos <? length b) && (pos + n <=? length b)
  then Some (firstn n (skipn pos b)) else None.

(** audio_file.hpp:138-168 [operator()]. *)
Definition wm_call (m : wav_mem) : option (list A * wav_mem) :=
  match wm_wav m with
  | Some w =>
      let n := wav_nch w in
      let '(buff, pos, w') :=
        if negb (wm_first m) || (length (wm_buff m) <=? wm_pos m + n)
        then let '(chunk, w') := wav_read w (N.of_nat (length (wm_buff m))) in
             if length chunk =? 0
             then (repeat zero n, 0, w')                 (* resize + fill *)
             else (chunk ++ repeat zero (length (wm_buff m) - length chunk), 0, w')
        else (wm_buff m, wm_pos m + n, w) in
      do f <- wm_frame buff pos n;
      Some (f, WavMem (Some w') buff pos true)
  | None =>
      (* { &*_buff.begin(), &*_buff.end() } *)
      if length (wm_buff m) =? 0 then None
      else Some (wm_buff m, m)
  end.

(** Calling [k] times: the frames, and the object afterwards. *)
Fixpoint wm_calls (k : nat) (m : wav_mem) : option (list (list A) * wav_mem) :=
  match k with
  | O => Some ([], m)
  | S j =>
      do r <- wm_call m;
      do rest <- wm_calls j (snd r);
      Some (fst r :: fst rest, snd rest)
  end.

(** Histories of calls and repositionings. *)
Inductive wm_op := WCall | WReposition (p : nat).
Fixpoint wm_history (ops : list wm_op) (m : wav_mem ) : option wav_mem :=
  match ops with
  | [] => Some m
  | WCall :: t => do r <- wm_call m; wm_history t (snd r)
  | WReposition p :: t => wm_history t (wm_reposition m p)
  end.

End Wav.
Arguments Wav {A}. Arguments WavMem {A}.

(** ** Audio devices, q_io/src/audio_device.cpp:38-118 *)

(** [PaDeviceInfo], as PortAudio reports it at a given moment. [Pa_GetDeviceCount]
    is the length, or negative on error. *)
Record pa_info := PaInfo { pa_name : list nat; pa_in : N; pa_out : N; pa_rate : N }.
Inductive pa_env := PaDevices (l : list pa_info) | PaError.

(** [audio_device::impl]. *)
Record adev := ADev { ad_id : nat; ad_info : pa_info }.

(** The static vector [devices], with a counter of how often it has been rebuilt
    (not in the code: it tells which references are still valid). *)
Record adevs := ADevs { av_list : list adev; av_gen : nat }.
Definition adevs_init : adevs := ADevs [] 0.

Definition pa_usable (i : pa_info) : bool :=
  negb (pa_in i =? 0)%N || negb (pa_out i =? 0)%N.

(** The loop at audio_device.cpp:60-73. *)
Fixpoint ad_scan (i : nat) (l : list pa_info) : list adev :=
  match l with
  | [] => []
  | d :: t => if pa_usable d then ADev i d :: ad_scan (S i) t else ad_scan (S i) t
  end.

(** audio_device.cpp:46-76 [get_devices]. A negative count compares unequal to the
    size, clears the vector and runs the loop zero times. *)
Definition get_devices (e : pa_env) (s : adevs) : adevs :=
  match e with
  | PaDevices l =>
      if negb (length l =? 0) && negb (length (av_list s) =? length l)
      then ADevs (ad_scan 0 l) (S (av_gen s))
      else s
  | PaError => ADevs [] (S (av_gen s))
  end.

(** An [audio_device]: a reference to an element of the static vector. *)
Record ahandle := AHandle { ah_gen : nat; ah_idx : nat }.

(** audio_device.cpp:104-111 [list()]. *)
Definition ad_list (e : pa_env) (s : adevs) : list ahandle * adevs :=
  let s' := get_devices e s in
  (map (AHandle (av_gen s')) (seq 0 (length (av_list s'))), s').

(** audio_device.cpp:113-116 [get(device_id)]: vector::operator[], unchecked. *)
Definition ad_get (e : pa_env) (s : adevs) (i : nat) : option ahandle * adevs :=
  let s' := get_devices e s in
  (if i <? length (av_list s') then Some (AHandle (av_gen s') i) else None, s').

(** audio_device.cpp:79-102, the accessors through the handle; [None] when the
    reference dangles (the vector was cleared and refilled since). *)
Definition ad_read (s : adevs) (h : ahandle) : option adev :=
  if ah_gen h =? av_gen s then nth_error (av_list s) (ah_idx h) else None.

(** A history of calls [list()]/[get(_)], each made under some environment: only
    [get_devices] has an effect. *)
Definition ad_history (es : list pa_env) (s : adevs) : adevs :=
  fold_left (fun s e => get_devices e s) es s.

(** ** MIDI devices, q_io/src/midi_device.cpp:66-95 *)
Record pm_info := PmInfo { pm_name : list nat; pm_in : N; pm_out : N }.
Record mdev := MDev { md_id : nat; md_info : pm_info }.
Definition pm_usable (i : pm_info) : bool :=
  negb (pm_in i =? 0)%N || negb (pm_out i =? 0)%N.
Fixpoint md_scan (i : nat) (l : list pm_info) : list mdev :=
  match l with
  | [] => []
  | d :: t => if pm_usable d then MDev i d :: md_scan (S i) t else md_scan (S i) t
  end.
(** [midi_device::list()] on the static vector: [None] is a negative device count
    ([return {}]). The vector is appended to, never cleared. *)
Definition md_list (e : option (list pm_info)) (s : list mdev)
  : list mdev * list mdev :=
  match e with
  | None => ([], s)
  | Some l => let s' := s ++ md_scan 0 l in (s', s')
  end.
Fixpoint md_lists (es : list (option (list pm_info))) (s : list mdev)
  : list (list mdev) :=
  match es with
  | [] => []
  | e :: t => fst (md_list e s) :: md_lists t (snd (md_list e s))
  end.

(** ** Audio channels, q_lib/include/q/support/audio_stream.hpp:14-52, 74-80 *)
Section Chan.
Context {A : Type}.
(** Memory: one sample per address; [buffers] is the array of base addresses. *)
Definition mem := N -> A.
Record chans := Chans { ch_bufs : list N; ch_size : nat; ch_frames : N }.

(** audio_stream.hpp:74-80 [operator[]]: [None] reads past the pointer array. *)
Definition ch_view (c : chans) (i : nat) : option (N * N) :=
  do s <- nth_error (ch_bufs c) i;
  Some (s, (s + ch_frames c)%N).

(** [view[j]]: element j of an iterator_range; [None] outside the range. *)
Definition v_addr (v : N * N) (j : N) : option N :=
  if (fst v + j <? snd v)%N then Some (fst v + j)%N else None.
Definition v_get (m : mem) (v : N * N) (j : N) : option A :=
  do a <- v_addr v j; Some (m a).
Definition v_put (m : mem) (v : N * N) (j : N) (x : A) : option mem :=
  do a <- v_addr v j; Some (fun b => if (b =? a)%N then x else m b).

(** audio_stream.hpp:27-41 [frame_index], [frames_view]: the range-for
    [for (auto f : c.frames())] runs from [begin()] = 0 while the index differs
    from [last], incrementing a [size_t]. The body is any step that may fail. *)
Fixpoint frame_loop {S} (fuel : nat) (i last : N) (body : N -> S -> option S) (s : S)
  : option S :=
  match fuel with
  | O => None
  | Datatypes.S f =>
      if (i =? last)%N then Some s
      else do s' <- body i s; frame_loop f (wrap64 (i + 1)) last body s'
  end.
Definition for_frames {S} (c : chans) (body : N -> S -> option S) (s : S) : option S :=
  frame_loop (Datatypes.S (N.to_nat (ch_frames c))) 0 (ch_frames c) body s.

(** A typical user [process(in, out)] (not part of Q). The usual processor: for every channel c, for every frame f,
    out[c][f] = g(c, f, in[c][f]). *)
Definition map_process (g : nat -> N -> A -> A) (i o : chans) (m : mem) : option mem :=
  each (fun c m =>
    do vi <- ch_view i c; do vo <- ch_view o c;
    for_frames o (fun f m => do x <- v_get m vi f; v_put m vo f (g c f x)) m)
    (seq 0 (ch_size o)) m.

End Chan.

(** ** Callbacks, q_io/src/audio_stream.cpp:13-96, 141-145 *)
Inductive process_call :=
| ProcessInOut (i o : chans) | ProcessIn (i : chans) | ProcessOut (o : chans).

(** The callback chosen at stream creation and run for one block of [frames]
    frames; [input]/[output] are the (possibly null) pointers to the arrays of
    channel pointers. [None] is a failed CYCFI_ASSERT. *)
Definition run_callback (nin nout : nat) (input output : option (list N)) (frames : N)
  : option process_call :=
  if (0 <? nin) && (0 <? nout) then
    match input, output with
    | Some i, Some o => Some (ProcessInOut (Chans i nin frames) (Chans o nout frames))
    | _, _ => None
    end
  else if 0 <? nin then
    match input with
    | Some i => Some (ProcessIn (Chans i nin frames))
    | None => None
    end
  else
    match output with
    | Some o => Some (ProcessOut (Chans o nout frames))
    | None => None
    end.

(** ** MIDI input stream, q_io/src/midi_stream.cpp:46-60, midi_stream.hpp:55-69 *)
(** Result of [Pm_Read(stream, &event, 1)]: 1 and an event, 0, or a negative
    error code (PmError) that leaves [event] unwritten. *)
Inductive pm_read {E} := PmEvent (msg : E) (time : N) | PmNothing | PmErr.
Arguments pm_read : clear implicits.

(** [next]: [if (Pm_Read(...))] is also taken on an error code, and then copies
    the uninitialised [event]: [None] (undefined behaviour). *)
Definition ms_next {E} (valid : bool) (r : pm_read E) : option (option (E * N)) :=
  if valid then
    match r with
    | PmEvent m t => Some (Some (m, t))
    | PmNothing => Some None
    | PmErr => None
    end
  else Some None.

(** [process] / [process_raw]: one poll, and the processor called on the event. *)
Definition ms_process {E S} (valid : bool) (proc : E -> N -> S -> S) (r : pm_read E) (s : S)
  : option S :=
  do e <- ms_next valid r;
  Some (match e with Some (m, t) => proc m t s | None => s end).
Fixpoint ms_poll {E S} (valid : bool) (proc : E -> N -> S -> S) (rs : list (pm_read E)) (s : S)
  : option S :=
  match rs with
  | [] => Some s
  | r :: t => do s' <- ms_process valid proc r s; ms_poll valid proc t s'
  end.
