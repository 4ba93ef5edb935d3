(** Model of the programs in example/: the delay effects (delay.cpp, io_delay.cpp), the sine
    synthesizer (sin_synth.cpp) and the MIDI square synthesizer (square_synth.cpp), put together from
    the models of the library classes they use.  A block of the audio callback is the list of its
    frames (the views over the driver's memory are in Io_Model).  MIDI messages and audio frames
    interleave in any order, one call at a time. *)
From Flocq Require Import Core.Core IEEE754.BinarySingleNaN.
From Verif Require Import Common Ring_Model Float Phase_Model Osc_Model Shape_Model Notes_Model Midi_Model
  Adsr_Model Reso_Model Bq_Model.

(** fx/delay.hpp:62-64: std::size_t(std::ceil(double(max_delay) * sps)). [None]: undefined conversion. *)
Definition delay_samples (d : f64) (sps : N) : option N :=
  match ftrunc (Bnearbyint mode_UP (fmul d (mk64 (Z.of_N sps) 0))) with
  | Some z => if ((0 <=? z) && (z <? 2 ^ 64))%Z then Some (Z.to_N z) else None
  | None => None
  end.

(** delay.cpp:18-29, io_delay.cpp:20-29: the delay line (the member [_y] is only a temporary) *)
Definition dp_make (d : f64) (sps : N) : option (ring f32) :=
  do n <- delay_samples d sps ; rb_make fzero n.
(** The processing, written over any sample type with an addition and a multiplication; used with float. *)
Section DelayProcess.
Context {T : Type} (add mul : T -> T -> T).
(** delay.cpp:35-49, io_delay.cpp:36-50: one frame with input [s]; result (left, right). delay.hpp:71-74:
    [_delay()] is back(). *)
Definition dp_frame (fb : T) (r : ring T) (s : T) : option ((T * T) * ring T) :=
  do d <- rb_back r ;
  let y := add s d in
  do r' <- rb_push r (mul y fb) ;
  Some ((s, y), r').
(** one call of process(), delay.cpp:31-50, io_delay.cpp:31-51 *)
Fixpoint dp_block (fb : T) (r : ring T) (ss : list T) : option (list (T * T) * ring T) :=
  match ss with
  | [] => Some ([], r)
  | s :: t => do a <- dp_frame fb r s ; do b <- dp_block fb (snd a) t ; Some (fst a :: fst b, snd b)
  end.
(** the stream running: one block after the other *)
Fixpoint dp_blocks (fb : T) (r : ring T) (bs : list (list T)) : option (list (list (T * T))) :=
  match bs with
  | [] => Some []
  | b :: t => do a <- dp_block fb r b ; do c <- dp_blocks fb (snd a) t ; Some (fst a :: c)
  end.
End DelayProcess.
Definition delay_blocks : f32 -> ring f32 -> list (list f32) -> option (list (list (f32 * f32))) := dp_blocks fadd fmul.

(** sin_synth.cpp:19-22 with phase.hpp:157-160 *)
Definition sn_make (freq : f64) (sps : N) : option phase_iter :=
  do q <- phase_of_freq freq sps ; Some (mkPI 0 q).
(** sin_synth.cpp:24-33: a block of [n] frames; right and left get the same value; phase++ gives the
    old iterator (phase.hpp:162-167) *)
Fixpoint sn_block (i : phase_iter) (n : nat) : option (list (f32 * f32) * phase_iter) :=
  match n with
  | O => Some ([], i)
  | S k => do v <- sin_synth (pi_phase i) ; do b <- sn_block (pi_inc i) k ; Some ((v, v) :: fst b, snd b)
  end.
Fixpoint sn_blocks (i : phase_iter) (ns : list nat) : option (list (list (f32 * f32))) :=
  match ns with
  | [] => Some []
  | n :: t => do a <- sn_block i n ; do c <- sn_blocks (snd a) t ; Some (fst a :: c)
  end.

(** square_synth.cpp:26-59, the members phase, env, filter, and 63-88, [_key] (not initialised: any byte) *)
Record synth := mkSynth { sy_phase : phase_iter; sy_env : adsr; sy_filter : reso f32; sy_key : N }.
(** square_synth.cpp:28-32; the phase iterator is default-constructed (phase.hpp:153-155); 0.5 and 0.8 are
    doubles converted to the float parameters of reso_filter (lowpass.hpp:164) *)
Definition sy_make (sps : N) (ad dd : f64) (sl : f32) (sd rd : f64) (key : N) : synth :=
  mkSynth (mkPI 0 0) (adsr_make (Z.of_N sps) ad dd sl sd rd)
          (rs_make ops32 (mk32 1 (-1)) (to32 (fdiv (mk64 8 0) (mk64 10 0)))) key.
(** square_synth.cpp:38-53: one frame; both channels get the result *)
Definition sy_frame (s : synth) : option (f32 * synth) :=
  do e <- sample (sy_env s) ;
  let env_ := snd e in
  let filt := rs_cutoff ops32 (sy_filter s) env_ in
  let val := square (pi_phase (sy_phase s)) (pi_incr (sy_phase s)) in
  let filt' := rs_step ops32 filt val in
  Some (soft_clip (fmul (rs_y1 filt') env_),
        mkSynth (pi_inc (sy_phase s)) (fst e) filt' (sy_key s)).
(** square_synth.cpp:71-77: float(velocity) / 128 *)
Definition sy_note_on (sps : N) (s : synth) (key vel : N) : option synth :=
  do f <- note_frequency key ;
  do q <- phase_of_freq f sps ;
  Some (mkSynth (mkPI (pi_phase (sy_phase s)) q)
                (trigger (sy_env s) (fdiv (mk32 (Z.of_N vel) 0) (mk32 128 0)) 1)
                (sy_filter s) key).
(** square_synth.cpp:79-83 *)
Definition sy_note_off (s : synth) (key : N) : synth :=
  if (key =? sy_key s)%N then mkSynth (sy_phase s) (release (sy_env s)) (sy_filter s) (sy_key s) else s.
(** the handlers of my_midi_processor; all others are those of midi::processor, which do nothing *)
Definition sy_handle (sps : N) (s : synth) (m : message) : option synth :=
  match m_kind m with
  | Knote_on => sy_note_on sps s (byte m 1) (byte m 2)
  | Knote_off => Some (sy_note_off s (byte m 1))
  | _ => Some s
  end.
(** What happens: a frame is produced, or stream.process(proc) takes a MIDI message (square_synth.cpp:111-112),
    raw as the driver delivered it. *)
Inductive sy_event := Frame | Midi (raw : N).
Fixpoint sy_handle_all (sps : N) (s : synth) (l : list (message * N)) : option synth :=
  match l with [] => Some s | (m, _) :: t => do s' <- sy_handle sps s m ; sy_handle_all sps s' t end.
Definition sy_step (sps : N) (s : synth) (ev : sy_event) : option (list f32 * synth) :=
  match ev with
  | Frame => do r <- sy_frame s ; Some ([fst r], snd r)
  | Midi raw => do s' <- sy_handle_all sps s (dispatch (raw mod 2 ^ 32) 0) ; Some ([], s')
  end.
(** the frames produced, and the synthesizer afterwards *)
Fixpoint sy_run (sps : N) (s : synth) (evs : list sy_event) : option (list f32 * synth) :=
  match evs with
  | [] => Some ([], s)
  | ev :: t => do a <- sy_step sps s ev ; do b <- sy_run sps (snd a) t ; Some (fst a ++ fst b, snd b)
  end.
