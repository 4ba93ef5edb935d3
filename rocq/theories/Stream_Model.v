(** Model of the life of q_io's streams: [port_audio_stream] (q_io/src/audio_stream.cpp:83-240,
    q_io/include/q_io/audio_stream.hpp:17-62) and [midi_input_stream]
    (q_io/src/midi_stream.cpp:9-46, 62-66).  PortAudio and PortMidi are libraries that answer calls;
    what the code does is the sequence of calls it makes ([w_trace]).  The sequence of operations of
    the program is arbitrary.  The user's class derives from [port_audio_stream]; its destruction has
    two steps: first the user's part, then [~port_audio_stream]. *)
From Verif Require Import Common.

(** Handles of streams, numbered by the library in the order they are opened. *)
Definition handle := nat.
(** audio_stream.cpp:13-76: which of the three callbacks *)
Inductive cb := CbInOut | CbIn | CbOut.
(** The parameters of Pa_OpenStream and Pa_OpenDefaultStream: device ([None]: the default ones),
    channels, rate, frames per buffer, callback and the object passed as user data. *)
Record open_args := OpenArgs {
  a_device : option nat; a_in : N; a_out : N; a_sps : Z; a_frames : Z; a_cb : cb; a_user : nat }.
Inductive pa_call :=
| PaInitialize
| PaOpen (a : open_args) (h : option handle)      (* [None]: not paNoError *)
| PaStart (h : handle) | PaStop (h : handle) | PaClose (h : handle)
| PaInfo (h : handle) | PaTime (h : handle) | PaLoad (h : handle)
| PaTerminate.

(** [port_audio_stream]: [_impl], [_input_channels], [_output_channels], [_error]
    ([None]: never assigned). *)
Record astream := AStream {
  s_impl : option handle; s_in : N; s_out : N; s_error : option nat }.
Definition is_valid (s : astream) : bool := match s_impl s with Some _ => true | None => false end.

(** One object of a class derived from [port_audio_stream]. *)
Inductive slot := Alive (s : astream) | UserPartGone (s : astream) | Gone.

(** The program. [w_init]: has the static of portaudio_init() (audio_device.cpp:29-34) been built? *)
Record world := World { w_init : bool; w_objs : list slot; w_next : handle; w_trace : list pa_call }.
Definition start_world : world := World false [] 0 [].

Definition say (w : world) (c : pa_call) : world :=
  World (w_init w) (w_objs w) (w_next w) (w_trace w ++ [c]).
(** audio_device.cpp:14-34: Pa_Initialize on the first call. Its success is asserted. *)
Definition portaudio_init (w : world) : world :=
  if w_init w then w else say (World true (w_objs w) (w_next w) (w_trace w)) PaInitialize.

(** audio_stream.cpp:126-129, 164-167 *)
Definition choose_cb (nin nout : N) : cb :=
  if negb (nin =? 0)%N && negb (nout =? 0)%N then CbInOut
  else if negb (nin =? 0)%N then CbIn else CbOut.

(** What a constructor is asked for: device ([None]: the constructor without one; otherwise the
    device's id and its default_sample_rate(), read through the handle), channels, sps, frames. *)
Record request := Request {
  q_device : option (nat * Z); q_in : N; q_out : N; q_sps : Z; q_frames : Z }.
(** What the library answers meanwhile: the default rate of the default input device
    ([Pa_GetDeviceInfo(Pa_GetDefaultInputDevice())], [None] is a null pointer), whether
    Pa_GetDeviceInfo(id) finds the device, and the outcome of opening: success or an error code. *)
Record answer := Answer { r_default_in : option Z; r_found : bool; r_error : option nat }.

(** audio_stream.cpp:83-144, 146-183, the constructors. [None]: a null pointer is dereferenced. *)
Definition make_stream (q : request) (r : answer) (w0 : world) : option world :=
  let w := portaudio_init w0 in
  let user := length (w_objs w) in
  do sps <- (if (q_sps q =? -1)%Z
             then match q_device q with
                  | Some (_, rate) => Some rate
                  | None => r_default_in r
                  end
             else Some (q_sps q));
  let frames := if (q_frames q =? -1)%Z then 0%Z else q_frames q in
  do _ <- (match q_device q with
           | Some _ => if negb (q_in q =? 0)%N || negb (q_out q =? 0)%N
                       then (if r_found r then Some tt else None) else Some tt
           | None => Some tt
           end);
  let a := OpenArgs (option_map fst (q_device q)) (q_in q) (q_out q) sps frames
                    (choose_cb (q_in q) (q_out q)) user in
  let s := match r_error r with
           | None => AStream (Some (w_next w)) (q_in q) (q_out q) None
           | Some e => AStream None (q_in q) (q_out q) (Some e)
           end in
  Some (World (w_init w) (w_objs w ++ [Alive s])
              (match r_error r with None => S (w_next w) | Some _ => w_next w end)
              (w_trace w ++ [PaOpen a (s_impl s)])).

(** The member functions, audio_stream.cpp:194-240. *)
Inductive meth := Start | Stop | InputLatency | OutputLatency | SamplingRate | Time | CpuLoad.
Definition meth_call (m : meth) (h : handle) : pa_call :=
  match m with
  | Start => PaStart h | Stop => PaStop h
  | InputLatency => PaInfo h | OutputLatency => PaInfo h | SamplingRate => PaInfo h
  | Time => PaTime h | CpuLoad => PaLoad h
  end.
Definition run_meth (m : meth) (s : astream) (w : world) : world :=
  match s_impl s with Some h => say w (meth_call m h) | None => w end.
(** what the queries return: the library's answer [x], or without a stream {} / 0 / -1 *)
Definition meth_value (m : meth) (s : astream) (x : Z) : Z :=
  if is_valid s then x else match m with CpuLoad => (-1)%Z | _ => 0%Z end.
(** audio_stream.hpp:51 [error()]: [None] is an uninitialised pointer *)
Definition error (s : astream) : option nat := s_error s.

Fixpoint set_slot (l : list slot) (i : nat) (x : slot) : list slot :=
  match l, i with
  | [], _ => []
  | _ :: t, O => x :: t
  | y :: t, S j => y :: set_slot t j x
  end.
Definition put (w : world) (i : nat) (x : slot) : world :=
  World (w_init w) (set_slot (w_objs w) i x) (w_next w) (w_trace w).

(** ~port_audio_stream, audio_stream.cpp:185-192 *)
Definition base_dtor (s : astream) (w : world) : world :=
  match s_impl s with Some h => say w (PaClose h) | None => w end.

(** What the program does. [UserDtor], [BaseDtor]: the two steps of destroying object [i]. *)
Inductive act :=
| New (q : request) (r : answer)
| Call (i : nat) (m : meth)
| UserDtor (i : nat)
| BaseDtor (i : nat).
(** [None]: a null dereference, or the program uses an object that is not there. *)
Definition step (w : world) (a : act) : option world :=
  match a with
  | New q r => make_stream q r w
  | Call i m => match nth_error (w_objs w) i with
                | Some (Alive s) => Some (run_meth m s w)
                | _ => None
                end
  | UserDtor i => match nth_error (w_objs w) i with
                  | Some (Alive s) => Some (put w i (UserPartGone s))
                  | _ => None
                  end
  | BaseDtor i => match nth_error (w_objs w) i with
                  | Some (UserPartGone s) => Some (put (base_dtor s w) i Gone)
                  | _ => None
                  end
  end.
Fixpoint run (w : world) (l : list act) : option world :=
  match l with
  | [] => Some w
  | a :: t => do w' <- step w a; run w' t
  end.
(** The end of the program: the static of portaudio_init() is destroyed, if it was built. *)
Definition program_exit (w : world) : world := if w_init w then say w PaTerminate else w.

(** audio_stream.cpp:13-76: a callback of stream [h] is a virtual call on the object it was opened
    with; what it finds there. *)
Definition callback_object (w : world) (user : nat) : option slot := nth_error (w_objs w) user.

(** ** midi_input_stream, midi_stream.cpp *)
Inductive pm_call :=
| PmInitialize | PmOpenInput (id : Z) (h : option handle) | PmRead (h : handle) | PmClose (h : option handle).
(** [Some None] is a live object without a stream, [None] a destroyed object *)
Record mworld := MWorld {
  m_init : bool; m_default : Z; m_objs : list (option (option handle)); m_next : handle; m_trace : list pm_call }.
Definition start_mworld : mworld := MWorld false 0 [] 0 [].
Inductive mact :=
| MSetDefault (id : Z)                       (* set_default_device *)
| MNew (id : option Z) (ok : bool)           (* [None]: default constructor *)
| MPoll (i : nat)                            (* process / process_raw *)
| MDelete (i : nat).
Fixpoint set_nth {A} (l : list A) (i : nat) (x : A) : list A :=
  match l, i with [], _ => [] | _ :: t, O => x :: t | y :: t, S j => y :: set_nth t j x end.
Definition mstep (w : mworld) (a : mact) : option mworld :=
  match a with
  | MSetDefault id => Some (MWorld (m_init w) id (m_objs w) (m_next w) (m_trace w))
  | MNew id ok =>
      let h := if ok then Some (m_next w) else None in
      Some (MWorld true (m_default w) (m_objs w ++ [Some h])
             (if ok then S (m_next w) else m_next w)
             (m_trace w ++ (if m_init w then [] else [PmInitialize])
              ++ [PmOpenInput (match id with Some i => i | None => m_default w end) h]))
  | MPoll i => match nth_error (m_objs w) i with
               | Some (Some (Some h)) => Some (MWorld (m_init w) (m_default w) (m_objs w) (m_next w) (m_trace w ++ [PmRead h]))
               | Some (Some None) => Some w
               | _ => None
               end
  | MDelete i => match nth_error (m_objs w) i with
                 | Some (Some h) => Some (MWorld (m_init w) (m_default w) (set_nth (m_objs w) i None) (m_next w)
                                            (m_trace w ++ [PmClose h]))
                 | _ => None
                 end
  end.
Fixpoint mrun (w : mworld) (l : list mact) : option mworld :=
  match l with [] => Some w | a :: t => do w' <- mstep w a; mrun w' t end.
