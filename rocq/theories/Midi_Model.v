(** Model of support/midi.hpp: message construction, field access, dispatch, note names. *)
From Coq Require Import String Ascii.
From Verif Require Import Common.
Open Scope N_scope.

(** conversions to std::uint8_t / uint16_t (message data, midi.hpp:135) *)
Definition u8 (x : N) : N := x mod 256.
Definition u16 (x : N) : N := x mod 65536.

(** midi.hpp:18-41 *)
Definition st_note_off := 0x80. Definition st_note_on := 0x90.
Definition st_poly_aftertouch := 0xA0. Definition st_control_change := 0xB0.
Definition st_program_change := 0xC0. Definition st_channel_aftertouch := 0xD0.
Definition st_pitch_bend := 0xE0. Definition st_song_position := 0xF2.
Definition st_song_select := 0xF3. Definition st_tune_request := 0xF6.
Definition st_timing_tick := 0xF8. Definition st_start := 0xFA.
Definition st_continue := 0xFB. Definition st_stop := 0xFC.
Definition st_active_sensing := 0xFE. Definition st_reset := 0xFF.

(** The message classes (midi.hpp:184-445); a message object is its class and its
    data array. *)
Inductive kind := Knote_off | Knote_on | Kpoly_aftertouch | Kcontrol_change
  | Kprogram_change | Kchannel_aftertouch | Kpitch_bend | Ksong_position | Ksong_select
  | Ktune_request | Ktiming_tick | Kstart | Kcontinue | Kstop | Kactive_sensing | Kreset.
Record message := mkMsg { m_kind : kind; m_data : list N }.

(** constructors from a raw_message, midi.hpp:151-179; [msize k] from the base class *)
Definition msize (k : kind) : nat :=
  match k with
  | Knote_off | Knote_on | Kpoly_aftertouch | Kcontrol_change | Kpitch_bend | Ksong_position => 3
  | Kprogram_change | Kchannel_aftertouch | Ksong_select => 2
  | _ => 1
  end%nat.
Definition from_raw (k : kind) (raw : N) : message :=
  let d0 := u8 (N.land raw 0xFF) in
  let d1 := u8 (N.land (N.shiftr raw 8) 0xFF) in
  let d2 := u8 (N.land (N.shiftr raw 16) 0xFF) in
  mkMsg k match msize k with 1%nat => [d0] | 2%nat => [d0; d1] | _ => [d0; d1; d2] end.

(** field constructors: 188-193, 208-213, 228-233, 248-253 (three bytes) *)
Definition mk3 (k : kind) (st ch a b : N) : message := mkMsg k [u8 (N.lor ch st); u8 a; u8 b].
Definition note_off ch key vel := mk3 Knote_off st_note_off ch key vel.
Definition note_on ch key vel := mk3 Knote_on st_note_on ch key vel.
Definition poly_aftertouch ch key pr := mk3 Kpoly_aftertouch st_poly_aftertouch ch key pr.
Definition control_change ch ctrl v := mk3 Kcontrol_change st_control_change ch ctrl v.
(** 268-272, 285-289 *)
Definition program_change ch p := mkMsg Kprogram_change [u8 (N.lor ch st_program_change); u8 p].
Definition channel_aftertouch ch p := mkMsg Kchannel_aftertouch [u8 (N.lor ch st_channel_aftertouch); u8 p].
(** 298-303; 305-310 *)
Definition pitch_bend ch v :=
  mkMsg Kpitch_bend [u8 (N.lor ch st_pitch_bend); u8 (N.land v 0x7F); u8 (N.shiftr v 7)].
Definition pitch_bend2 ch lsb msb := mkMsg Kpitch_bend [u8 (N.lor ch st_pitch_bend); u8 lsb; u8 msb].
(** 323-328; 330-335 *)
Definition song_position p :=
  mkMsg Ksong_position [u8 st_song_position; u8 (N.land p 0x7F); u8 (N.shiftr p 7)].
Definition song_position2 lsb msb := mkMsg Ksong_position [u8 st_song_position; u8 lsb; u8 msb].
(** 347-351 *)
Definition song_select n := mkMsg Ksong_select [u8 st_song_select; u8 n].
(** 359-445 *)
Definition tune_request := mkMsg Ktune_request [st_tune_request].
Definition timing_tick := mkMsg Ktiming_tick [st_timing_tick].
Definition start := mkMsg Kstart [st_start].
Definition continue_ := mkMsg Kcontinue [st_continue].
Definition stop := mkMsg Kstop [st_stop].
Definition active_sensing := mkMsg Kactive_sensing [st_active_sensing].
Definition reset := mkMsg Kreset [st_reset].

(** accessors: data[i]; channel() = data[0] & 0x0F; value()/position() = data[1] | data[2] << 7 *)
Definition byte (m : message) (i : nat) : N := nth i (m_data m) 0.
Definition channel (m : message) : N := u8 (N.land (byte m 0) 0x0F).
Definition value14 (m : message) : N := u16 (N.lor (byte m 1) (N.shiftl (byte m 2) 7)).

(** dispatch, midi.hpp:694-763: the handler invocations it performs. *)
Definition dispatch (raw : N) (time : N) : list (message * N) :=
  let s := N.land raw 0xF0 in
  if s =? st_note_off then [(from_raw Knote_off raw, time)]
  else if s =? st_note_on then [(from_raw Knote_on raw, time)]
  else if s =? st_poly_aftertouch then [(from_raw Kpoly_aftertouch raw, time)]
  else if s =? st_control_change then [(from_raw Kcontrol_change raw, time)]
  else if s =? st_program_change then [(from_raw Kprogram_change raw, time)]
  else if s =? st_channel_aftertouch then [(from_raw Kchannel_aftertouch raw, time)]
  else if s =? st_pitch_bend then [(from_raw Kpitch_bend raw, time)]
  else if s =? st_song_position then [(from_raw Ksong_position raw, time)]
  else if s =? st_song_select then [(from_raw Ksong_select raw, time)]
  else if s =? st_tune_request then [(from_raw Ktune_request raw, time)]
  else if s =? st_timing_tick then [(from_raw Ktiming_tick raw, time)]
  else if s =? st_start then [(from_raw Kstart raw, time)]
  else if s =? st_continue then [(from_raw Kcontinue raw, time)]
  else if s =? st_stop then [(from_raw Kstop raw, time)]
  else if s =? st_active_sensing then [(from_raw Kactive_sensing raw, time)]
  else if s =? st_reset then [(from_raw Kreset raw, time)]
  else [].

(** q_io midi_stream.hpp:49-55 with midi_stream.cpp:46-60: one call of process takes at
    most one event of the driver's queue (assumed FIFO; [valid] = the stream opened) and
    dispatches it. *)
Definition process (valid : bool) (q : list (N * N)) : list (N * N) * list (message * N) :=
  if valid then match q with [] => ([], []) | (r, t) :: q' => (q', dispatch (r mod 2 ^ 32) t) end
  else (q, []).
Fixpoint process_n (valid : bool) (n : nat) (q : list (N * N)) : list (N * N) * list (message * N) :=
  match n with
  | O => (q, [])
  | S n' => let (q1, c1) := process valid q in let (q2, c2) := process_n valid n' q1 in (q2, (c1 ++ c2)%list)
  end.

Open Scope string_scope. Open Scope N_scope.
(** note_name, midi.hpp:465-483 *)
Definition name_table : list string := [
   "C-1"; "C#-1"; "D-1"; "D#-1"; "E-1"; "F-1"; "F#-1"; "G-1"; "G#-1"; "A-1"; "A#-1"; "B-1";
   "C0"; "C#0"; "D0"; "D#0"; "E0"; "F0"; "F#0"; "G0"; "G#0"; "A0"; "A#0"; "B0";
   "C1"; "C#1"; "D1"; "D#1"; "E1"; "F1"; "F#1"; "G1"; "G#1"; "A1"; "A#1"; "B1";
   "C2"; "C#2"; "D2"; "D#2"; "E2"; "F2"; "F#2"; "G2"; "G#2"; "A2"; "A#2"; "B2";
   "C3"; "C#3"; "D3"; "D#3"; "E3"; "F3"; "F#3"; "G3"; "G#3"; "A3"; "A#3"; "B3";
   "C4"; "C#4"; "D4"; "D#4"; "E4"; "F4"; "F#4"; "G4"; "G#4"; "A4"; "A#4"; "B4";
   "C5"; "C#5"; "D5"; "D#5"; "E5"; "F5"; "F#5"; "G5"; "G#5"; "A5"; "A#5"; "B5";
   "C6"; "C#6"; "D6"; "D#6"; "E6"; "F6"; "F#6"; "G6"; "G#6"; "A6"; "A#6"; "B6";
   "C7"; "C#7"; "D7"; "D#7"; "E7"; "F7"; "F#7"; "G7"; "G#7"; "A7"; "A#7"; "B7";
   "C8"; "C#8"; "D8"; "D#8"; "E8"; "F8"; "F#8"; "G8"; "G#8"; "A8"; "A#8"; "B8";
   "C9"; "C#9"; "D9"; "D#9"; "E9"; "F9"; "F#9"; "G9" ].
Definition note_name (key : N) : string :=
  if key <? 128 then nth (N.to_nat key) name_table "" else "--".

(** enum class note, midi.hpp:488-615: enumerators in source order; [EVal] has an
    explicit number, [ENext] is the previous enumerator plus one, [EAlias] names an
    earlier one. *)
Inductive enumerator := EVal (n : string) (v : N) | ENext (n : string) | EAlias (n m : string).
Definition note_enum : list enumerator := [
   EVal "C0" 12; ENext "Cs0"; EAlias "Db0" "Cs0"; ENext "D0"; ENext "Ds0"; EAlias "Eb0" "Ds0";
   ENext "E0"; ENext "F0"; ENext "Fs0"; EAlias "Gb0" "Fs0"; ENext "G0"; ENext "Gs0";
   EAlias "Ab0" "Gs0"; EVal "A0" 21; ENext "As0"; EAlias "Bb0" "As0"; ENext "B0"; ENext "C1";
   ENext "Cs1"; EAlias "Db1" "Cs1"; ENext "D1"; ENext "Ds1"; EAlias "Eb1" "Ds1"; ENext "E1";
   ENext "F1"; ENext "Fs1"; EAlias "Gb1" "Fs1"; ENext "G1"; ENext "Gs1"; EAlias "Ab1" "Gs1";
   EVal "A1" 33; ENext "As1"; EAlias "Bb1" "As1"; ENext "B1"; ENext "C2"; ENext "Cs2";
   EAlias "Db2" "Cs2"; ENext "D2"; ENext "Ds2"; EAlias "Eb2" "Ds2"; ENext "E2"; ENext "F2";
   ENext "Fs2"; EAlias "Gb2" "Fs2"; ENext "G2"; ENext "Gs2"; EAlias "Ab2" "Gs2"; EVal "A2" 45;
   ENext "As2"; EAlias "Bb2" "As2"; ENext "B2"; ENext "C3"; ENext "Cs3"; EAlias "Db3" "Cs3";
   ENext "D3"; ENext "Ds3"; EAlias "Eb3" "Ds3"; ENext "E3"; ENext "F3"; ENext "Fs3";
   EAlias "Gb3" "Fs3"; ENext "G3"; ENext "Gs3"; EAlias "Ab3" "Gs3"; EVal "A3" 57; ENext "As3";
   EAlias "Bb3" "As3"; ENext "B3"; ENext "C4"; ENext "Cs4"; EAlias "Db4" "Cs4"; ENext "D4";
   ENext "Ds4"; EAlias "Eb4" "Ds4"; ENext "E4"; ENext "F4"; ENext "Fs4"; EAlias "Gb4" "Fs4";
   ENext "G4"; ENext "Gs4"; EAlias "Ab4" "Gs4"; EVal "A4" 69; ENext "As4"; EAlias "Bb4" "As4";
   ENext "B4"; ENext "C5"; ENext "Cs5"; EAlias "Db5" "Cs5"; ENext "D5"; ENext "Ds5";
   EAlias "Eb5" "Ds5"; ENext "E5"; ENext "F5"; ENext "Fs5"; EAlias "Gb5" "Fs5"; ENext "G5";
   ENext "Gs5"; EAlias "Ab5" "Gs5"; EVal "A5" 81; ENext "As5"; EAlias "Bb5" "As5"; ENext "B5";
   ENext "C6"; ENext "Cs6"; EAlias "Db6" "Cs6"; ENext "D6"; ENext "Ds6"; EAlias "Eb6" "Ds6";
   ENext "E6"; ENext "F6"; ENext "Fs6"; EAlias "Gb6" "Fs6"; ENext "G6"; ENext "Gs6";
   EAlias "Ab6" "Gs6"; EVal "A6" 93; ENext "As6"; EAlias "Bb6" "As6"; ENext "B6"; ENext "C7";
   ENext "Cs7"; EAlias "Db7" "Cs7"; ENext "D7"; ENext "Ds7"; EAlias "Eb7" "Ds7"; ENext "E7";
   ENext "F7"; ENext "Fs7"; EAlias "Gb7" "Fs7"; ENext "G7"; ENext "Gs7"; EAlias "Ab7" "Gs7";
   EVal "A7" 105; ENext "As7"; EAlias "Bb7" "As7"; ENext "B7"; ENext "C8"; ENext "Cs8";
   EAlias "Db8" "Cs8"; ENext "D8"; ENext "Ds8"; EAlias "Eb8" "Ds8"; ENext "E8"; ENext "F8";
   ENext "Fs8"; EAlias "Gb8" "Fs8"; ENext "G8"; ENext "Gs8"; EAlias "Ab8" "Gs8"; EVal "A8" 117;
   ENext "As8"; EAlias "Bb8" "As8"; ENext "B8"; ENext "C9"; ENext "Cs9"; EAlias "Db9" "Cs9";
   ENext "D9"; ENext "Ds9"; EAlias "Eb9" "Ds9"; ENext "E9"; ENext "F9"; ENext "Fs9";
   EAlias "Gb9" "Fs9"; ENext "G9" ].
Fixpoint enum_lookup (n : string) (l : list (string * N)) : option N :=
  match l with [] => None | (m, v) :: t => if String.eqb n m then Some v else enum_lookup n t end.
(** C++ enumerator numbering *)
Fixpoint enum_values (l : list enumerator) (prev : N) (acc : list (string * N)) : option (list (string * N)) :=
  match l with
  | [] => Some acc
  | EVal n v :: t => enum_values t v ((n, v) :: acc)
  | ENext n :: t => enum_values t (prev + 1) ((n, prev + 1) :: acc)
  | EAlias n m :: t => do v <- enum_lookup m acc ; enum_values t v ((n, v) :: acc)
  end.
Definition note_values : list (string * N) :=
  match enum_values note_enum 0 [] with Some l => l | None => [] end.

(** C-locale std::toupper / std::isdigit on a char; [None]: negative char argument
    (undefined behaviour). *)
Definition toupper (c : ascii) : option ascii :=
  let n := N_of_ascii c in
  if 128 <=? n then None
  else Some (if (97 <=? n) && (n <=? 122) then ascii_of_N (n - 32) else c).
Definition isdigit (c : ascii) : option bool :=
  let n := N_of_ascii c in
  if 128 <=? n then None else Some ((48 <=? n) && (n <=? 57)).
(** base enumerator selected by the switch, midi.hpp:631-640; [None]: n stays
    uninitialised *)
Definition base_note (c : ascii) : option N :=
  match c with
  | "A"%char => enum_lookup "A0" note_values
  | "B"%char => enum_lookup "B0" note_values
  | "C"%char => enum_lookup "C0" note_values
  | "D"%char => enum_lookup "D0" note_values
  | "E"%char => enum_lookup "E0" note_values
  | "F"%char => enum_lookup "F0" note_values
  | "G"%char => enum_lookup "G0" note_values
  | _ => None
  end.
(** midi.hpp:656-665; the outer [None] is undefined behaviour (here: a read of the
    uninitialised n, or a negative char passed to isdigit) *)
Definition nn_octave (n : option N) (s : string) : option Z :=
  match s with
  | EmptyString => Some (-1)%Z
  | String d s' =>
      do dig <- isdigit d ;
      if dig then
        match s' with
        | EmptyString => do v <- n ; Some (Z.of_N v + (Z.of_N (N_of_ascii d) - 48) * 12)%Z
        | _ => Some (-1)%Z
        end
      else Some (-1)%Z
  end.
(** note_number, midi.hpp:623-669 *)
Definition note_number (s : string) : option Z :=
  match s with
  | EmptyString => Some (-1)%Z
  | String c s1 =>
      do u <- toupper c ;
      let n := base_note u in
      match s1 with
      | EmptyString => Some (-1)%Z
      | String "#"%char s2 => do v <- n ; nn_octave (Some (u8 (v + 1))) s2
      | String "b"%char s2 => do v <- n ; nn_octave (Some (u8 (v + 255))) s2
      | _ => nn_octave n s1
      end
  end.
