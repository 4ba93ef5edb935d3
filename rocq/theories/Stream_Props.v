(** Property C53.  Theorems only. *)
From Verif Require Import Common Stream_Model Stream_Spec Stream_Proof.

(** C53: whatever streams a program makes, uses and destroys, in whatever order, with whatever
    answers of the library: every call follows PortAudio's rules, up to and including the end of the
    program, and the open streams are exactly those of the existing valid objects: none is leaked,
    none is closed twice or used after closing. *)
Theorem C53_every_call_allowed :
  forall (acts : list act) (w : world),
  run start_world acts = Some w ->
  exists L, lib_run lib_start (w_trace w) = Some L /\
    lib_run lib_start (w_trace (program_exit w)) <> None /\
    (forall h, l_stream L h <> None <-> exists i s, exists_as w i s /\ s_impl s = Some h) /\
    (forall h a r, l_stream L h = Some (a, r) ->
       exists s, exists_as w (a_user a) s /\ s_impl s = Some h /\ s_in s = a_in a /\ s_out s = a_out a).
Proof.
  intros acts w H. destruct (invariant acts w H) as (L & EL & (M1 & M2 & M3 & M4) & _).
  exists L. split; [exact EL|]. split; [|split].
  - unfold program_exit. destruct (w_init w) eqn:Ei; [|rewrite EL; discriminate].
    cbn [say w_trace]. rewrite lib_run_app, EL. cbn [bind lib_run lib_step]. rewrite M1. discriminate.
  - intros h. split.
    + destruct (l_stream L h) as [[a r]|] eqn:E; [|congruence]. intros _.
      destruct (M2 h a r E) as (_ & s & Ex & Es & _). eauto.
    + intros (i & s & Ex & Es). destruct (M3 i s h Ex Es) as (_ & a & r & E & _). congruence.
  - intros h a r E. destruct (M2 h a r E) as (_ & s & Ex & Es & Q1 & Q2 & _). eauto 6.
Qed.
Print Assumptions C53_every_call_allowed.

(** C53: when the last object is destroyed, no stream is open. *)
Theorem C53_nothing_left_open :
  forall (acts : list act) (w : world) (L : lib),
  run start_world acts = Some w -> lib_run lib_start (w_trace w) = Some L ->
  (forall i s, ~ exists_as w i s) -> forall h, l_stream L h = None.
Proof. exact closed_at_end. Qed.
Print Assumptions C53_nothing_left_open.

(** C53: if the program stops each started stream before it destroys the object, a callback, at any
    moment the library may make one, finds the complete object it was opened with; the callback is
    the one for the object's channels. *)
Theorem C53_callback_finds_its_object :
  forall (acts : list act) (w : world) (L : lib) (h : handle) (a : open_args),
  run start_world acts = Some w -> stops_first acts ->
  lib_run lib_start (w_trace w) = Some L -> l_stream L h = Some (a, true) ->
  exists s, callback_object w (a_user a) = Some (Alive s) /\ s_impl s = Some h /\
    s_in s = a_in a /\ s_out s = a_out a /\ a_cb a = choose_cb (s_in s) (s_out s).
Proof. exact callbacks_safe. Qed.
Print Assumptions C53_callback_finds_its_object.

(** C53: destroying alone is not enough: the stream runs on while the user's part of the object is
    gone. *)
Theorem C53_destroying_a_running_stream_refuted :
  exists acts w L h a s,
    run start_world acts = Some w /\ lib_run lib_start (w_trace w) = Some L /\
    l_stream L h = Some (a, true) /\ callback_object w (a_user a) = Some (UserPartGone s).
Proof.
  exists [New (Request None 2 2 44100 (-1)) (Answer (Some 44100%Z) true None); Call 0 Start; UserDtor 0].
  do 2 eexists. exists 0, (OpenArgs None 2 2 44100%Z 0%Z CbInOut 0). eexists.
  split; [reflexivity|]. split; [reflexivity|]. split; reflexivity.
Qed.
Print Assumptions C53_destroying_a_running_stream_refuted.

(** C53: what is opened: the requested channels, the requested rate or, for -1, the device's (without
    a device: the default input device's), the requested block size or, for -1, the host's choice. *)
Theorem C53_opens_what_was_asked :
  forall (q : request) (r : answer) (w w' : world),
  step w (New q r) = Some w' ->
  exists a h, last (w_trace w') PaInitialize = PaOpen a h /\
    a_in a = q_in q /\ a_out a = q_out q /\ a_device a = option_map fst (q_device q) /\
    (q_sps q <> (-1)%Z -> a_sps a = q_sps q) /\
    (q_sps q = (-1)%Z -> forall id rate, q_device q = Some (id, rate) -> a_sps a = rate) /\
    (q_sps q = (-1)%Z -> q_device q = None -> r_default_in r = Some (a_sps a)) /\
    a_frames a = (if (q_frames q =? -1)%Z then 0%Z else q_frames q) /\
    (a_cb a = CbInOut <-> (q_in q <> 0 /\ q_out q <> 0)%N) /\
    (a_cb a = CbIn <-> (q_in q <> 0 /\ q_out q = 0)%N) /\
    a_user a = length (w_objs w) /\
    exists s, nth_error (w_objs w') (a_user a) = Some (Alive s) /\ s_impl s = h /\
      is_valid s = (match r_error r with None => true | Some _ => false end) /\
      (forall e, r_error r = Some e -> error s = Some e).
Proof.
  intros q r w w' H. cbn [step] in H. unfold make_stream in H.
  assert (O : w_objs (portaudio_init w) = w_objs w) by (unfold portaudio_init; destruct (w_init w); reflexivity).
  rewrite O in H.
  match type of H with bind ?x _ = _ => destruct x as [sps|] eqn:Es; [|discriminate] end. cbn [bind] in H.
  match type of H with bind ?x _ = _ => destruct x; [|discriminate] end. cbn [bind] in H.
  inversion H; subst; clear H. cbn [w_trace w_objs]. do 2 eexists. rewrite last_last.
  split; [reflexivity|]. cbn [a_in a_out a_device a_sps a_frames a_cb a_user].
  split; [reflexivity|]. split; [reflexivity|]. split; [reflexivity|].
  split; [|split; [|split; [|split; [reflexivity|]]]].
  - intros N. destruct (Z.eqb_spec (q_sps q) (-1)); [contradiction|]. congruence.
  - intros S1 id rate Q. rewrite S1, Q in Es. cbn in Es. congruence.
  - intros S1 Q. rewrite S1, Q in Es. cbn in Es. exact Es.
  - unfold choose_cb. split; [|split; [|split; [reflexivity|]]].
    + destruct (N.eqb_spec (q_in q) 0), (N.eqb_spec (q_out q) 0); cbn; split; try discriminate; try tauto.
    + destruct (N.eqb_spec (q_in q) 0), (N.eqb_spec (q_out q) 0); cbn; split; try discriminate; try tauto.
    + eexists. rewrite nth_snoc, Nat.eqb_refl. split; [reflexivity|]. split; [reflexivity|].
      split; [destruct (r_error r); reflexivity|]. intros e ->. reflexivity.
Qed.
Print Assumptions C53_opens_what_was_asked.

(** C53: a stream that could not be opened: every member function leaves the library alone and
    returns 0 (-1 for cpu_load), and destroying it does not either. *)
Theorem C53_invalid_stream_is_inert :
  forall (s : astream) (m : meth) (w : world) (x : Z),
  is_valid s = false ->
  run_meth m s w = w /\ base_dtor s w = w /\
  meth_value m s x = (match m with CpuLoad => -1 | _ => 0 end)%Z.
Proof.
  intros s m w x H. unfold run_meth, base_dtor, meth_value, is_valid in *.
  destruct (s_impl s); [discriminate|]. auto.
Qed.
Print Assumptions C53_invalid_stream_is_inert.

(** C53: error() of a stream that opened well is never initialised. *)
Theorem C53_error_of_valid_stream_refuted :
  forall (q : request) (r : answer) (w w' : world) (s : astream),
  step w (New q r) = Some w' -> nth_error (w_objs w') (length (w_objs w)) = Some (Alive s) ->
  is_valid s = true -> error s = None.
Proof.
  intros q r w w' s H E V.
  destruct (C53_opens_what_was_asked q r w w' H) as (a & h & _ & _ & _ & _ & _ & _ & _ & _ & _ & _ & Eu & s' & E' & Es' & Hv & He).
  cbn [step] in H. unfold make_stream in H.
  assert (O : w_objs (portaudio_init w) = w_objs w) by (unfold portaudio_init; destruct (w_init w); reflexivity).
  rewrite O in H.
  match type of H with bind ?x _ = _ => destruct x as [sps|] eqn:Es; [|discriminate] end. cbn [bind] in H.
  match type of H with bind ?x _ = _ => destruct x; [|discriminate] end. cbn [bind] in H.
  inversion H; subst; clear H. cbn [w_objs] in E. rewrite nth_snoc, Nat.eqb_refl in E. inversion E; subst.
  destruct (r_error r); [discriminate V|reflexivity].
Qed.
Print Assumptions C53_error_of_valid_stream_refuted.

(** C53: an output-only stream with the default rate asks for the default INPUT device, and a machine
    without one makes the constructor dereference a null pointer. *)
Theorem C53_output_only_needs_input_device_refuted :
  forall (nout : N) (frames : Z) (found : bool) (e : option nat) (w : world),
  step w (New (Request None 0 nout (-1) frames) (Answer None found e)) = None.
Proof. reflexivity. Qed.
Print Assumptions C53_output_only_needs_input_device_refuted.

(** C53, MIDI: all calls but Pm_Close of nothing follow PortMidi's rules; when every open succeeded,
    all calls do; the default constructor opens the device last set. *)
Theorem C53_midi_calls_allowed :
  forall (acts : list mact) (w : mworld),
  mrun start_mworld acts = Some w ->
  (exists L, mlib_run mlib_start (filter (fun c => negb (closes_nothing c)) (m_trace w)) = Some L /\
     forall h, ml_open L h = true <-> exists i, nth_error (m_objs w) i = Some (Some (Some h))) /\
  ((forall id, ~ In (MNew id false) acts) -> mlib_run mlib_start (m_trace w) <> None) /\
  (forall ok, option_map (fun w' => last (m_trace w') PmInitialize) (mstep w (MNew None ok))
     = Some (PmOpenInput (last_default 0 acts) (if ok then Some (m_next w) else None))).
Proof.
  intros acts w H. destruct (minvariant acts w H) as (L & EL & (M1 & M2 & M3 & _)). split; [|split].
  - exists L. split; [exact EL|]. intros h. split.
    + intros Q. exact (proj2 (M2 h Q)).
    + intros (i & Q). exact (M3 i h Q).
  - intros NF. destruct (all_open acts w H NF) as (Q & _). unfold noisy in *. rewrite Q in EL. rewrite EL. discriminate.
  - intros ok. cbn [mstep option_map m_trace]. rewrite app_assoc, last_last.
    rewrite (default_device acts start_mworld w H). reflexivity.
Qed.
Print Assumptions C53_midi_calls_allowed.
(** C53, MIDI: a stream that could not be opened closes nothing when destroyed, whatever happened before. *)
Theorem C53_midi_closes_null_refuted :
  forall (acts : list mact) (w : mworld) (i : nat),
  mrun start_mworld acts = Some w -> nth_error (m_objs w) i = Some (Some None) ->
  exists w', mstep w (MDelete i) = Some w' /\ mlib_run mlib_start (m_trace w') = None.
Proof.
  intros acts w i H E. cbn [mstep]. rewrite E. eexists. split; [reflexivity|]. cbn [m_trace].
  rewrite mlib_run_app. destruct (mlib_run mlib_start (m_trace w)); reflexivity.
Qed.
Print Assumptions C53_midi_closes_null_refuted.

(** two streams, the second refused by the library; the first started, stopped, destroyed *)
Example C53_example :
  let acts := [New (Request (Some (3, 48000%Z)) 0 2 (-1) 512) (Answer None true None);
               New (Request None 1 0 44100 (-1)) (Answer (Some 44100%Z) true (Some 7));
               Call 0 Start; Call 1 Start; Call 0 CpuLoad; Call 0 Stop; UserDtor 0; BaseDtor 0; Call 1 Time] in
  exists w, run start_world acts = Some w /\ stops_first acts /\
    w_trace w = [PaInitialize; PaOpen (OpenArgs (Some 3) 0 2 48000 512 CbOut 0) (Some 0);
                 PaOpen (OpenArgs None 1 0 44100 0 CbIn 1) None;
                 PaStart 0; PaLoad 0; PaStop 0; PaClose 0].
Proof.
  eexists. split; [reflexivity|]. split; [|reflexivity].
  intros i b f E.
  do 6 (destruct b as [|? b]; [discriminate|inversion E as [[Q E']]; clear E; rename E' into E; subst]).
  destruct b as [|? b].
  - inversion E; subst. left. 
    eexists [_;_;_;_;_], []. split; [reflexivity|intros []].
  - exfalso. inversion E as [[Q E']]. clear E. rename E' into E.
    destruct b as [|? b]; [discriminate|]. inversion E as [[Q2 E']]. clear E. rename E' into E.
    destruct b as [|? b]; [discriminate|]. inversion E as [[Q3 E']]. destruct b; discriminate.
Qed.
