(** Properties C36, C37, C41, C42.  Theorems only. *)
From Verif Require Import Common Io_Model Io_Spec Io_Proof.

(** C36: the k-th call returns frame k of the file (zeros after the end), for
    every file, channel count and buffer size; no call is undefined. *)
Theorem C36_wav_memory_streams_in_order :
  forall (A : Type) (zero : A) (file : list A) (n buff_size k : nat),
  1 <= n -> 1 <= buff_size -> (N.of_nat (buff_size * n) < 2 ^ 32)%N ->
  exists m, wm_calls zero k (wm_make zero (Some (Wav file n 0)) buff_size)
            = Some (map (frame_from zero file n 0) (seq 0 k), m).
Proof. exact @playback. Qed.
Print Assumptions C36_wav_memory_streams_in_order.

(** C36, restart/seek: after ANY history of calls and repositionings there are
    fewer than [buff_size] already buffered frames [old] that are still returned
    after a repositioning to sample [p]; then the file plays from [p]. *)
Theorem C36_reposition_takes_effect_after_buffer :
  forall (A : Type) (zero : A) (file : list A) (n buff_size : nat) (ops : list wm_op),
  1 <= n -> 1 <= buff_size -> (N.of_nat (buff_size * n) < 2 ^ 32)%N ->
  exists m old,
    wm_history zero ops (wm_make zero (Some (Wav file n 0)) buff_size) = Some m /\
    length old < buff_size /\
    forall p k, exists m',
      wm_calls zero k (wm_reposition m p) =
        Some (firstn k (old ++ map (frame_from zero file n p) (seq 0 k)), m').
Proof. exact @reposition_effect. Qed.
Print Assumptions C36_reposition_takes_effect_after_buffer.

(** C36, the listed claim "after restart() the next frame is the first frame" is
    false of the code: two-frame buffer, one call, restart. *)
Theorem C36_restart_rewinds_refuted :
  exists (file : list Z) f m f' m',
    wm_call 0%Z (wm_make 0%Z (Some (Wav file 1 0)) 2) = Some (f, m) /\
    wm_call 0%Z (wm_restart m) = Some (f', m') /\
    f' <> frame_from 0%Z file 1 0 0.
Proof.
  exists [1; 2; 3]%Z. do 4 eexists. repeat split. vm_compute. discriminate.
Qed.
Print Assumptions C36_restart_rewinds_refuted.

(** With a one-frame buffer it does rewind, after any history. *)
Theorem C36_restart_rewinds_unbuffered :
  forall (A : Type) (zero : A) (file : list A) (n : nat) (ops : list wm_op),
  1 <= n -> (N.of_nat n < 2 ^ 32)%N ->
  exists m, wm_history zero ops (wm_make zero (Some (Wav file n 0)) 1) = Some m /\
    forall k, exists m',
      wm_calls zero k (wm_restart m) = Some (map (frame_from zero file n 0) (seq 0 k), m').
Proof.
  intros A zero file n ops Hn Hs.
  destruct (reposition_effect zero file n 1 ops Hn (le_n 1)) as (m & old & E & L & H).
  - rewrite Nat.mul_1_l. exact Hs.
  - exists m. split; [exact E|]. intros k. destruct (H 0 k) as (m' & E').
    exists m'. unfold wm_restart. rewrite E'. destruct old; [|cbn in L; lia].
    cbn [app]. rewrite firstn_all2; [reflexivity|]. rewrite map_length, seq_length. lia.
Qed.
Print Assumptions C36_restart_rewinds_unbuffered.

(** C36: a file that could not be opened: the first call is undefined behaviour
    (dereferences an iterator of an empty vector), whatever the buffer size. *)
Theorem C36_unopened_file_refuted :
  forall (A : Type) (zero : A) (buff_size : nat),
  wm_call zero (wm_make zero None buff_size) = None.
Proof. reflexivity. Qed.
Print Assumptions C36_unopened_file_refuted.

(** C36: [num_channels()] never changes and is the width of every frame returned, whatever was
    called before; 0 for a file that could not be opened. *)
Theorem C36_num_channels :
  forall (A : Type) (zero : A) (w : option wav) (buff_size : nat) (ops : list wm_op) m,
  wm_history zero ops (wm_make zero w buff_size) = Some m ->
  wm_channels m = match w with Some f => wav_nch f | None => 0 end /\
  forall f m', w <> None -> wm_call zero m = Some (f, m') -> length f = wm_channels m.
Proof.
  intros A zero w bs ops m H.
  assert (FR : forall (b : list A) pos n f, wm_frame b pos n = Some f -> length f = n).
  { intros b pos n f. unfold wm_frame. destruct (pos <? length b) eqn:Q1; [|discriminate].
    destruct (pos + n <=? length b) eqn:Q2; [|discriminate]. cbn [andb]. intros [= <-].
    apply Nat.leb_le in Q2. rewrite firstn_length, skipn_length. lia. }
  assert (CS : forall m f m', wm_wav m <> None -> wm_call zero m = Some (f, m') -> length f = wm_channels m /\ wm_channels m' = wm_channels m /\ wm_wav m' <> None).
  { intros m0 f m' Hw. unfold wm_call, wm_channels. destruct (wm_wav m0) as [w0|] eqn:Ew; [|congruence].
    destruct (_ || _)%bool.
    - unfold wav_read. destruct (length _ =? 0).
      + cbn [bind]. destruct (wm_frame _ _ _) as [f0|] eqn:Q; cbn [bind]; [|discriminate]. intros [= <- <-]. cbn. split; [exact (FR _ _ _ _ Q)|]. split; [reflexivity|discriminate].
      + cbn [bind]. destruct (wm_frame _ _ _) as [f0|] eqn:Q; cbn [bind]; [|discriminate]. intros [= <- <-]. cbn. split; [exact (FR _ _ _ _ Q)|]. split; [reflexivity|discriminate].
    - destruct (wm_frame _ _ _) as [f0|] eqn:Q; cbn [bind]; [|discriminate]. intros [= <- <-]. cbn. split; [exact (FR _ _ _ _ Q)|]. split; [reflexivity|discriminate]. }
  assert (CN : forall m f m', wm_wav m = None -> wm_call zero m = Some (f, m') -> m' = m).
  { intros m0 f m' Hw. unfold wm_call. rewrite Hw. destruct (_ =? 0); [discriminate|]. intros [= _ <-]. reflexivity. }
  assert (I : wm_channels m = match w with Some f => wav_nch f | None => 0 end /\ (w <> None -> wm_wav m <> None)).
  { assert (I0 : wm_channels (wm_make zero w bs) = match w with Some f => wav_nch f | None => 0 end /\ (w <> None -> wm_wav (wm_make zero w bs) <> None)).
    { destruct w as [f|]; cbn; (split; [reflexivity|]); congruence. }
    revert I0 H. generalize (wm_make zero w bs) as m0. induction ops as [|[|p] ops IH]; intros m0 I0 H.
    - injection H as <-. exact I0.
    - cbn [wm_history] in H. destruct (wm_call zero m0) as [[f m1]|] eqn:E; [|discriminate]. cbn [bind snd] in H. apply (IH m1); [|exact H].
      destruct (wm_wav m0) as [w0|] eqn:Ew.
      + destruct (CS m0 f m1 ltac:(congruence) E) as (_ & X & Y). split; [rewrite X; apply I0|intros _; exact Y].
      + rewrite (CN m0 f m1 Ew E). destruct I0 as [I1 I2]. split; [exact I1|]. intros Z. exfalso. exact (I2 Z eq_refl).
    - cbn [wm_history] in H. apply (IH (wm_reposition m0 p)); [|exact H]. destruct I0 as [I1 I2]. unfold wm_reposition, wm_channels in *.
      destruct (wm_wav m0) as [w0|] eqn:Ew.
      + cbn. split; [exact I1|discriminate].
      + rewrite Ew. split; [exact I1|exact I2]. }
  destruct I as [I1 I2]. split; [exact I1|]. intros f m' Hw E. exact (proj1 (CS m f m' (I2 Hw) E)).
Qed.
Print Assumptions C36_num_channels.

(** C36: buffer size 0 inserts one silent frame before the file. *)
Theorem C36_buff_size_zero_delays_one_frame :
  forall (A : Type) (zero : A) (file : list A) (n k : nat),
  1 <= n -> (N.of_nat n < 2 ^ 32)%N ->
  exists m, wm_calls zero (S k) (wm_make zero (Some (Wav file n 0)) 0)
            = Some (repeat zero n :: map (frame_from zero file n 0) (seq 0 k), m).
Proof. exact @buff_size_zero. Qed.
Print Assumptions C36_buff_size_zero_delays_one_frame.

(** C36: [position()] is the read-ahead position: after the first frame it is
    already [min(length, buff_size * channels)]. *)
Theorem C36_position_is_read_ahead :
  forall (A : Type) (zero : A) (file : list A) (n buff_size : nat),
  1 <= n -> 1 <= buff_size -> (N.of_nat (buff_size * n) < 2 ^ 32)%N ->
  exists f m, wm_call zero (wm_make zero (Some (Wav file n 0)) buff_size) = Some (f, m) /\
    wm_position m = Nat.min (length file) (buff_size * n).
Proof. exact @position_read_ahead. Qed.
Print Assumptions C36_position_is_read_ahead.

(** C36: the std::string constructor ignores its [buff_size]: with a requested
    buffer of one frame, 3 frames of a 3-frame file are already consumed. *)
Theorem C36_string_constructor_buff_size_refuted :
  exists f m, wm_call 0%Z (wm_make_string 0%Z (Some (Wav [1; 2; 3]%Z 1 0)) 1) = Some (f, m) /\
    wm_position m = 3.
Proof.
  destruct (position_read_ahead 0%Z [1;2;3]%Z 1 1024) as (f & m & E & P); try lia.
  exists f, m. split; [exact E|]. rewrite P. reflexivity.
Qed.
Print Assumptions C36_string_constructor_buff_size_refuted.

(** Stereo file of 5 samples (a frame and a half short), buffer of 2 frames,
    5 calls with a seek to sample 2 after the third. *)
Example C36_example :
  option_map fst (wm_calls 0%Z 4 (wm_make 0%Z (Some (Wav [1;2;3;4;5]%Z 2 0)) 2))
  = Some [[1;2]; [3;4]; [5;0]; [0;0]]%Z /\
  exists m, wm_history 0%Z [WCall; WCall; WCall; WReposition 2]
              (wm_make 0%Z (Some (Wav [1;2;3;4;5]%Z 2 0)) 2) = Some m /\
    option_map fst (wm_calls 0%Z 4 m) = Some [[0;0]; [3;4]; [5;0]; [0;0]]%Z.
Proof. split; [reflexivity|]. eexists. split; reflexivity. Qed.

(** A device that can be used: it has at least one input or one output channel. *)
Definition has_channels (d : pa_info) : bool := (0 <? pa_in d + pa_out d)%N.
Definition has_ports (d : pm_info) : bool := (0 <? pm_in d + pm_out d)%N.
Lemma channels_usable : forall d, pa_usable d = has_channels d.
Proof.
  intros [n i o r]. unfold pa_usable, has_channels. cbn [pa_in pa_out].
  destruct (N.eqb_spec i 0), (N.eqb_spec o 0), (N.ltb_spec 0 (i + o)); cbn; try reflexivity; lia.
Qed.
Lemma ports_usable : forall d, pm_usable d = has_ports d.
Proof.
  intros [n i o]. unfold pm_usable, has_ports. cbn [pm_in pm_out].
  destruct (N.eqb_spec i 0), (N.eqb_spec o 0), (N.ltb_spec 0 (i + o)); cbn; try reflexivity; lia.
Qed.
Lemma numbered_ext {A} (p q : A -> bool) l : (forall x, p x = q x) -> numbered p l = numbered q l.
Proof. intros H. apply filter_ext. intros x. apply H. Qed.
Lemma forallb_same {A} (p q : A -> bool) l : (forall x, p x = q x) -> forallb p l = forallb q l.
Proof. intros H. induction l as [|x l IH]; cbn; [reflexivity|]. rewrite H, IH. reflexivity. Qed.

(** C37, audio: with an unchanging set of devices every [list()], however often
    list()/get() were called before, returns exactly the devices with at least one
    channel, in order, each with its PortAudio index as id. *)
Theorem C37_audio_list_idempotent :
  forall (l : list pa_info) (earlier_calls : nat),
  let s := ad_history (repeat (PaDevices l) earlier_calls) adevs_init in
  let '(handles, s') := ad_list (PaDevices l) s in
  map (option_map (fun d => (ad_id d, ad_info d))) (map (ad_read s') handles)
  = map Some (numbered has_channels l).
Proof. intros l k. rewrite <- (numbered_ext _ _ l channels_usable). exact (audio_list_ok l k). Qed.
Print Assumptions C37_audio_list_idempotent.

(** C37, audio: whatever happened before, if the device count differs from the
    number of devices listed last, the list is rebuilt correctly. *)
Theorem C37_audio_list_after_count_change :
  forall (l : list pa_info) (s : adevs),
  l <> [] -> length (av_list s) <> length l ->
  let '(handles, s') := ad_list (PaDevices l) s in
  map (option_map (fun d => (ad_id d, ad_info d))) (map (ad_read s') handles)
  = map Some (numbered has_channels l).
Proof. intros l s. rewrite <- (numbered_ext _ _ l channels_usable). exact (audio_fresh l s). Qed.
Print Assumptions C37_audio_list_after_count_change.

(** C37, audio: when every device has a channel, [get(i)] is the device with id
    [i], and the returned object stays valid across any number of later calls. *)
Theorem C37_audio_get_by_id_partial :
  forall (l : list pa_info) (earlier later i : nat) (d : pa_info),
  forallb has_channels l = true -> nth_error l i = Some d ->
  let s := ad_history (repeat (PaDevices l) earlier) adevs_init in
  exists h s', ad_get (PaDevices l) s i = (Some h, s') /\
    ad_read (ad_history (repeat (PaDevices l) later) s') h = Some (ADev i d).
Proof. intros l a b i d. rewrite <- (forallb_same _ _ l channels_usable). exact (audio_get_ok l a b i d). Qed.
Print Assumptions C37_audio_get_by_id_partial.

(** C37, audio: what [get(i)] returns for ANY set of devices: the i-th usable device
    (counting from 0), and nothing (out of bounds) beyond the usable ones. *)
Theorem C37_audio_get_is_ith_usable :
  forall (l : list pa_info) (earlier i : nat),
  let s := ad_history (repeat (PaDevices l) earlier) adevs_init in
  match nth_error (numbered has_channels l) i with
  | Some (id, d) => exists h s', ad_get (PaDevices l) s i = (Some h, s') /\ ad_read s' h = Some (ADev id d)
  | None => fst (ad_get (PaDevices l) s i) = None
  end.
Proof. intros l k i. rewrite <- (numbered_ext _ _ l channels_usable). exact (audio_get_any l k i). Qed.
Print Assumptions C37_audio_get_is_ith_usable.

(** C37, false in general: with one channel-less device present, [get(id)] of an
    id returned by [list()] is a different device. *)
Theorem C37_audio_get_by_id_refuted :
  exists (l : list pa_info) (d : adev),
    In d (av_list (snd (ad_list (PaDevices l) adevs_init))) /\
    exists h s', ad_get (PaDevices l) (snd (ad_list (PaDevices l) adevs_init)) (ad_id d) = (Some h, s') /\
    ad_read s' h <> Some d.
Proof.
  exists [PaInfo [0] 0 0 44100; PaInfo [1] 2 0 44100; PaInfo [2] 0 2 44100].
  exists (ADev 1 (PaInfo [1] 2 0 44100)). split; [left; reflexivity|].
  eexists; eexists. split; [reflexivity|]. cbn. discriminate.
Qed.
Print Assumptions C37_audio_get_by_id_refuted.

(** C37: with any channel-less device present, EVERY device object obtained is a
    dangling reference after the next list()/get(). *)
Theorem C37_audio_handles_dangle_refuted :
  forall (l : list pa_info) (earlier i later : nat) h s',
  forallb has_channels l = false ->
  ad_get (PaDevices l) (ad_history (repeat (PaDevices l) earlier) adevs_init) i = (Some h, s') ->
  ad_read (ad_history (repeat (PaDevices l) (S later)) s') h = None.
Proof. intros l a i b h s'. rewrite <- (forallb_same _ _ l channels_usable). exact (audio_dangle l a i b h s'). Qed.
Print Assumptions C37_audio_handles_dangle_refuted.

(** C37: a hot-plug that keeps the device count leaves the old list. *)
Theorem C37_audio_hotplug_refuted :
  exists l1 l2, 
    av_list (snd (ad_list (PaDevices l2) (snd (ad_list (PaDevices l1) adevs_init))))
    <> ad_scan 0 l2.
Proof.
  exists [PaInfo [0] 2 2 44100], [PaInfo [1] 1 1 48000]. cbn. discriminate.
Qed.
Print Assumptions C37_audio_hotplug_refuted.

(** C37, MIDI: the j-th call (from 0) of [list()] returns j+1 concatenated copies
    of the usable devices. *)
Theorem C37_midi_list_grows :
  forall (l : list pm_info) (calls j : nat), j < calls ->
  option_map (map (fun d => (md_id d, md_info d))) (nth_error (md_lists (repeat (Some l) calls) []) j)
  = Some (concat (repeat (numbered has_ports l) (S j))).
Proof. intros l c j. rewrite <- (numbered_ext _ _ l ports_usable). exact (midi_lists_grow l c j). Qed.
Print Assumptions C37_midi_list_grows.

(** ... so "one entry per usable device however often it is called" is false as
    soon as one device is usable. *)
Theorem C37_midi_list_idempotent_refuted :
  forall (l : list pm_info), numbered has_ports l <> [] ->
  exists l1 l2, md_lists [Some l; Some l] [] = [l1; l2] /\ length l2 = 2 * length l1 /\ l1 <> l2.
Proof.
  intros l. rewrite <- (numbered_ext _ _ l ports_usable). intros H. eexists; eexists. split; [reflexivity|].
  cbn [md_list fst snd app]. rewrite app_length. split; [lia|].
  intros E. apply (f_equal (@length _)) in E. rewrite app_length in E.
  apply H. unfold numbered. rewrite <- md_scan_numbered.
  destruct (md_scan 0 l); [reflexivity|]. cbn in E. lia.
Qed.
Print Assumptions C37_midi_list_idempotent_refuted.

Example C37_example :
  let l := [PaInfo [0] 2 0 44100; PaInfo [1] 0 2 48000] in
  forallb has_channels l = true /\ nth_error l 1 = Some (PaInfo [1] 0 2 48000) /\
  numbered has_channels (PaInfo [7] 0 0 0 :: l)
  = [(1, PaInfo [0] 2 0 44100); (2, PaInfo [1] 0 2 48000)] /\
  numbered has_ports [PmInfo [3] 1 0] <> [].
Proof. cbn. repeat split. discriminate. Qed.

(** C41: the view of channel [i] is exactly the first [frames] samples of the
    i-th buffer: in-range reads and writes hit those addresses and nothing else. *)
Theorem C41_channel_view :
  forall (A : Type) (c : chans) (i : nat) (base : N),
  nth_error (ch_bufs c) i = Some base ->
  exists v, ch_view c i = Some v /\
   (forall (m : mem (A:=A)) j, (j < ch_frames c)%N -> v_get m v j = Some (m (base + j)%N)) /\
   (forall (m : mem (A:=A)) j, (ch_frames c <= j)%N -> v_get m v j = None) /\
   (forall (m : mem (A:=A)) j x, (j < ch_frames c)%N -> exists m', v_put m v j x = Some m' /\
       forall a, m' a = if (a =? base + j)%N then x else m a) /\
   (forall (m : mem (A:=A)) j x, (ch_frames c <= j)%N -> v_put m v j x = None).
Proof. exact @view_spec. Qed.
Print Assumptions C41_channel_view.

(** C41: [for (auto f : c.frames()) body] runs the body once for each of
    0, ..., frames-1, in that order. *)
Theorem C41_frames_visited_once_in_order :
  forall (S : Type) (c : chans) (body : N -> S -> option S) (s : S),
  (ch_frames c < 2 ^ 64)%N ->
  for_frames c body s = each body (upto (ch_frames c)) s.
Proof. exact @for_frames_each. Qed.
Print Assumptions C41_frames_visited_once_in_order.

(** C41: a process() computing out[c][f] = g(c, f, in[c][f]) over all channels and
    frames does just that, for any number of channels and frames, when output
    buffers do not overlap each other, and each input buffer is either apart from
    the outputs or is the same buffer as its own output (in-place). All other
    memory is unchanged. *)
Theorem C41_process_isolates_channels :
  forall (A : Type) (g : nat -> N -> A -> A) (ib ob : list N) (nch : nat) (n : N) (m : mem (A:=A)),
  (n < 2 ^ 64)%N -> length ib = nch -> length ob = nch ->
  (forall c1 c2 a b, c1 <> c2 -> nth_error ob c1 = Some a -> nth_error ob c2 = Some b -> apart n a b) ->
  (forall c1 c2 a b, nth_error ob c1 = Some a -> nth_error ib c2 = Some b ->
      apart n a b \/ (c1 = c2 /\ a = b)) ->
  exists m', map_process g (Chans ib nch n) (Chans ob nch n) m = Some m' /\
    (forall c f a b, nth_error ob c = Some a -> nth_error ib c = Some b -> (f < n)%N ->
        m' (a + f)%N = g c f (m (b + f)%N)) /\
    (forall x, (forall a, In a ob -> (x < a \/ a + n <= x)%N) -> m' x = m x).
Proof. exact @map_process_ok. Qed.
Print Assumptions C41_process_isolates_channels.

(** C41: the stream calls the overload matching the requested channel counts with
    the buffers, channel counts and frame count of the host, for every block. *)
Theorem C41_callback_forwards_buffers :
  forall (nin nout : nat) (i o : list N) (frames : N),
  (0 < nin -> 0 < nout -> run_callback nin nout (Some i) (Some o) frames =
      Some (ProcessInOut (Chans i nin frames) (Chans o nout frames))) /\
  (0 < nin -> run_callback nin 0 (Some i) None frames = Some (ProcessIn (Chans i nin frames))) /\
  (0 < nout -> run_callback 0 nout None (Some o) frames = Some (ProcessOut (Chans o nout frames))).
Proof.
  intros. unfold run_callback. repeat split; intros.
  - replace (0 <? nin) with true by (symmetry; apply Nat.ltb_lt; lia).
    replace (0 <? nout) with true by (symmetry; apply Nat.ltb_lt; lia). reflexivity.
  - rewrite andb_false_r. replace (0 <? nin) with true by (symmetry; apply Nat.ltb_lt; lia). reflexivity.
Qed.
Print Assumptions C41_callback_forwards_buffers.

(** Two channels of three frames, the first in place. *)
Example C41_example :
  let m : mem := fun a => Z.of_N a in
  exists m', map_process (fun c f x => (100 * Z.of_nat c + 10 * Z.of_N f + x)%Z)
      (Chans [0; 20] 2 3)%N (Chans [0; 30] 2 3)%N m = Some m' /\
    map m' [0; 1; 2; 3; 20; 30; 31; 32; 33]%N = [0; 11; 22; 3; 20; 120; 131; 142; 33]%Z.
Proof. eexists. split; [reflexivity|]. reflexivity. Qed.

(** C42: polling a valid MIDI input stream delivers each received event exactly
    once, in order, with its time, and calls nothing when there is none --
    provided no poll returns an error. *)
Theorem C42_midi_stream_delivers_in_order_partial :
  forall (E : Type) (reads : list (pm_read E)) (log : list (E * N)),
  ~ In PmErr reads ->
  ms_poll true (fun m t l => l ++ [(m, t)]) reads log =
  Some (log ++ flat_map (fun r => match r with PmEvent m t => [(m, t)] | _ => [] end) reads).
Proof. exact @ms_poll_ok. Qed.
Print Assumptions C42_midi_stream_delivers_in_order_partial.

(** C42: errors, completely: polling goes well exactly as long as no poll returned an
    error; until the first error the events were delivered once each, in order. *)
Theorem C42_delivery_until_first_error :
  forall (E : Type) (reads : list (pm_read E)) (log : list (E * N)),
  (ms_poll true (fun m t l => l ++ [(m, t)]) reads log <> None <-> ~ In PmErr reads) /\
  forall before after, reads = before ++ PmErr :: after -> ~ In PmErr before ->
    ms_poll true (fun m t l => l ++ [(m, t)]) before log =
    Some (log ++ flat_map (fun r => match r with PmEvent m t => [(m, t)] | _ => [] end) before) /\
    ms_poll true (fun m t l => l ++ [(m, t)]) (before ++ [PmErr]) log = None.
Proof. exact @ms_poll_until_error. Qed.
Print Assumptions C42_delivery_until_first_error.

(** C42: a stream that failed to open never calls the processor. *)
Theorem C42_invalid_stream_is_silent :
  forall (E S : Type) (proc : E -> N -> S -> S) (reads : list (pm_read E)) (s : S),
  ms_poll false proc reads s = Some s.
Proof. exact @ms_poll_invalid. Qed.
Print Assumptions C42_invalid_stream_is_silent.

(** C42, refuted without the hypothesis: an error code of [Pm_Read] is non-zero,
    so the code takes it for an event and forwards an uninitialised message. *)
Theorem C42_read_error_refuted :
  forall (E S : Type) (proc : E -> N -> S -> S) (s : S), ms_process true proc PmErr s = None.
Proof. reflexivity. Qed.
Print Assumptions C42_read_error_refuted.

Example C42_example :
  ms_poll true (fun m t l => l ++ [(m, t)]) [PmEvent 144%N 1%N; PmNothing; PmEvent 128%N 5%N] [] =
  Some [(144, 1); (128, 5)]%N /\ ~ In PmErr [PmEvent 144%N 1%N; PmNothing; PmEvent 128%N 5%N].
Proof. split; [reflexivity|]. cbn. intuition discriminate. Qed.
