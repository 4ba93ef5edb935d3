(** Model of pitch/period_detector.hpp, on the models of zero_crossing, bitset<> and
    bitstream_acf<> (64-bit words), floats in binary32. *)
From Flocq Require Import Core.Core IEEE754.BinarySingleNaN.
From Verif Require Import Common Float Ring_Model Bitset_Model Zc_Model.

(** conversion of an int to size_t *)
Definition to_size (z : Z) : N := Z.to_N (z mod 2 ^ 64).
(** integer to float *)
Definition z32 (z : Z) : f32 := mk32 z 0.
(** std::round on float: nearest, ties away from zero *)
Definition fround (x : f32) : f32 := Bnearbyint mode_NA x.
Definition fabs (x : f32) : f32 := Babs x.
(** float to size_t; [None]: undefined behaviour *)
Definition f2size (x : f32) : option N :=
  match ftrunc x with
  | Some t => if ((0 <=? t) && (t <? 2 ^ 64))%Z then Some (Z.to_N t) else None
  | None => None
  end.

(** period_detector.hpp:26-28: float constants initialised from double expressions *)
Definition pulse_threshold : f32 := to32 (fdiv (mk64 6 0) (mk64 10 0)).
Definition harmonic_periodicity_factor : f32 := z32 16.
Definition periodicity_diff_factor : f32 := to32 (fdiv (fdiv (mk64 8 0) (mk64 10 0)) (mk64 100 0)).

(** data members, period_detector.hpp:59-73 *)
Record pd := mkPd
  { p_zc : zc; p_period : f32; p_periodicity : f32; p_min : N; p_range : Z; p_bits : list N;
    p_weight : f32; p_mid : N; p_diff : f32; p_predicted : f32; p_mark : N; p_predict_edge : N;
    p_pulses : N; p_half_empty : bool }.

(** period_detector.hpp:78-96.  The float computations of the window size, of _min_period
    and of _range from the frequencies are parameters ([window], [min], [range]); the
    hysteresis is the member -float(hysteresis) of the collector. *)
Definition pd_make (hyst : f32) (window min : N) (range : Z) : option pd :=
  do z <- zc_make hyst window ;
  Some (mkPd z (z32 (-1)) fzero min range (bs_make 64 (z_win z))
    (to32 (fdiv (mk64 2 0) (mk64 (Z.of_N (z_win z)) 0))) (z_win z / 2)
    (fmul (z32 (Z.of_N (z_win z / 2))) periodicity_diff_factor)
    (z32 (-1)) 0 0 0 false).

Definition pd_threshold (p : pd) : f32 := fmul (zc_peak_pulse (p_zc p)) pulse_threshold.

(** period_detector.hpp:106-120, the loop body; the comparisons of the int edges with
    size_t values are on size_t.  State: (bits, leading_edge, trailing_edge, _num_pulses). *)
Definition sb_state := (list N * N * N * N)%type.
Definition set_bits_edge (thr : f32) (e : zinfo) (st : sb_state) : option sb_state :=
  let '(b, lead, trail, np) := st in
  if fge (zi_peak e) thr then
    let lead' := if (to_size (zi_lead e) <? lead)%N then to_size (zi_lead e) else lead in
    let trail' := if (trail <? to_size (zi_trail e))%N then to_size (zi_trail e) else trail in
    let pos := Z.max (zi_lead e) 0 in
    do b' <- bs_set 64 b (to_size pos) (to_size (wrap_int (zi_trail e - pos))) true ;
    Some (b', lead', trail', add64 np 1)
  else Some st.
Fixpoint set_bits_loop (z : zc) (thr : f32) (k : nat) (i : N) (st : sb_state) : option sb_state :=
  match k with
  | O => Some st
  | S m => do e <- zc_at z i ; do st' <- set_bits_edge thr e st ; set_bits_loop z thr m (i + 1)%N st'
  end.
(** period_detector.hpp:98-122 *)
Definition set_bitstream (p : pd) : option pd :=
  let z := p_zc p in
  do st <- set_bits_loop z (pd_threshold p) (N.to_nat (z_num z)) 0 (bs_clear (p_bits p), z_win z, 0%N, 0%N) ;
  let '(b, lead, trail, np) := st in
  Some (mkPd z (p_period p) (p_periodicity p) (p_min p) (p_range p) b (p_weight p) (p_mid p) (p_diff p)
          (p_predicted p) (p_mark p) (p_predict_edge p) np
          ((p_mid p <? lead) || (trail <? p_mid p))%N).

(** sub_collector::info and the collector, period_detector.hpp:128-136, 237-242; the
    fundamental's _period is -1 exactly when nothing was collected *)
Record cinfo := mkCi { c_i1 : N; c_i2 : N; c_per : Z; c_pty : f32; c_harm : N }.
Record coll := mkColl { c_first : f32; c_fund : cinfo }.
Definition coll0 : coll := mkColl fzero (mkCi 0 0 (-1) fzero 0).
Definition coll_empty (c : coll) : bool := (c_per (c_fund c) =? -1)%Z.
(** period_detector.hpp:151-156 *)
Definition period_of (z : zc) (x : cinfo) : option f32 :=
  do e <- zc_at z (c_i1 x) ; do f <- zc_at z (c_i2 x) ; zi_frac_period e f.
(** period_detector.hpp:158-163 *)
Definition coll_save (z : zc) (x : cinfo) : option coll :=
  let x1 := mkCi (c_i1 x) (c_i2 x) (c_per x) (c_pty x) 1 in
  do f <- period_of z x1 ; Some (mkColl f x1).

Section Collect.
(** what the target does for a float to int conversion that C++ leaves undefined *)
Variable oob : f32 -> Z.
Definition f2int (x : f32) : Z :=
  match ftrunc x with
  | Some t => if ((- 2 ^ 31 <=? t) && (t <? 2 ^ 31))%Z then t else oob x
  | None => oob x
  end.

(** period_detector.hpp:165-197; returns the collector and the result *)
Definition try_sub_harmonic (z : zc) (c : coll) (diff hthr : f32) (harmonic : N) (x : cinfo) (iper : f32) : option (coll * bool) :=
  if flt (fabs (fsub iper (c_first c))) diff then
    let fu := c_fund c in
    if (fgt (c_pty x) (c_pty fu) && negb (harmonic =? c_harm fu)%N)%bool then
      if fle (fabs (fsub (c_pty x) (c_pty fu))) hthr
      then Some (mkColl (c_first c) (mkCi (c_i1 x) (c_i2 x) (c_per fu) (c_pty x) harmonic), true)
      else do c' <- coll_save z x ; Some (c', true)
    else Some (c, true)
  else Some (c, false).
(** period_detector.hpp:199-207 *)
Definition process_harmonics (z : zc) (c : coll) (diff hthr : f32) (range : Z) (x : cinfo) : option (coll * bool) :=
  if flt (z32 (c_per x)) (c_first c) then Some (c, false) else
  do ip <- period_of z x ;
  let multiple := f2int (fmax (z32 1) (fround (fdiv ip (c_first c)))) in
  try_sub_harmonic z c diff hthr (to_size (Z.min range multiple)) x (fdiv ip (z32 multiple)).
(** period_detector.hpp:209-219 *)
Definition collect (z : zc) (c : coll) (diff hthr : f32) (range : Z) (x : cinfo) : option coll :=
  if (c_per (c_fund c) =? -1)%Z then coll_save z x else
  do r <- process_harmonics z c diff hthr range x ;
  if snd r then Some (fst r)
  else if fgt (c_pty x) (c_pty (c_fund (fst r))) then coll_save z x else Some (fst r).

(** period_detector.hpp:259-276: the two searches.  State: (count, period). *)
Fixpoint search_up (b : list N) (fuel : nat) (p mid count period : N) : option (N * N) :=
  match fuel with
  | O => None
  | S f => if (p <? mid)%N then
             do c <- acf 64 b p ;
             if (count <? c)%N then Some (count, period) else search_up b f (p + 1)%N mid c p
           else Some (count, period)
  end.
Fixpoint search_down (b : list N) (fuel : nat) (p min count period : N) : option (N * N) :=
  match fuel with
  | O => None
  | S f => if (min <? p)%N then
             do c <- acf 64 b p ;
             if (count <? c)%N then Some (count, period) else search_down b f (sub64 p 1) min c p
           else Some (count, period)
  end.
(** period_detector.hpp:247-280; [inl] is the -1 of a false correlation, [inr] the pair
    (count, period).  Simplification: the int/size_t conversions of the count, which is at
    most the number of bits, are the identity. *)
Definition autocorr1 (b : list N) (min period : N) (first : bool) : option (unit + N * N) :=
  do count <- acf 64 b period ;
  let mid := (acf_mid 64 b * 64)%N in
  if (first && (count =? 0)%N)%bool then
    do c2 <- acf 64 b (period / 2) ;
    if (c2 =? 0)%N then Some (inl tt) else Some (inr (count, period))
  else if (period <? 32)%N then
    do u <- search_up b (S (N.to_nat mid)) (add64 period 1) mid count period ;
    do d <- search_down b (S (N.to_nat period)) (sub64 period 1) min (fst u) (snd u) ;
    Some (inr d)
  else Some (inr (count, period)).

(** the loops at period_detector.hpp:301-326; the bool result is [true] when the lambda
    returned *)
Fixpoint inner_loop (p : pd) (diff hthr : f32) (e : zinfo) (i : N) (k : nat) (j : N) (c : coll) : option (coll * bool) :=
  match k with
  | O => Some (c, false)
  | S m =>
      do f <- zc_at (p_zc p) j ;
      if fge (zi_peak f) (pd_threshold p) then
        do period <- zi_period e f ;
        if (p_mid p <? period)%N then Some (c, false)
        else if (p_min p <=? period)%N then
          do r <- autocorr1 (p_bits p) (p_min p) period (coll_empty c) ;
          match r with
          | inl _ => Some (c, true)
          | inr (count, per) =>
              let pty := fsub (z32 1) (fmul (z32 (Z.of_N count)) (p_weight p)) in
              do c' <- collect (p_zc p) c diff hthr (p_range p) (mkCi i j (wrap_int (Z.of_N per)) pty 0) ;
              if (count =? 0)%N then Some (c', true) else inner_loop p diff hthr e i m (j + 1)%N c'
          end
        else inner_loop p diff hthr e i m (j + 1)%N c
      else inner_loop p diff hthr e i m (j + 1)%N c
  end.
Fixpoint outer_loop (p : pd) (diff hthr : f32) (k : nat) (i : N) (c : coll) : option coll :=
  match k with
  | O => Some c
  | S m =>
      do e <- zc_at (p_zc p) i ;
      if fge (zi_peak e) (pd_threshold p) then
        do r <- inner_loop p diff hthr e i (N.to_nat (z_num (p_zc p) - (i + 1))) (i + 1)%N c ;
        if snd r then Some (fst r) else outer_loop p diff hthr m (i + 1)%N (fst r)
      else outer_loop p diff hthr m (i + 1)%N c
  end.
Definition with_fund (p : pd) (per pty : f32) : pd :=
  mkPd (p_zc p) per pty (p_min p) (p_range p) (p_bits p) (p_weight p) (p_mid p) (p_diff p)
    (p_predicted p) (p_mark p) (p_predict_edge p) (p_pulses p) (p_half_empty p).
(** period_detector.hpp:282-332 (the assertion is [None]); 221-235 for the result *)
Definition autocorrelate (p : pd) : option pd :=
  if (1 <? z_num (p_zc p))%N then
    let hthr := fdiv (fmul harmonic_periodicity_factor (z32 2)) (z32 (Z.of_N (z_win (p_zc p)))) in
    if (p_half_empty p || (p_pulses p <? 2)%N)%bool then Some (with_fund p (p_period p) (z32 (-1)))
    else
      do c <- outer_loop p (p_diff p) hthr (N.to_nat (z_num (p_zc p) - 1)) 0 coll0 ;
      if coll_empty c then Some (with_fund p (z32 (-1)) fzero)
      else do per <- period_of (p_zc p) (c_fund c) ;
           Some (with_fund p (fdiv per (z32 (Z.of_N (c_harm (c_fund c))))) (c_pty (c_fund c)))
  else None.

(** period_detector.hpp:334-356 *)
Definition pd_step (p : pd) (s : f32) : option pd :=
  let prev := z_state (p_zc p) in
  do z <- zc_step (p_zc p) s ;
  let edge := (negb (z_state z) && negb (Bool.eqb prev (z_state z)))%bool in
  let p1 := mkPd z (if zc_is_reset z then z32 (-1) else p_period p) (if zc_is_reset z then fzero else p_periodicity p)
      (p_min p) (p_range p) (p_bits p) (p_weight p) (p_mid p) (p_diff p)
      (if edge then z32 (-1) else p_predicted p) (if edge then add64 (p_mark p) 1 else p_mark p)
      (p_predict_edge p) (p_pulses p) (p_half_empty p) in
  if z_ready z then do p2 <- set_bitstream p1 ; autocorrelate p2 else Some p1.
Fixpoint pd_run (p : pd) (xs : list f32) : option pd :=
  match xs with [] => Some p | x :: t => do p' <- pd_step p x ; pd_run p' t end.
End Collect.

(** period_detector.hpp:358-375 *)
Definition pd_harmonic (p : pd) (index : N) : option f32 :=
  if (0 <? index)%N then
    if (index =? 1)%N then Some (p_periodicity p)
    else
      let target := fdiv (p_period p) (z32 (Z.of_N index)) in
      if (fge target (z32 (Z.of_N (p_min p))) && flt target (z32 (Z.of_N (p_mid p))))%bool then
        do lag <- f2size (fround target) ;
        do count <- acf 64 (p_bits p) lag ;
        Some (fsub (z32 1) (fmul (z32 (Z.of_N count)) (p_weight p)))
      else Some fzero
  else Some fzero.

(** period_detector.hpp:394-406: the inner loop over j = i-1 ... 0; [None] inside: no
    period found *)
Fixpoint predict_inner (p : pd) (e2 : zinfo) (k : nat) : option (option f32) :=
  match k with
  | O => Some None
  | S m =>
      do e1 <- zc_at (p_zc p) (N.of_nat m) ;
      if fge (zi_peak e1) (pd_threshold p) then
        do q <- zi_frac_period e1 e2 ;
        if fgt q (z32 (Z.of_N (p_min p))) then Some (Some q) else predict_inner p e2 m
      else predict_inner p e2 m
  end.
(** period_detector.hpp:389-407: i = num-1 ... 1; the result is the new _predicted_period
    if the function returned from inside *)
Fixpoint predict_outer (p : pd) (k : nat) : option (option f32) :=
  match k with
  | O | S O => Some None
  | S m =>
      do e2 <- zc_at (p_zc p) (N.of_nat m) ;
      if fge (zi_peak e2) (pd_threshold p) then
        do r <- predict_inner p e2 m ;
        Some (Some (match r with Some q => q | None => z32 (-1) end))
      else predict_outer p m
  end.
(** period_detector.hpp:382-411: new state and result *)
Definition pd_predict (p : pd) : option (pd * f32) :=
  if (feq (p_predicted p) (z32 (-1)) && negb (p_mark p =? p_predict_edge p)%N)%bool then
    do r <- (if (1 <? z_num (p_zc p))%N then predict_outer p (N.to_nat (z_num (p_zc p))) else Some None) ;
    let v := match r with Some q => q | None => p_predicted p end in
    Some (mkPd (p_zc p) (p_period p) (p_periodicity p) (p_min p) (p_range p) (p_bits p) (p_weight p) (p_mid p)
            (p_diff p) v (p_mark p) (p_mark p) (p_pulses p) (p_half_empty p), v)
  else Some (p, p_predicted p).

(** a history of calls: operator()(s) and predict_period(), which updates mutable members *)
Inductive pd_call := Sample (s : f32) | Predict.
Fixpoint pd_calls (oob : f32 -> Z) (p : pd) (cs : list pd_call) : option pd :=
  match cs with
  | [] => Some p
  | Sample s :: t => do p' <- pd_step oob p s ; pd_calls oob p' t
  | Predict :: t => do r <- pd_predict p ; pd_calls oob (fst r) t
  end.
