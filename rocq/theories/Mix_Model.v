(** Model of [map] and [level_crossfade] of fx/special.hpp. *)
From Flocq Require Import Core.Core IEEE754.BinarySingleNaN.
From Verif Require Import Common Float Frac_Model Db_Model.

(** fx/special.hpp:27-49 [map]: _y1, _y2 *)
Record mapper := mkMap { mp_y1 : f32; mp_y2 : f32 }.
(** special.hpp:29-32 *)
Definition map_make (y1 y2 : f32) : mapper := mkMap y1 y2.
(** special.hpp:34-37, base.hpp:114-117 *)
Definition map_apply (m : mapper) (s : f32) : f32 := linear_interpolate (mp_y1 m) (mp_y2 m) s.
(** special.hpp:39-43 [range] *)
Definition map_range (m : mapper) (y1 y2 : f32) : mapper := mkMap y1 y2.

(** fx/special.hpp:176-198 [level_crossfade]; a decibel is its double (decibel.hpp:37).  The
    first product is a float product, the second a double product; the sum is narrowed to the
    float result.  decibel.hpp:26 [operator float], 44-47 [operator-], 120-123 [operator<]. *)
Definition xf_apply (pivot : f64) (a b : f32) (ctrl : f64) : option f32 :=
  if flt ctrl pivot then
    do xfade <- db2a (to32 (fsub ctrl pivot)) ;
    Some (to32 (fadd (to64 (fmul xfade a)) (fmul (fsub (mk64 1 0) (to64 xfade)) (to64 b))))
  else Some a.
(** special.hpp:192-195 [pivot]: replaces the pivot *)
Definition xf_pivot (pivot pivot_ : f64) : f64 := pivot_.
