(** Logarithms to base 2 and 10. *)
From Coq Require Import Reals.
Local Open Scope R_scope.
Definition log2 (x : R) : R := ln x / ln 2.
Definition log10 (x : R) : R := ln x / ln 10.
