(** The version of the library: include/sharg/version.hpp.

    Simplification: the numbers are written as the preprocessor would read them in decimal without leading zeros (the macros turn their text, not
    their value, into the string). *)
From Verif Require Import Base StrLib.

(** version.hpp 16, 18, 20, 22 *)
Record release := { r_major : Z; r_minor : Z; r_patch : Z; r_candidate : Z }.

(** SHARG_VERSION, version.hpp 25, and sharg_version, 61 *)
Definition version_number (r : release) : Z := (r_major r * 10000 + r_minor r * 100 + r_patch r)%Z.

(** SHARG_VERSION_CSTRING, version.hpp 30-48, and sharg_version_cstring, 64 *)
Definition version_cstring (r : release) : string :=
  Z_to_string (r_major r) +s+ "." +s+ Z_to_string (r_minor r) +s+ "." +s+ Z_to_string (r_patch r)
  +s+ (if (0 <? r_candidate r)%Z then "-rc." +s+ Z_to_string (r_candidate r) else "").

(** version.hpp 16-22 at the pinned commit *)
Definition pinned : release := {| r_major := 1; r_minor := 1; r_patch := 2; r_candidate := 1 |}.
