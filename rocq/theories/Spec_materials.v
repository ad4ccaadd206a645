(** * Specification: what the bundled materials are *)

Require Import Reals List String.
Import ListNotations.
Open Scope R_scope.

(** the least and the greatest n, the least and the greatest k of every file in refellips/materials *)
Definition material_ranges : list (string * ((R * R) * (R * R))) :=
  [("air"%string, ((1.000273158, 1.000308003), (0, 0)));
   ("aluminium_oxide"%string, ((0.215, 51.611), (1.976, 70.623)));
   ("dmso"%string, ((1.4745480514496, 1.6276996475098), (0, 0)));
   ("gold"%string, ((0.118674305, 1.7371189), (1.78013899, 14.104028)));
   ("pnipam"%string, ((1.492159, 1.602264), (0.001263, 0.009484)));
   ("polymer_diffuse"%string, ((1.492159, 1.602264), (0.001263, 0.009484)));
   ("polystyrene"%string, ((1.40602, 1.75952), (0.000000204, 0.322)));
   ("silica"%string, ((1.464881, 1.517462), (0, 0.00026)));
   ("silicon"%string, ((1.01, 6.709), (0.005, 5.395)));
   ("void"%string, ((1, 1), (0, 0)));
   ("water"%string, ((1.111, 2.13), (0.000000000935, 0.587)))].
