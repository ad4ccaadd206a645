(** * The classes of refellips and the parameters of their constructors *)

Require Import List String.
Import ListNotations.
Open Scope string_scope.

(** the classes exported by the package (refellips/__init__.py:4-23) with the parameters of
    __init__ after self: structureSE.py:73, 229, 320-329, 441-451, ComponentSE of structureSE.py:145,
    dispersion.py:60, 185, 259, 363, 431, 525, dataSE.py:60-62 (without **kwds),
    reflect_modelSE.py:307-312, objectiveSE.py:89-98 *)
Definition exported : list (string * list string) :=
  [("ScattererSE", ["name"; "wavelength"]);
   ("StructureSE", ["components"; "name"; "solvent"; "reverse_structure"; "contract"; "wavelength"; "ema"; "depolarisation_factor"]);
   ("SlabSE", ["thick"; "ri"; "rough"; "name"; "vfsolv"; "interface"]);
   ("ComponentSE", ["name"]);
   ("MixedSlabSE", ["thick"; "ri_A"; "ri_B"; "vf_B"; "rough"; "name"; "interface"]);
   ("RI", ["dispersion"; "wavelength"; "name"]);
   ("Cauchy", ["A"; "B"; "C"; "wavelength"; "name"]);
   ("Sellmeier", ["Am"; "En"; "P"; "Einf"; "wavelength"; "name"]);
   ("Lorentz", ["Am"; "Br"; "En"; "Einf"; "wavelength"; "name"]);
   ("Gauss", ["Am"; "Br"; "En"; "Einf"; "wavelength"; "name"]);
   ("TaucLorentz", ["Am"; "C"; "En"; "Eg"; "Einf"; "wavelength"; "name"]);
   ("DataSE", ["data"; "name"; "delimiter"; "reflect_delta"]);
   ("ReflectModelSE", ["structure"; "delta_offset"; "name"]);
   ("ObjectiveSE", ["model"; "data"; "lnsigma"; "use_weights"; "transform"; "logp_extra"; "name"])].
