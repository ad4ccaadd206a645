(** * Model of the texts the objects show: repr() and str().

    Texts are strings of ASCII characters.  The repr of refnx Parameters, of scatterers (they have
    Python's default "<... object at 0x...>"), interfaces, masks, arrays, numbers and functions are
    arguments. *)

Require Import List Bool String Ascii Arith.
Import ListNotations.
Open Scope string_scope.

(** repr of a str: single quotes, unless the string contains a single and no double quote *)
Definition sq : ascii := "039".
Definition dq : ascii := "034".
Definition bs : ascii := "092".
Fixpoint contains (c : ascii) (s : string) : bool :=
  match s with EmptyString => false | String x s' => Ascii.eqb x c || contains c s' end.
Definition hexdigit (n : nat) : ascii := ascii_of_nat (if Nat.ltb n 10 then 48 + n else 87 + n).
Definition escaped (q c : ascii) : string :=
  if Ascii.eqb c bs || Ascii.eqb c q then String bs (String c EmptyString)
  else if Ascii.eqb c "010" then String bs "n"
  else if Ascii.eqb c "013" then String bs "r"
  else if Ascii.eqb c "009" then String bs "t"
  else let k := nat_of_ascii c in
       if Nat.ltb k 32 || Nat.leb 127 k
       then String bs (String "x" (String (hexdigit (k / 16)) (String (hexdigit (k mod 16)) EmptyString)))
       else String c EmptyString.
Fixpoint escape (q : ascii) (s : string) : string :=
  match s with EmptyString => EmptyString | String c s' => escaped q c ++ escape q s' end.
Definition str_repr (s : string) : string :=
  let q := if contains sq s && negb (contains dq s) then dq else sq in
  String q (escape q s ++ String q EmptyString).
(** repr of a name: a str or None *)
Definition name_repr (n : option string) : string := match n with Some s => str_repr s | None => "None" end.

(** structureSE.py:254-259 *)
Definition slab_repr (thick ri rough : string) (name : option string) (vfsolv interface : string) : string :=
  "SlabSE(" ++ thick ++ ", " ++ ri ++ ", " ++ rough ++ "," ++
  " name=" ++ name_repr name ++ ", vfsolv=" ++ vfsolv ++ "," ++ " interface=" ++ interface ++ ")".
(** structureSE.py:353-358 *)
Definition mixed_repr (thick ri_A ri_B vf_B rough : string) (name : option string) (interface : string) : string :=
  "MixedSlabSE(" ++ thick ++ ", " ++ ri_A ++ ", " ++ ri_B ++ "," ++
  " " ++ vf_B ++ ", " ++ rough ++ ", name=" ++ name_repr name ++ "," ++ " interface=" ++ interface ++ ")".
(** reflect_modelSE.py:349-353 *)
Definition model_repr (structure : string) (name : option string) (delta_offset : string) : string :=
  "ReflectModel(" ++ structure ++ ", name=" ++ name_repr name ++ "," ++
  " delta_offset = " ++ delta_offset ++ " ".
(** dataSE.py:116-125 *)
Definition data_repr (filename : option string) (data mask : string) : string :=
  match filename with
  | Some f => "Data1D(data=" ++ str_repr f ++ "," ++ " mask=" ++ mask ++ ")"
  | None => "Data1D(data=" ++ data ++ "," ++ " mask=" ++ mask ++ ")"
  end.
(** objectiveSE.py:138-146 *)
Definition objective_repr (model data lnsigma use_weights transform logp_extra name : string) : string :=
  "Objective(" ++ model ++ ", " ++ data ++ "," ++ " lnsigma=" ++ lnsigma ++ "," ++
  " use_weights=" ++ use_weights ++ "," ++ " transform=" ++ transform ++ "," ++
  " logp_extra=" ++ logp_extra ++ "," ++ " name=" ++ name ++ ")".

(** structureSE.py:80-82, dataSE.py:113-114 *)
Definition scatterer_str (n k : string) : string := "n: " ++ n ++ ", k: " ++ k.
Definition data_str (name : string) (points : string) : string := "<" ++ name ++ ">, " ++ points ++ " points".
