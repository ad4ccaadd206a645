(** * Specification: the picture of a structure at one moment of a session, and the order of
    Parameters *)

Require Import Reals List Bool String.
From Verif Require Import Base M_disp M_struct M_model M_data M_objective M_session.
Import ListNotations.
Open Scope list_scope.
Open Scope R_scope.

(** oscillators with the amplitudes, broadenings and energies which these Parameters have *)
Fixpoint oscillators_now (v : pid -> R) (a b c : list pid) (os : list osc) : Prop :=
  match a, b, c with
  | x :: a', y :: b', z :: c' =>
      match os with
      | (am, br, en) :: os' => am = v x /\ br = v y /\ en = v z /\ oscillators_now v a' b' c' os'
      | [] => False
      end
  | _, _, _ => os = []
  end.
(** the scatterer with the numbers its Parameters have *)
Definition scatterer_now (v : pid -> R) (t : scatterer_t) (s : scatterer) : Prop :=
  sc_wavelength s = sct_wavelength t /\ sc_name s = sct_name t /\
  match sct_kind t, sc_kind s with
  | T_RI d, K_RI d' => d' = d
  | T_Cauchy A B Cc, K_Cauchy x y z => x = v A /\ y = v B /\ z = v Cc
  | T_Sellmeier Am En P Einf, K_Sellmeier x y z u => x = v Am /\ y = v En /\ z = v P /\ u = v Einf
  | T_Lorentz Am Br En Einf, K_Lorentz os x => oscillators_now v Am Br En os /\ x = v Einf
  | T_Gauss h Am Br En Einf, K_Gauss h' os x => h' = h /\ oscillators_now v Am Br En os /\ x = v Einf
  | T_TaucLorentz Am Cc En Eg Einf, K_TaucLorentz os g x => oscillators_now v Am Cc En os /\ g = v Eg /\ x = v Einf
  | T_User ps eps, K_Epsilon f => f = eps (map v ps)
  | T_Abstract, K_Abstract => True
  | _, _ => False
  end.

(** the material with the numbers its Parameters have now *)
Definition material_now (w : session) (i : nat) (m : material) : Prop :=
  let t := so_material (scat_at w i) in
  scatterer_now (value_of w) (mt_scat t) (m_scat m) /\ m_dispersive m = mt_dispersive t.

(** the component with the numbers its Parameters have now *)
Definition component_now (w : session) (i : nat) (k : component) : Prop :=
  let c := comp_at w i in
  c_default_interface k = co_default_interface c /\
  match co_attrs c, c_kind k with
  | A_Slab t s r v, Slab t' m r' v' =>
      t' = value_of w t /\ material_now w s m /\ r' = value_of w r /\ v' = value_of w v
  | A_Mixed t a b v r, MixedSlab t' mA mB v' r' =>
      t' = value_of w t /\ material_now w a mA /\ material_now w b mB /\ v' = value_of w v /\ r' = value_of w r
  | A_Custom ps f, Custom g => g = f (map (value_of w) ps)
  | _, _ => False
  end.

(** every attribute of the structure *)
Definition pictured (w : session) (s : struct_obj) (st : structure) : Prop :=
  Forall2 (component_now w) (so_data s) (st_data st) /\
  st_name st = so_name s /\ st_reverse st = so_reverse s /\ st_contract st = so_contract s /\
  st_wavelength st = so_wavelength s /\ st_ema st = so_ema s /\ st_dep st = so_dep s /\
  match so_solvent s, st_solvent st with
  | None, None => True
  | Some i, Some sc => scatterer_now (value_of w) (mt_scat (so_material (scat_at w i))) sc
  | _, _ => False
  end.

(** the groups of Parameters of a scatterer, in the order in which they are listed *)
Definition groups (k : scat_kind_t) (g : list (list pid)) : Prop :=
  match k with
  | T_RI _ => g = []                                                   (* dispersion.py:99-101 *)
  | T_Cauchy A B Cc => g = [[A]; [B]; [Cc]]                            (* dispersion.py:190-191 *)
  | T_Sellmeier Am En P Einf => g = [[Am]; [En]; [P]; [Einf]]          (* dispersion.py:269-270 *)
  | T_Lorentz Am Br En Einf => g = [Am; Br; En; [Einf]]                (* dispersion.py:377-381 *)
  | T_Gauss _ Am Br En Einf => g = [Am; Br; En; [Einf]]                (* dispersion.py:446-447 *)
  | T_TaucLorentz Am Cc En Eg Einf => g = [Am; Cc; En; [Einf]; [Eg]]   (* dispersion.py:543 *)
  | T_User ps _ => g = [ps]
  | T_Abstract => g = []
  end.
