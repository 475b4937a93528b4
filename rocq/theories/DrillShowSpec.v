(** What the images of drill files are expected to show after the file has been changed. *)
From Verif Require Import PyBase QcLib GeomModel GeomSpec CairoSpec MacroGeomModel ShowSpec CamShowSpec SimilarSpec.
From Verif Require Import GerberText.
From Verif Require ExcellonModel ExcellonSpec.
Import ListNotations.
Open Scope R_scope.
Open Scope list_scope.

(** The holes and slots of a file with every tool enlarged by [k] while the positions stay. *)
Definition swollen (k : R) (f : ExcellonModel.xfile) : shape := fun p =>
  exists h t d, In h (ExcellonModel.xf_hits f) /\ ExcellonSpec.tool_of (ExcellonModel.xf_store f) h = Some t /\ ExcellonModel.t_diam t = Some d /\
    match h with
    | ExcellonModel.Hit _ c => disc (real_pt c) (k * real d / 2) p
    | ExcellonModel.Slot _ (Some a, Some b) (Some x, Some y) _ => stroke (segment (real_pt (a, b)) (real_pt (x, y))) (disc (0, 0) (k * real d / 2)) p
    | ExcellonModel.Slot _ _ _ _ => False
    end.
(** How many of the old units make one of the new *)
Definition ratio (u : unit_) : R := match u with Metric => 254 / 10 | Inch => 10 / 254 end.
