(** What the images of whole files are expected to show. *)
From Verif Require Import PyBase QcLib GeomModel GeomSpec CairoSpec MacroModel AmModel AmSpec MacroGeomModel MacroGeomSpec ShowSpec.
From Verif Require Import GerberText.
From Verif Require GerberEval GerberEvalSpec ExcellonModel ExcellonSpec.
Import ListNotations GerberEvalSpec.
Open Scope R_scope.
Open Scope list_scope.

(** ** Gerber files *)
(** The room a primitive of a macro takes: a polygon takes a circle, so that there is room to turn it. *)
Definition part_extent (c : pt) (a : amprim) : shape :=
  match a with
  | AOutline _ _ l r => traced (CairoSpec.sides (map (fun p => placed c (real r) (real_pt p)) l))
  | APolygon _ _ p d r => disc (placed c (real r) (real_pt p)) (real d / 2)
  | _ => area (fun _ _ => False) c a
  end.
(** The room a flashed aperture takes, whether it has a hole or not. *)
Definition flash_extent (c : pt) (s : GerberEval.shape) : shape :=
  match s with
  | GerberEval.ShCircle d _ _ _ => disc c (real d / 2)
  | GerberEval.ShRect w h _ _ _ => moved c (oblong (real w) (real h))
  | GerberEval.ShObround w h _ _ _ => moved c (capsule (real w) (real h))
  | GerberEval.ShPolygon _ r _ _ _ _ => disc c (real r)
  | GerberEval.ShMacro ps => fun p => exists prims a, macro_is ps prims /\ In a prims /\ part_extent c a p
  end.
(** The room a mark takes: what it covers; a region takes its contour. *)
Definition extent (m : mark) : shape :=
  match m with
  | Stroke _ => covers (fun _ _ => False) m
  | Fill l _ _ => fun p => exists cs, Forall2 goes l cs /\ traced cs p
  | Stamp o => match GerberEval.o_pos o with Some c => flash_extent (real_pt c) (GerberEval.o_shape o) | None => fun _ => False end
  end.
(** The smallest box around all marks. *)
Definition file_box (ms : list mark) (b : rbox) : Prop := bounds b (fun p => exists m, In m ms /\ extent m p).
Definition within (limit : R) (b : rbox) : Prop := - limit <= fst (fst b) /\ snd (fst b) <= limit /\ - limit <= fst (snd b) /\ snd (snd b) <= limit.

(** ** Drill files *)
(** What a hit removes: a round hole, or a slot made by moving the tool from one end to the other. *)
Definition cut (s : list ExcellonModel.tool) (h : ExcellonModel.hit) : shape := fun p =>
  exists t d, ExcellonSpec.tool_of s h = Some t /\ ExcellonModel.t_diam t = Some d /\
    match h with
    | ExcellonModel.Hit _ c => disc (real_pt c) (real d / 2) p
    | ExcellonModel.Slot _ (Some a, Some b) (Some x, Some y) _ => stroke (segment (real_pt (a, b)) (real_pt (x, y))) (disc (0, 0) (real d / 2)) p
    | ExcellonModel.Slot _ _ _ _ => False
    end.
Definition cuts (f : ExcellonModel.xfile) : shape := fun p => exists h, In h (ExcellonModel.xf_hits f) /\ cut (ExcellonModel.xf_store f) h p.
(** Complete hits made by tools with a positive diameter *)
Definition drills (f : ExcellonModel.xfile) : Prop :=
  ExcellonSpec.complete_hits f /\
  forall h t, In h (ExcellonModel.xf_hits f) -> ExcellonSpec.tool_of (ExcellonModel.xf_store f) h = Some t -> exists d, ExcellonModel.t_diam t = Some d /\ 0 < real d.
(** Whatever removes the point reaches at least one pixel farther up. *)
Definition below_cuts (f : ExcellonModel.xfile) (s : R) (p : pt) : Prop :=
  forall h, In h (ExcellonModel.xf_hits f) -> cut (ExcellonModel.xf_store f) h p -> exists q, cut (ExcellonModel.xf_store f) h q /\ s * snd p <= s * snd q - 1.
(** The holes of a drill program (ExcellonSpec.v): a round hole of its tool's diameter at each position. *)
Definition drilled (u : GerberText.unit_) (defs : list ExcellonSpec.definition) (l : list (Z * ExcellonModel.point)) : shape := fun p =>
  exists n c d, In (n, c) l /\ ExcellonSpec.diameter defs u n = Some d /\ disc (real_pt c) (real d / 2) p.
Definition below_holes (u : GerberText.unit_) (defs : list ExcellonSpec.definition) (l : list (Z * ExcellonModel.point)) (s : R) (p : pt) : Prop :=
  forall n c d, In (n, c) l -> ExcellonSpec.diameter defs u n = Some d -> disc (real_pt c) (real d / 2) p -> s * snd p <= s * (real (snd c) + real d / 2) - 1.
