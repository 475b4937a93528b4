(** What images show exactly, the upper edges of shapes included. *)
From Verif Require Import PyBase GeomSpec CairoModel CairoSpec GerberEvalSpec ShowSpec CamShowSpec NetShowSpec.
From Verif Require GerberEval ExcellonModel IpcModel.
Import ListNotations.
Open Scope R_scope.
Open Scope list_scope.

(** The largest whole number up to [x]. *)
Definition whole (x : R) : R := IZR (Int_part x).
(** The height, in pixels above the lower edge of the image, up to which a primitive with the upper edge [top] appears in an image with the lower edge
    [low]: both edges are rounded down to whole pixels of the plane. *)
Definition rows (s low top : R) : R := whole (s * top - whole (s * low)).
(** What remains of a primitive *)
Definition remains fill (s : R) (b : rbox) (d : drawn) : shape := fun p =>
  prim_shape fill (what d) p /\ s * snd p - s * fst (snd b) <= rows s (fst (snd b)) (snd (snd (bbox d))).
Definition item_remains fill (s : R) (b : rbox) (i : item) : bool * shape :=
  match i with Single d => (dark d, remains fill s b d) | Group d l => (d, fun p => exists x, In x l /\ remains fill s b x p) end.
(** The upper edges of all primitives and the lower edge of the image are at whole pixels. *)
Definition aligned (s : R) (b : rbox) (l : list item) : Prop :=
  (exists n, s * fst (snd b) = IZR n) /\ forall d, In d (flat_map parts l) -> exists n, s * snd (snd (bbox d)) = IZR n.

(** The same in terms of files: the part of [area] up to the whole pixel below the upper edge of the smallest box around [extent]. *)
Definition kept (s : R) (b : rbox) (area extent : shape) : shape := fun p =>
  area p /\ exists x, bounds x extent /\ s * snd p - s * fst (snd b) <= rows s (fst (snd b)) (snd (snd x)).
(** Marks of Gerber files, other than flashed macros *)
Definition no_macro (m : mark) : Prop := forall o ps, m = Stamp o -> GerberEval.o_shape o <> GerberEval.ShMacro ps.
Definition mark_kept fill (s : R) (b : rbox) (m : mark) : bool * shape := (dark_mark m, kept s b (covers fill m) (extent m)).
(** Hits of drill files *)
Definition cuts_kept (f : ExcellonModel.xfile) (s : R) (b : rbox) : shape := fun p =>
  exists h, In h (ExcellonModel.xf_hits f) /\ kept s b (cut (ExcellonModel.xf_store f) h) (cut (ExcellonModel.xf_store f) h) p.
(** Dots of netlists, moved by [v] *)
Definition dots_kept (v : pt) (l : IpcModel.rlayer) (n : IpcModel.netlist) (s : R) (b : rbox) : shape := fun p =>
  exists pos name, reachable l n pos name /\ disc (fst pos + fst v, snd pos + snd v) (15 / 2000) p /\
    s * snd p - s * fst (snd b) <= rows s (fst (snd b)) (snd pos + snd v + 15 / 2000).
