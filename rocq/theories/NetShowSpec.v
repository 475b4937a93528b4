(** What the image of a netlist is expected to show. *)
From Verif Require Import PyBase QcLib GeomSpec CairoModel CairoSpec MacroGeomModel NetShowModel.
From Verif Require IpcModel.
Import ListNotations.
Open Scope R_scope.
Open Scope list_scope.

(** The test points which can be reached on a side of the board: position and name of the net. *)
Definition reachable (l : IpcModel.rlayer) (n : IpcModel.netlist) (pos : pt) (name : list ascii) : Prop :=
  exists q a, In (q, name, a) (IpcModel.n_prims n) /\ pos = real_pt q /\
    match l with
    | IpcModel.RBoth => a = IpcModel.AccTop \/ a = IpcModel.AccBottom \/ a = IpcModel.AccBoth
    | IpcModel.RTop => a = IpcModel.AccTop \/ a = IpcModel.AccBoth
    | IpcModel.RBottom => a = IpcModel.AccBottom \/ a = IpcModel.AccBoth
    | IpcModel.ROther => False
    end.
(** A dot of 0.015 at each of them, moved by [v]. *)
Definition dotted (v : pt) (l : IpcModel.rlayer) (n : IpcModel.netlist) : shape := fun p =>
  exists pos name, reachable l n pos name /\ disc (fst pos + fst v, snd pos + snd v) (15 / 2000) p.
(** The names beside them, in the image. *)
Definition named (glyphs : list ascii -> pt -> shape) (s : R) (v : pt) (l : IpcModel.rlayer) (n : IpcModel.netlist) : shape := fun q =>
  exists pos name, reachable l n pos name /\ glyphs name (s * (fst pos + fst v + 15 / 1000), s * (snd pos + snd v + 15 / 1000)) q.
(** At least one pixel below the top of each dot on the point. *)
Definition below_dots (v : pt) (l : IpcModel.rlayer) (n : IpcModel.netlist) (s : R) (p : pt) : Prop :=
  forall pos name, reachable l n pos name -> disc (fst pos + fst v, snd pos + snd v) (15 / 2000) p -> s * snd p <= s * (snd pos + snd v + 15 / 2000) - 1.
(** The claim: in the image with the bounds [b], each test point that can be reached from the chosen side appears as a dot at its place with
    the name of its net beside it, and nothing else appears. *)
Definition points_in_place : Prop :=
  forall fill glyphs s b mir l n, filling fill -> 0 < s -> fst (fst b) <= snd (fst b) -> fst (snd b) <= snd (snd b) ->
  exists img, render_netlist fill glyphs (Some (set_bounds s b false mir)) l n = Ok img /\
  forall p, inside b p -> below_dots (0, 0) l n s p -> (img (pixel s b mir p) <-> dotted (0, 0) l n p \/ named glyphs s (0, 0) l n (pixel s b mir p)).
(** A netlist with a single test point *)
Definition one_point : IpcModel.netlist := IpcModel.mkNetlist (IpcModel.mkIS false false) [] [((zq 2, zq 2), T "A", IpcModel.AccBoth)].
