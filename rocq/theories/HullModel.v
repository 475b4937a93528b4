(** Model of the convex hull: gerber/utils.py:345-458.  Simplification: python's floats are exact real
    numbers here, so nothing is said about rounding. *)
From Verif Require Import PyBase GeomModel.
Import ListNotations.
Open Scope R_scope.
Open Scope list_scope.

(** [points[i]]; the indices are those of the list. *)
Definition at_ (ps : list pt) (i : nat) : pt := nth i ps (0, 0).
(** atan2(q[1]-p[1], q[0]-p[0]) *)
Definition slope (p q : pt) : R := atan2 (snd q - snd p) (fst q - fst p).
Definition eqb (x y : R) : bool := if Req_EM_T x y then true else false.

(** 349-355: the indices of the lowest and the highest x. *)
Definition lowest (ps : list pt) : nat :=
  fold_left (fun m i => if ltb (fst (at_ ps i)) (fst (at_ ps m)) then i else m) (seq 0 (List.length ps)) 0%nat.
Definition highest (ps : list pt) : nat :=
  fold_left (fun m i => if ltb (fst (at_ ps m)) (fst (at_ ps i)) then i else m) (seq 0 (List.length ps)) 0%nat.

(** 373-374; the first comparison is with pi, not with -pi. *)
Definition side (sdiff : R) : R :=
  let s := if ltb sdiff PI then sdiff + 2 * PI else sdiff in
  if ltb PI s then s - 2 * PI else s.
(** 437-438 and 447-448 *)
Definition wrap (sdiff : R) : R :=
  let s := if ltb sdiff (- PI) then sdiff + 2 * PI else sdiff in
  if ltb PI s then s - 2 * PI else s.

(** 404-406 *)
Definition distance (a b x : pt) : R :=
  Rabs ((snd b - snd a) * fst x - (fst b - fst a) * snd x + fst b * snd a - fst a * snd b)
  / sqrt ((snd b - snd a) ^ 2 + (fst b - fst a) ^ 2).
(** 412-419: farpoint and fdist *)
Definition farthest (ps : list pt) (a b : pt) (idxp : list nat) : option nat * R :=
  fold_left (fun m i => let d := distance a b (at_ ps i) in if ltb (snd m) d then (Some i, d) else m) idxp (None, -1).

(** 431-451: is point [x] put into the left set, the right set, or neither? *)
Inductive place := InLeft | InRight | Nowhere.
Definition place_of (a b c x : pt) : place :=
  if eqb (slope a c) (slope a x) then Nowhere
  else if ltb (wrap (slope a c - slope a x)) 0 then InLeft
  else if eqb (slope c x) (slope c b) then Nowhere
  else if ltb 0 (wrap (slope c x - slope c b)) then InRight
  else Nowhere.
Definition placed (p q : place) : bool :=
  match p, q with InLeft, InLeft | InRight, InRight | Nowhere, Nowhere => true | _, _ => false end.

(** 408-453 _findhull.  The recursion is bounded by [fuel]; running out is the explicit error. *)
Fixpoint findhull (fuel : nat) (ps : list pt) (idxp : list nat) (a b : nat) : res (list nat) :=
  match idxp with
  | [] => Ok []
  | _ =>
      match fuel with
      | O => Err GenericException
      | S fuel' =>
          match farthest ps (at_ ps a) (at_ ps b) idxp with
          | (Some c, fdist) =>
              if leb fdist 0 then Ok []
              else
                let others := filter (fun i => negb (Nat.eqb i c)) idxp in
                let goes w := filter (fun i => placed (place_of (at_ ps a) (at_ ps b) (at_ ps c) (at_ ps i)) w) others in
                do r <- findhull fuel' ps (goes InRight) c b;
                do l <- findhull fuel' ps (goes InLeft) a c;
                Ok (r ++ c :: l)
          | (None, _) => Ok []
          end
      end
  end.

(** 396-397: are three points on a line? *)
Definition collinear3 (p1 p2 p3 : pt) : bool :=
  eqb ((snd p1 - snd p2) * (fst p1 - fst p3)) ((snd p1 - snd p3) * (fst p1 - fst p2)).
(** 386-401 _optimize: list.remove takes the first occurrence. *)
Definition hull_at (hull : list nat) (i : nat) : nat := nth (i mod List.length hull) hull 0%nat.
Definition to_remove (ps : list pt) (hull : list nat) : list nat :=
  map (fun i => hull_at hull (i + 1))
    (filter (fun i => collinear3 (at_ ps (hull_at hull i)) (at_ ps (hull_at hull (i + 1))) (at_ ps (hull_at hull (i + 2)))) (seq 0 (List.length hull))).
Fixpoint list_remove (i : nat) (l : list nat) : res (list nat) :=
  match l with
  | [] => Err ValueError
  | j :: r => if Nat.eqb i j then Ok r else do r' <- list_remove i r; Ok (j :: r')
  end.
Fixpoint remove_all (l : list nat) (hull : list nat) : res (list nat) :=
  match l with [] => Ok hull | i :: r => do h <- list_remove i hull; remove_all r h end.
Definition optimize (ps : list pt) (hull : list nat) : res (list nat) := remove_all (to_remove ps hull) hull.

(** 345-384 ConvexHull_qh *)
Definition hull_indices (ps : list pt) : res (list nat) :=
  if (List.length ps <? 3)%nat then Err GenericException
  else
    let a := lowest ps in let b := highest ps in
    if Nat.eqb a b then Err GenericException
    else
      let others := filter (fun i => negb (Nat.eqb i a) && negb (Nat.eqb i b)) (seq 0 (List.length ps)) in
      let sd i := side (slope (at_ ps a) (at_ ps i) - slope (at_ ps a) (at_ ps b)) in
      let lpoints := filter (fun i => ltb 0 (sd i)) others in
      let rpoints := filter (fun i => ltb (sd i) 0) others in
      do lower <- findhull (List.length ps) ps rpoints b a;
      do upper <- findhull (List.length ps) ps lpoints a b;
      optimize ps (a :: lower ++ b :: upper).
(** 456-458 *)
Definition convex_hull (ps : list pt) : res (list pt) := do h <- hull_indices ps; Ok (map (at_ ps) h).

(** primitives.py:269-291: Line.vertices when the aperture is a rectangle. *)
Definition line_corners (a b : pt) (w h : R) : list pt :=
  flat_map (fun c : pt => [(fst c - w / 2, snd c - h / 2); (fst c + w / 2, snd c - h / 2); (fst c - w / 2, snd c + h / 2); (fst c + w / 2, snd c + h / 2)]) [a; b].
Definition line_vertices (a b : pt) (w h : R) : res (list pt) := convex_hull (line_corners a b w h).
