(** What detect_excellon_format is to find, independently of how it does it. *)
From Verif Require Import PyBase QcLib NumModel GerberText ExcellonModel ExcellonFile ExcellonSpec.
Open Scope Qc_scope.
Open Scope list_scope.

(** The zero suppression of each unit statement of a file, and its comments about the format. *)
Definition stated_zeros (f : xfile) : list zkind :=
  flat_map (fun s => match fst s with EUnit _ z _ => [z] | _ => [] end) (xf_stmts f).
Inductive format_comment : estmt -> list Z -> Prop :=
| a_format_comment c l : occurs (T "FILE_FORMAT") c -> read_format c = Ok l -> format_comment (EComment c) l.
Inductive other_stmt : estmt -> Prop :=
| other_comment c : ~ occurs (T "FILE_FORMAT") c -> other_stmt (EComment c)
| other_any s : (forall c, s <> EComment c) -> other_stmt s.
Inductive stated_formats_of : list estmt -> list (list Z) -> Prop :=
| stated_none : stated_formats_of [] []
| stated_one s l ss ls : format_comment s l -> stated_formats_of ss ls -> stated_formats_of (s :: ss) (l :: ls)
| stated_other s ss ls : other_stmt s -> stated_formats_of ss ls -> stated_formats_of (s :: ss) ls.
Definition stated_formats (f : xfile) : list (list Z) -> Prop := stated_formats_of (map fst (xf_stmts f)).
(** The options: what is stated exactly once is taken as stated. *)
Definition possible_zeros (zs : list zkind) (z : zkind) : Prop := match zs with [z'] => z = z' | _ => True end.
Definition possible_format (fs : list (list Z)) (f : list Z) : Prop :=
  match fs with [f'] => f = f' | _ => f = [2; 4]%Z \/ f = [2; 5]%Z \/ f = [3; 3]%Z end.
Definition possible (fs : list (list Z)) (zs : list zkind) (k : list Z * zkind) : Prop := possible_format fs (fst k) /\ possible_zeros zs (snd k).
(** A number of integer and of decimal places. *)
Definition proper (l : list Z) (f : fmt) : Prop := l = [Z.of_nat (fst f); Z.of_nat (snd f)].

(** How odd a file looks when it is read with an option: boards of 8 square units a quarter of which are holes are not odd at all. *)
Definition diameters (f : xfile) (ds : list Qc) : Prop :=
  Forall2 (fun h d => exists l t, hit_tool h = Some l /\ tget (xf_store f) l = Some t /\ t_diam t = Some d) (xf_hits f) ds.
Fixpoint total (l : list Qc) : Qc := match l with [] => 0 | q :: l' => q + total l' end.
Definition square (q : Qc) : Qc := q * q.
Definition odd_at (board holes : Qc) (s : Qc) : Prop :=
  (board = 0 /\ s = 0) \/ (board <> 0 /\ s = square (holes / board - Q2Qc (1 # 4)) * square (board - zq 8)).
Inductive oddness (holesize : unit_ -> text -> res (option tool)) (pi : Qc) (data : text) (k : list Z * zkind) (s : Qc) : Prop :=
| looks fm f b ds : proper (fst k) fm -> parse_raw holesize (mkXset Inch fm (snd k) Absolute) [] data = Ok f -> bounding_box f = Ok b -> diameters f ds ->
    odd_at ((fst (fst b) - snd (fst b)) * (fst (snd b) - snd (snd b))) (total (map (fun d => square (pi * d / zq 2)) ds)) s ->
    oddness holesize pi data k s.
