(** Headers of drill files with comments, hole sizes in comments, and tools from elsewhere. *)
From Verif Require Import PyBase QcLib NumModel NumSpec GerberText ExcellonModel ExcellonSpec ToolModel ToolSpec.
Open Scope Qc_scope.

(** A comment in which none of the words occurs that the reader looks for. *)
Definition keywords : list text := map T ["FILE_FORMAT"; "TYPE=PLATED"; "TYPE=NON_PLATED"; "HEADER:"; " Holesize "]%string.
Inductive remark : text -> Prop :=
| a_remark c : no_newline c -> (forall k, In k keywords -> ~ occurs k c) -> remark (T ";" ++ c).
(** Comments before the unit line, with the formats they announce. *)
Inductive opening : list fmt -> list text -> Prop :=
| opening_none : opening [] []
| opening_remark t fs ts : remark t -> opening fs ts -> opening fs (t :: ts)
| opening_format a b i d fs ts : number a (Z.of_nat i) -> number b (Z.of_nat d) -> opening fs ts ->
    opening ((i, d) :: fs) ((T ";FILE_FORMAT=" ++ a ++ T ":" ++ b) :: ts).
(** The lines after it: tool definitions, hole sizes, whether the holes are plated, and remarks. *)
Inductive header (i d : nat) (z : zkind) : list definition -> list (Z * entry) -> list text -> Prop :=
| header_none : header i d z [] [] []
| header_define x t xs es ts : defines i d z x t -> header i d z xs es ts -> header i d z (x :: xs) es (t :: ts)
| header_remark t xs es ts : remark t -> header i d z xs es ts -> header i d z xs es (t :: ts)
| header_plated t xs es ts : t = T ";TYPE=PLATED" \/ t = T ";TYPE=NON_PLATED" -> header i d z xs es ts -> header i d z xs es (t :: ts)
| header_size a b t e xs es ts : blanks a -> blanks b -> hole_size e t -> header i d z xs es ts -> header i d z xs (e :: es) ((T ";" ++ a ++ T " " ++ t ++ b) :: ts)
| header_tool_size a b t e xs es ts : blanks a -> blanks b -> hole_size e (T "T" ++ t) -> header i d z xs es ts ->
    header i d z xs (e :: es) ((T ";" ++ a ++ (T "T" ++ t) ++ b) :: ts).
(** The tool n of a list: the last one with this number. *)
Definition tool_numbered (n : Z) (l : list tool) : option tool := latest n (map (fun t => (t_num t, t)) l).
(** The diameter of a tool: as defined in the header; else as in the last comment about it; else as of the tools given
    beforehand; else (16 + 8 n)/1000 inch. *)
Definition wanted (u : unit_) (defs : list definition) (notes : list (Z * entry)) (ext : list tool) (n : Z) : option Qc :=
  match defined n defs, latest n notes, tool_numbered n ext with
  | Some _, _, _ => diameter defs u n
  | None, Some e, _ => Some (diameter_in u e)
  | None, None, Some t => t_diam t
  | None, None, None => diameter [] u n
  end.
Definition known (defs : list definition) (notes : list (Z * entry)) (ext : list tool) (n : Z) : bool :=
  match defined n defs, latest n notes, tool_numbered n ext with None, None, None => false | _, _, _ => true end.
Definition near_opt (a b : option Qc) : Prop := match a, b with Some x, Some y => near x y | None, None => True | _, _ => False end.
(** The number of the tool of a hole, its position, and its diameter. *)
Definition hole_as (s : list tool) (w : Z -> option Qc) (h : hit) (x : Z * point) : Prop :=
  exists dm, hole_view s h = Some (fst x, dm, snd x) /\ near_opt dm (w (fst x)).
Definition format_in (fo : option fmt) (fs : list fmt) (se : xset) : fmt := match fo with Some f => f | None => last fs (xs_format se) end.
