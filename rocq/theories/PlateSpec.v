(** Which tools of a drill file are plated, as stated by its header, independently of the reader. *)
From Verif Require Import PyBase QcLib NumModel NumSpec GerberText ExcellonModel ExcellonSpec ToolModel ToolSpec HeadSpec.

(** What the lines of a header say about plating: all following definitions are plated or not; a definition of the tool n; a comment
    with the size and plating of the hole n. *)
Inductive note := NType (p : plating) | NDefine (n : Z) | NSize (n : Z) (p : plating).
(** The lines of [HeadSpec.header] with their notes. *)
Inductive noted (i d : nat) (z : zkind) : list note -> list definition -> list (Z * entry) -> list text -> Prop :=
| noted_none : noted i d z [] [] [] []
| noted_define x t ns xs es ts : defines i d z x t -> noted i d z ns xs es ts -> noted i d z (NDefine (d_num x) :: ns) (x :: xs) es (t :: ts)
| noted_remark t ns xs es ts : remark t -> noted i d z ns xs es ts -> noted i d z ns xs es (t :: ts)
| noted_plated ns xs es ts : noted i d z ns xs es ts -> noted i d z (NType PYes :: ns) xs es (T ";TYPE=PLATED" :: ts)
| noted_non_plated ns xs es ts : noted i d z ns xs es ts -> noted i d z (NType PNo :: ns) xs es (T ";TYPE=NON_PLATED" :: ts)
| noted_size a b t e ns xs es ts : blanks a -> blanks b -> hole_size e t -> noted i d z ns xs es ts ->
    noted i d z (NSize (fst e) (e_plating (snd e)) :: ns) xs (e :: es) ((T ";" ++ a ++ T " " ++ t ++ b) :: ts)
| noted_tool_size a b t e ns xs es ts : blanks a -> blanks b -> hole_size e (T "T" ++ t) -> noted i d z ns xs es ts ->
    noted i d z (NSize (fst e) (e_plating (snd e)) :: ns) xs (e :: es) ((T ";" ++ a ++ (T "T" ++ t) ++ b) :: ts).

(** The comments about hole sizes. *)
Definition sizes (ns : list note) : list (Z * plating) := flat_map (fun x => match x with NSize n p => [(n, p)] | _ => [] end) ns.
Fixpoint first (n : Z) (l : list (Z * plating)) : option plating :=
  match l with [] => None | (k, p) :: l' => if (k =? n)%Z then Some p else first n l' end.
(** The type in force at the last definition of tool n, and what follows this definition. *)
Definition in_force (now : option plating) (x : note) : option plating := match x with NType p => Some p | _ => now end.
Fixpoint ruling (n : Z) (now : option plating) (ns : list note) : option (option plating * list note) :=
  match ns with
  | [] => None
  | x :: ns' =>
      match ruling n (in_force now x) ns' with
      | Some r => Some r
      | None => match x with NDefine k => if (k =? n)%Z then Some (now, ns') else None | _ => None end
      end
  end.
Definition beforehand (ext : list tool) (n : Z) : option plating := match tool_numbered n ext with Some t => t_plated t | None => None end.
(** As the file says: the type in force at its definition, else the last comment with the size of its hole, else as known beforehand. *)
Definition stated (ns : list note) (ext : list tool) (n : Z) : option plating :=
  match ruling n None ns with
  | Some (Some p, _) => Some p
  | _ => match latest n (sizes ns) with Some p => Some p | None => beforehand ext n end
  end.
(** As read: for tools that are defined, comments with hole sizes above the definition do not count, of those below it the first one counts,
    and only if nothing is known beforehand. *)
Definition plated_as (ns : list note) (ext : list tool) (n : Z) : option plating :=
  match ruling n None ns with
  | Some (Some p, _) => Some p
  | Some (None, later) => match beforehand ext n with Some p => Some p | None => first n (sizes later) end
  | None => match latest n (sizes ns) with Some p => Some p | None => beforehand ext n end
  end.
(** A hole, its tool and its plating. *)
Definition hole_plated (s : list tool) (w : Z -> option plating) (h : hit) (x : Z * point) : Prop :=
  exists t, tool_of s h = Some t /\ t_num t = fst x /\ t_plated t = w (fst x).
