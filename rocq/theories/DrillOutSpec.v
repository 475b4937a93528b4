(** What the programs made of rendered drills and slots should be, independently of the context.  Of the models only the
    data types are used, and what drill files mean (RoutSpec). *)
From Verif Require Import PyBase QcLib NumModel NumSpec GerberText ExcellonModel ExcellonSpec HeadSpec RoutSpec DrillOutModel.
Open Scope Qc_scope.

(** ** Jobs *)
(** What a primitive that carries its hit stands for: the tool and the mark. *)
Definition stands_for (p : dprim) : option (tloc * mark) :=
  match p with
  | DDrill q (Some l) => Some (l, Hole q)
  | DSlot a b (Some (l, true)) => Some (l, Milled a b)
  | DSlot a b (Some (l, false)) => Some (l, Slotted a b)
  | _ => None
  end.
(** A hit leaves that mark, with a tool of the number and the diameter of the given one. *)
Definition made_as (s s' : list tool) (h : hit) (p : dprim) : Prop :=
  exists l m t t', stands_for p = Some (l, m) /\ nth_error s l = Some t /\ tool_of s' h = Some t' /\ t_num t' = t_num t /\
    near_opt (t_diam t') (t_diam t) /\ mark_of h = Some m.
Definition ends (m : mark) : list point := match m with Hole p => [p] | Milled a b | Bent _ a b | Slotted a b => [a; b] end.
Definition last_end (m : mark) : point := match m with Hole p => p | Milled _ b | Bent _ _ b | Slotted _ b => b end.
(** Primitives that carry hits, with tools and positions that can be written. *)
Definition writable (i d : nat) (s : list tool) (p : dprim) : Prop :=
  exists l m t, stands_for p = Some (l, m) /\ nth_error s l = Some t /\ writable_tool i d t /\
    Forall (fun q => grid_value i d (fst q) /\ grid_value i d (snd q)) (ends m).
(** Different tools have different numbers. *)
Definition numbered (s : list tool) : Prop := forall l k t u, nth_error s l = Some t -> nth_error s k = Some u -> t_num t = t_num u -> l = k.
(** No hole is where the tool is already, and no milled segment is of length 0. *)
Fixpoint moving (pos : option point) (l : list dprim) : Prop :=
  match l with
  | [] => True
  | p :: l' => match stands_for p with
               | Some (_, m) => match m with Hole q => pos <> Some q | Milled a b => a <> b | _ => True end /\ moving (Some (last_end m)) l'
               | None => True
               end
  end.

(** ** Safe programs *)
(** The tool moves quickly and drills only when raised, mills only when lowered, and the program ends with the tool raised.
    [change]: it is changed only when raised. *)
Fixpoint safe (change : bool) (low : bool) (l : list estmt) : Prop :=
  match l with
  | [] => low = false
  | e :: l' =>
      match e with
      | EZRout => safe change true l'
      | ERetractC | ERetract => safe change false l'
      | ECoord (Some Linear) _ _ => low = true /\ safe change low l'
      | ECoord _ _ _ | ESlot _ _ _ _ | EEnd _ _ => low = false /\ safe change low l'
      | ESel _ _ => (change = true -> low = false) /\ safe change low l'
      | _ => safe change low l'
      end
  end.
(** Every tool that is selected has been defined before, and no tool is defined twice. *)
Definition defined_in (l : list estmt) : list tloc := flat_map (fun e => match e with ETool t => [t] | _ => [] end) l.
Definition one_tool (l : list dprim) : Prop := forall p q k j m n, In p l -> In q l -> stands_for p = Some (k, m) -> stands_for q = Some (j, n) -> k = j.
