(** What the description of a netlist record is to tell. *)
From Verif Require Import PyBase QcLib IpcModel.
Import ListNotations.
Open Scope list_scope.

(** Records of one kind *)
Definition same_kind (s s' : statement) : Prop :=
  match s, s' with
  | IComment _, IComment _ | IParameter _ _, IParameter _ _ | ITest _, ITest _ | IOutline _, IOutline _
  | IConductor _, IConductor _ | IAdjacency _ _, IAdjacency _ _ | IEnd, IEnd => True
  | _, _ => False
  end.
(** The name of a parameter has no equals sign *)
Definition plain_name (s : statement) : Prop := match s with IParameter p _ => ~ In "="%char p | _ => True end.
(** Records of one kind that agree on their texts, parameters, nets and features, or types *)
Definition ipc_agree (s s' : statement) : Prop :=
  match s, s' with
  | IComment t, IComment t' => t = t'
  | IParameter p v, IParameter p' v' => p = p' /\ v = v'
  | ITest r, ITest r' => tr_net r = tr_net r' /\ tr_feature r = tr_feature r'
  | IOutline o, IOutline o' => ol_type o = ol_type o'
  | IConductor c, IConductor c' => cd_net c = cd_net c'
  | IAdjacency n _, IAdjacency n' _ => n = n'
  | IEnd, IEnd => True
  | _, _ => False
  end.
