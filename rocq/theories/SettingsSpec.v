(** What the settings properties mean, in terms of keys and values. *)
From Verif Require Import PyBase SettingsModel.

(** Exactly one of the two is 'leading', the other is 'trailing'. *)
Definition opposite (a b : val) : Prop :=
  (a = S "leading" /\ b = S "trailing") \/ (a = S "trailing" /\ b = S "leading").

Definition known_keys : list text :=
  map T ["notation"; "units"; "zero_suppression"; "zeros"; "format"; "angle_units"]%string.

(** The documented values of each key. *)
Definition valid_value (key : string) (v : val) : Prop :=
  match key with
  | "notation" => v = S "absolute" \/ v = S "incremental"
  | "units" => v = S "inch" \/ v = S "metric"
  | "zero_suppression" | "zeros" => v = S "leading" \/ v = S "trailing"
  | "format" => val_len v = 2%nat
  | "angle_units" => v = S "degrees" \/ v = S "radians"
  | _ => False
  end%string.

Definition key_names : list string :=
  ["notation"; "units"; "zero_suppression"; "zeros"; "format"; "angle_units"]%string.

Definition is_zero_key (k : string) : Prop := k = "zeros"%string \/ k = "zero_suppression"%string.

(** Assignments a client can make: by attribute (only documented values for the two zero attributes),
    or by key with any value (invalid ones raise and are caught). *)
Inductive assign :=
| AttrZeros (v : val) | AttrZeroSuppression (v : val)
| Item (key : text) (v : val).

Definition documented (a : assign) : Prop :=
  match a with
  | AttrZeros v | AttrZeroSuppression v => v = S "leading" \/ v = S "trailing"
  | Item _ _ => True
  end.

Definition run_assign (s : settings) (a : assign) : settings :=
  match a with
  | AttrZeros v => set_zeros v s
  | AttrZeroSuppression v => set_zero_suppression v s
  | Item k v => fst (setitem s k v)
  end.

(** The documented constructor arguments. *)
Definition acceptable (n u : val) (zs : option val) (f : val) (zr : option val) (a : val) : Prop :=
  valid_value "notation" n /\ valid_value "units" u /\ valid_value "format" f /\
  valid_value "angle_units" a /\
  match zs, zr with
  | Some z, Some r => z <> r
  | None, Some r => valid_value "zeros" r
  | _, None => True
  end.

(** The zero suppression an accepted call must report. *)
Definition reported_zs (zs zr : option val) (z : val) : Prop :=
  match zs, zr with
  | None, None => z = S "trailing"
  | None, Some r => opposite r z
  | Some v, _ => (valid_value "zero_suppression" v /\ z = v) \/
                 (~ valid_value "zero_suppression" v /\ z = S "leading")
  end.
