(** Model of FileSettings and the settings part of CamFile (gerber/cam.py). *)
From Verif Require Import PyBase.

(** Attribute values: a string or a tuple of integers.  Simplification: other python types (on which
    [len] would raise TypeError) are not modelled. *)
Inductive val := VStr (s : text) | VSeq (l : list Z).

Definition S (s : string) : val := VStr (T s).

Fixpoint zlist_eqb (a b : list Z) : bool :=
  match a, b with
  | [], [] => true
  | x :: a', y :: b' => (x =? y)%Z && zlist_eqb a' b'
  | _, _ => false
  end.

(** python [==] on these values. *)
Definition val_eqb (a b : val) : bool :=
  match a, b with
  | VStr s, VStr t => teq s t
  | VSeq l, VSeq m => zlist_eqb l m
  | _, _ => false
  end.

(** python [v in [...]]. *)
Definition val_in (v : val) (l : list val) : bool := existsb (val_eqb v) l.

(** python [len(v)]. *)
Definition val_len (v : val) : nat :=
  match v with VStr s => List.length s | VSeq l => List.length l end.

(** cam.py:26-98: the attributes of a FileSettings object ([_zero_suppression] and [_zeros] are the
    stored halves of the two properties). *)
Record settings := mkSettings {
  notation : val; units : val; zero_suppression : val; zeros_ : val; format : val; angle_units : val }.

(** cam.py:99-102: the zero_suppression property setter. *)
Definition set_zero_suppression (v : val) (s : settings) : settings :=
  mkSettings s.(notation) s.(units) v
             (if val_eqb v (S "trailing") then S "leading" else S "trailing")
             s.(format) s.(angle_units).

(** cam.py:108-112: the zeros property setter. *)
Definition set_zeros (v : val) (s : settings) : settings :=
  mkSettings s.(notation) s.(units)
             (if val_eqb v (S "trailing") then S "leading" else S "trailing") v
             s.(format) s.(angle_units).

(** Plain attribute assignments (python: [self.notation = v] etc.). *)
Definition set_notation v s := mkSettings v s.(units) s.(zero_suppression) s.(zeros_) s.(format) s.(angle_units).
Definition set_units v s := mkSettings s.(notation) v s.(zero_suppression) s.(zeros_) s.(format) s.(angle_units).
Definition set_format v s := mkSettings s.(notation) s.(units) s.(zero_suppression) s.(zeros_) v s.(angle_units).
Definition set_angle_units v s := mkSettings s.(notation) s.(units) s.(zero_suppression) s.(zeros_) s.(format) v.

(** cam.py:68-85: the zero-suppression part of FileSettings.__init__. *)
Definition init_zeros (zs zr : option val) (s : settings) : res settings :=
  match zs, zr with
  | None, None => Ok (set_zero_suppression (S "trailing") s)            (* 68-69 *)
  | Some z, Some r =>
      if val_eqb z r then Err ValueError                                (* 71-73 *)
      else Ok (set_zero_suppression                                     (* 75-80 *)
                 (if val_in z [S "leading"; S "trailing"] then z else S "leading") s)
  | Some z, None =>
      Ok (set_zero_suppression
            (if val_in z [S "leading"; S "trailing"] then z else S "leading") s)
  | None, Some r =>                                                     (* 82-85 *)
      if val_in r [S "leading"; S "trailing"] then Ok (set_zeros r s)
      else Err ValueError
  end.

(** cam.py:57-93 FileSettings.__init__.  [blank] stands for the object before its attributes exist;
    every attribute is assigned on every path that returns. *)
Definition file_settings (n u : val) (zs : option val) (f : val) (zr : option val) (a : val)
  : res settings :=
  if negb (val_in n [S "absolute"; S "incremental"]) then Err ValueError        (* 60-62 *)
  else if negb (val_in u [S "inch"; S "metric"]) then Err ValueError            (* 64-66 *)
  else
    let blank := mkSettings n u (S "") (S "") (S "") (S "") in
    do s <- init_zeros zs zr blank;
    if negb (val_len f =? 2)%nat then Err ValueError                            (* 87-89 *)
    else if negb (val_in a [S "degrees"; S "radians"]) then Err ValueError      (* 91-93 *)
    else Ok (set_angle_units a (set_format f s)).

(** cam.py:114-128 FileSettings.__getitem__. *)
Definition getitem (s : settings) (key : text) : res val :=
  if teq key (T "notation") then Ok s.(notation)
  else if teq key (T "units") then Ok s.(units)
  else if teq key (T "zero_suppression") then Ok s.(zero_suppression)
  else if teq key (T "zeros") then Ok s.(zeros_)
  else if teq key (T "format") then Ok s.(format)
  else if teq key (T "angle_units") then Ok s.(angle_units)
  else Err KeyError.

(** cam.py:130-163 FileSettings.__setitem__: the object afterwards and the exception, if any. *)
Definition setitem (s : settings) (key : text) (v : val) : settings * option exn :=
  if teq key (T "notation") then
    if negb (val_in v [S "absolute"; S "incremental"]) then (s, Some ValueError)
    else (set_notation v s, None)
  else if teq key (T "units") then
    if negb (val_in v [S "inch"; S "metric"]) then (s, Some ValueError)
    else (set_units v s, None)
  else if teq key (T "zero_suppression") then
    if negb (val_in v [S "leading"; S "trailing"]) then (s, Some ValueError)
    else (set_zero_suppression v s, None)
  else if teq key (T "zeros") then
    if negb (val_in v [S "leading"; S "trailing"]) then (s, Some ValueError)
    else (set_zeros v s, None)
  else if teq key (T "format") then
    if negb (val_len v =? 2)%nat then (s, Some ValueError)
    else (set_format v s, None)
  else if teq key (T "angle_units") then
    if negb (val_in v [S "degrees"; S "radians"]) then (s, Some ValueError)
    else (set_angle_units v s, None)
  else (s, Some KeyError).

(** cam.py:165-170 FileSettings.__eq__. *)
Definition settings_eq (a b : settings) : bool :=
  val_eqb a.(notation) b.(notation) && val_eqb a.(units) b.(units) &&
  val_eqb a.(zero_suppression) b.(zero_suppression) && val_eqb a.(format) b.(format) &&
  val_eqb a.(angle_units) b.(angle_units).

(** cam.py:215-229: the settings attributes of a CamFile. *)
Record camfile := mkCam {
  c_notation : val; c_units : val; c_zero_suppression : val; c_zeros : val; c_format : val }.

(** cam.py:215-229 CamFile.__init__, settings part. *)
Definition cam_init (st : option settings) : res camfile :=
  match st with
  | Some s =>
      do n <- getitem s (T "notation"); do u <- getitem s (T "units");
      do z <- getitem s (T "zero_suppression"); do r <- getitem s (T "zeros");
      do f <- getitem s (T "format"); Ok (mkCam n u z r f)
  | None => Ok (mkCam (S "absolute") (S "inch") (S "trailing") (S "leading") (VSeq [2; 5]%Z))
  end.

(** cam.py:235-245 CamFile.settings. *)
Definition cam_settings (c : camfile) : res settings :=
  file_settings c.(c_notation) c.(c_units) (Some c.(c_zero_suppression)) c.(c_format) None (S "degrees").
