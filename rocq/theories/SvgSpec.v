(** Names of SVG files. *)
From Verif Require Import PyBase LayersSpec.
Import ListNotations.
Open Scope list_scope.

(** A name that ends in .svg, in any case, with more than dots before it in the last part of the path *)
Definition svg_name (f : text) : Prop := exists d stem ext, f = d ++ stem ++ T "." ++ ext /\ directory d /\ ~ In "/"%char stem /\
  (exists c, In c stem /\ c <> "."%char) /\ same_but_case ext (T "svg").
