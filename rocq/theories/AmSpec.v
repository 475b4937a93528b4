(** What the primitives of an aperture macro mean, independently of the code that reads and writes them:
    the table of the Gerber format specification. *)
From Verif Require Import PyBase QcLib NumModel NumSpec FloatCodec MacroModel GerberText GerberEval AmModel.
Open Scope Qc_scope.
Open Scope list_scope.

(** A python float. *)
Definition double (v : Qc) : Prop := rnd53 v = v.

(** ** The table *)
(** x1, y1, x2, y2, ... *)
Fixpoint coords (l : list point) : list Qc :=
  match l with [] => [] | (x, y) :: r => x :: y :: coords r end.

(** Exposure is on when the modifier is 1. *)
Definition flag (e : Qc) (on : bool) : Prop := on = true <-> e = 1.
(** A count is given as a decimal whose integer part counts. *)
Definition counts (q : Qc) (n : Z) : Prop :=
  if Qclt_le_dec q 0 then zq n - 1 < q /\ q <= zq n else zq n <= q /\ q < zq n + 1.

(** The primitive that a code and its modifiers stand for. *)
Inductive means : Z -> list Qc -> amprim -> Prop :=
| M_circle e on d x y : flag e on -> means 1 [e; d; x; y] (ACircle on d (x, y))
| M_vector c e on w x1 y1 x2 y2 r : c = 2%Z \/ c = 20%Z -> flag e on ->
    means c [e; w; x1; y1; x2; y2; r] (AVector c on w (x1, y1) (x2, y2) r)
| M_outline e on q s l r : flag e on -> l <> [] -> counts q (Z.of_nat (List.length l)) -> List.last l (0, 0) = s ->
    means 4 (e :: q :: coords (s :: l) ++ [r]) (AOutline on s l r)
| M_polygon e on q n x y d r : flag e on -> counts q n -> (3 <= n <= 12)%Z ->
    means 5 [e; q; x; y; d; r] (APolygon on n (x, y) d r)
| M_moire x y d th g q n ct cl r : counts q n -> means 6 [x; y; d; th; g; q; ct; cl; r] (AMoire (x, y) d th g n ct cl r)
| M_thermal x y o i g r : means 7 [x; y; o; i; g; r] (AThermal (x, y) o i g r)
| M_center e on w h x y r : flag e on -> means 21 [e; w; h; x; y; r] (ACenter on w h (x, y) r)
| M_lower e on w h x y r : flag e on -> means 22 [e; w; h; x; y; r] (ALower on w h (x, y) r).

(** The codes of the table. *)
Definition known_code (c : Z) : Prop := In c [1; 2; 20; 4; 5; 6; 7; 21; 22]%Z.

(** What a modifier measures. *)
Inductive kind := Flag | Length | Angle | Count.
(** The kinds of the modifiers; an outline has [n] points after the start point. *)
Definition kinds (code : Z) (n : nat) : list kind :=
  match code with
  | 1%Z => [Flag; Length; Length; Length]
  | 2%Z | 20%Z => [Flag; Length; Length; Length; Length; Length; Angle]
  | 4%Z => Flag :: Count :: repeat Length (2 * (n + 1)) ++ [Angle]
  | 5%Z => [Flag; Count; Length; Length; Length; Angle]
  | 6%Z => [Length; Length; Length; Length; Length; Count; Length; Length; Angle]
  | 7%Z => [Length; Length; Length; Length; Length; Angle]
  | 21%Z | 22%Z => [Flag; Length; Length; Length; Length; Angle]
  | _ => []
  end.
(** The same modifiers in another unit: lengths are multiplied by [k]. *)
Definition rescaled (k : Qc) (code : Z) (n : nat) (vs vs' : list Qc) : Prop :=
  exists l, List.combine (kinds code n) vs = l /\ List.length vs = List.length (kinds code n) /\
    vs' = map (fun p => match fst p with Length => snd p * k | _ => snd p end) l.

(** ** Numbers that survive in the text of a macro *)
(** Written with str(): no exponent. *)
Definition plain_number (v : Qc) : Prop :=
  double v /\ (v = 0 \/ (Q2Qc (1 # 10000) <= qabs v /\ qabs v < zq (10 ^ 16))).
(** Written with '%.Pg': a decimal of at most P digits, no exponent. *)
Definition short_number (P : nat) (v : Qc) : Prop :=
  exists m k, v = rnd53 (grid m k) /\ (Z.abs m < 10 ^ Z.of_nat P)%Z /\
    (m = 0%Z \/ (Q2Qc (1 # 10000) <= qabs (grid m k) /\ qabs (grid m k) < zq (10 ^ Z.of_nat P))).
Definition short_point (P : nat) (p : point) : Prop := short_number P (fst p) /\ short_number P (snd p).
Definition plain_point (p : point) : Prop := plain_number (fst p) /\ plain_number (snd p).
(** Counts that a python float can hold. *)
Definition small_count (n : Z) : Prop := (0 <= n < 10 ^ 15)%Z.

Definition prim_writable (p : amprim) : Prop :=
  match p with
  | AComment _ | AUnsupported _ => False
  | ACircle _ d p => plain_number d /\ plain_point p
  | AVector c _ w s e r => (c = 2%Z \/ c = 20%Z) /\ plain_number w /\ plain_point s /\ plain_point e /\ plain_number r
  | AOutline _ s l r => l <> [] /\ small_count (Z.of_nat (List.length l)) /\ short_point 6 s /\ Forall (short_point 6) l /\
                        List.last l (0, 0) = s /\ plain_number r
  | APolygon _ n p d r => (3 <= n <= 12)%Z /\ short_point 4 p /\ short_number 4 d /\ plain_number r
  | AMoire p d th g n ct cl r => small_count n /\ short_point 4 p /\ Forall plain_number [d; th; g; ct; cl; r]
  | AThermal p o i g r => short_point 4 p /\ Forall plain_number [o; i; g; r]
  | ACenter _ w h c r | ALower _ w h c r => short_point 4 c /\ Forall plain_number [w; h; r]
  end.

(** ** Writing and reading back *)
(** The statement written for the primitives [ps], alone in a file, is read as one macro statement whose
    primitives, for an aperture without modifiers, are again [ps]. *)
Definition reads_back (fs : filesys) (name : text) (ps : list amprim) : Prop :=
  exists macro instrs, parse_text fs (am_to_gerber name ps ++ [nl]) = Ok ([SAM name macro []], pset0) /\
    read_macro macro = Ok instrs /\ am_build instrs [] = Ok ps.
