(** Model of the coordinate codec and unit functions of gerber/utils.py. *)
From Verif Require Import PyBase QcLib.
Open Scope Qc_scope.

(** Zero suppression argument (utils.py:63-64): the strings 'leading' and 'trailing' are compared
    literally, any other value takes the [else] branch ([NoSupp], documented as 'none'). *)
Inductive zmode := Leading | Trailing | NoSupp.

(** Format tuple (integer digits, decimal digits).  Simplification: both are naturals; the
    [format[0] == float] branch of write_gerber_value (utils.py:126-127) is not modelled. *)
Definition fmt := (nat * nat)%type.

Fixpoint span_digits (s : text) : text * text :=
  match s with
  | c :: s' => if is_digit c then let (a, b) := span_digits s' in (c :: a, b) else ([], s)
  | [] => ([], [])
  end.

(** 10^e as a rational. *)
Definition qpow10 (e : Z) : Qc := if (e <? 0)%Z then dec 1 (Z.to_nat (- e)) else zq (p10 (Z.to_nat e)).

(** Optional exponent: [eE][+-]digits. *)
Definition with_exponent (v : Qc) (r : text) : res Qc :=
  match r with
  | [] => Ok v
  | c :: r' =>
      if ceq c "e"%char || ceq c "E"%char then
        let (neg, ds) := match r' with
                         | s :: r'' => if ceq s "-"%char then (true, r'')
                                       else if ceq s "+"%char then (false, r'') else (false, r')
                         | [] => (false, r')
                         end in
        match ds with
        | [] => Err ValueError
        | _ => if all_digits ds then Ok (v * qpow10 (if neg : bool then - dval ds else dval ds)%Z)
               else Err ValueError
        end
      else Err ValueError
  end.

Definition py_float_unsigned (s : text) : res Qc :=
  let (a, r) := span_digits s in
  match r with
  | [] => match a with [] => Err ValueError | _ => Ok (dec (dval a) 0) end
  | c :: r' =>
      if ceq c "."%char then
        let (b, r'') := span_digits r' in
        match a ++ b with
        | _ :: _ => with_exponent (dec (dval (a ++ b)) (List.length b)) r''
        | [] => Err ValueError
        end
      else match a with
           | _ :: _ => with_exponent (dec (dval a) 0) r
           | [] => Err ValueError
           end
  end.

(** The builtin [float(str)] on decimal literals [ws][sign]digits[.digits][exponent][ws].
    Simplifications: exact rational result (see FloatCodec.v for rounding; no overflow to inf); '_'
    and inf/nan are treated as ValueError. *)
Definition py_float (s : text) : res Qc :=
  match strip s with
  | c :: r =>
      if ceq c "-"%char then do v <- py_float_unsigned r; Ok (- v)
      else if ceq c "+"%char then py_float_unsigned r
      else py_float_unsigned (c :: r)
  | [] => Err ValueError
  end.

(** utils.py:77-78 and 134-135: the precision check shared by reader and writer. *)
Definition bad_precision (f : fmt) : bool :=
  let (i, d) := f in (13 <? i + d)%nat || (6 <? i)%nat || (7 <? d)%nat.

(** utils.py:32-94 parse_gerber_value, over an arbitrary builtin [float]. *)
Definition parse_gerber_value_with (float : text -> res Qc)
           (value : text) (f : fmt) (zs : zmode) : res Qc :=
  if char_in "."%char value then float value                             (* 65-66 *)
  else
    let (i, d) := f in
    if bad_precision f then Err ValueError                               (* 75-76 *)
    else
      let value := lstrip "+"%char value in                              (* 79 *)
      let negative := char_in "-"%char value in                          (* 80 *)
      let value := if negative then lstrip "-"%char value else value in  (* 81-82 *)
      let missing := (i + d - List.length value)%nat in                  (* 84 *)
      let digits := match zs with                                        (* 86-91 *)
                    | Trailing => value ++ zeros missing
                    | Leading => zeros missing ++ value
                    | NoSupp => value
                    end in
      do result <- float (firstn i digits ++ "."%char :: skipn i digits);  (* 93-94 *)
      Ok (if negative then - result else result).                        (* 95 *)

(** The exact reading. *)
Definition parse_gerber_value : text -> fmt -> zmode -> res Qc := parse_gerber_value_with py_float.

(** Round to nearest, ties to even: how '%.Nf' rounds the (exact) value scaled by 10^N. *)
Definition rhe (v : Qc) : Z :=
  let n := Qnum (this v) in
  let m := Zpos (Qden (this v)) in
  let f := (n / m)%Z in
  let r := (n mod m)%Z in
  if (2 * r <? m)%Z then f
  else if (m <? 2 * r)%Z then (f + 1)%Z
  else if Z.even f then f else (f + 1)%Z.

(** '%0W.Df' % v for v >= 0: W is the minimal width (zero padded), D the number of decimals; no
    decimal point when D = 0. *)
Definition py_fmt_f (w d : nat) (v : Qc) : text :=
  let n := rhe (v * zq (p10 d)) in
  let body := show_nat (n / p10 d) ++
              (match d with O => [] | _ => "."%char :: dig d n end) in
  zeros (w - List.length body) ++ body.

Definition digit_sum (s : text) : Z := fold_right (fun c a => digit_val c + a)%Z 0%Z s.

(** utils.py:97-167 write_gerber_value. *)
Definition write_gerber_value (value : Qc) (f : fmt) (zs : zmode) : res text :=
  let (i, d) := f in
  if bad_precision f then Err ValueError                                 (* 134-135 *)
  else if qceq value 0 then Ok (T "0")                                   (* 139-140 *)
  else
    let negative := qclt value 0 in                                      (* 143 *)
    let value := if negative then - value else value in                  (* 144-145 *)
    let digits := filter (fun c => negb (ceq c "."%char))
                         (py_fmt_f (i + d + 1) d value) in               (* 148-149 *)
    if (digit_sum digits =? 0)%Z then Ok (T "0")                         (* 152-154 *)
    else
      let digits := match zs with                                        (* 157-162 *)
                    | Trailing => rstrip_p (ceq "0"%char) digits
                    | Leading => lstrip_p (ceq "0"%char) digits
                    | NoSupp => digits
                    end in
      match digits with                                                  (* 164-165 *)
      | [] => Ok (T "0")
      | _ => Ok (if negative then "-"%char :: digits else digits)        (* 167 *)
      end.

(** utils.py:27 MILLIMETERS_PER_INCH = 25.4 (exact; the python constant is the nearest double). *)
Definition mm_per_inch : Qc := Q2Qc (127 # 5).

(** utils.py:243-256 metric. *)
Definition metric (v : Qc) : Qc := v * mm_per_inch.
(** utils.py:259-272 inch. *)
Definition inch (v : Qc) : Qc := v / mm_per_inch.
