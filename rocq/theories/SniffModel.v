(** Model of excellon.py:797-904 detect_excellon_format and excellon.py:62-84 loads.
    Simplifications: numbers are exact, and [pi] is any number instead of math.pi; a number of digits below zero is an error
    (as in ExcellonModel.settings_of); python 3.7 or later keeps the order of the keys of a dictionary, in earlier versions another one
    of the options with the least score may be returned.  excellon.py:43-60 read is loads applied to the contents of a file,
    without tools. *)
From Verif Require Import PyBase QcLib NumModel GerberText ExcellonModel ExcellonFile.
Open Scope Qc_scope.
Open Scope list_scope.

Section Detect.
Variable holesize : unit_ -> text -> res (option tool).
Variable pi : Qc.

(** 829-830 *)
Definition unit_zeros (l : list (estmt * unit_)) : list zkind :=
  flat_map (fun s => match fst s with EUnit _ z _ => [z] | _ => [] end) l.
(** 833-835 *)
Definition format_comments (l : list (estmt * unit_)) : list text :=
  flat_map (fun s => match fst s with EComment c => if text_in (T "FILE_FORMAT") c then [c] else [] | _ => [] end) l.
(** 837-840: a single value *)
Definition single {A} (l : list A) : option A := match l with [a] => Some a | _ => None end.
Definition detected_format (l : list (estmt * unit_)) : res (option (list Z)) :=
  match single (format_comments l) with None => Ok None | Some c => do f <- read_format c; Ok (Some f) end.
(** 856 FileSettings(zeros, format), with the defaults of cam.py:57-59 for the rest *)
Definition guess_settings (k : list Z * zkind) : res xset :=
  match fst k with
  | [a; b] => if (a <? 0)%Z || (b <? 0)%Z then Err ValueError else Ok (mkXset Inch (Z.to_nat a, Z.to_nat b) (snd k) Absolute)
  | _ => Err ValueError
  end.
(** 861-864 *)
Fixpoint hole_area (s : list tool) (hs : list hit) : res Qc :=
  match hs with
  | [] => Ok 0
  | h :: hs' =>
      do t <- tool_at s (hit_tool h);
      match t_diam t with
      | None => Err TypeError
      | Some d => do a <- hole_area s hs'; Ok (a + (pi * d / zq 2) * (pi * d / zq 2))
      end
  end.
(** 858-865: the size and the area of the holes; an exception is passed over (866-867). *)
Definition attempt (data : text) (se : xset) : res ((Qc * Qc) * Qc) :=
  do f <- parse_raw holesize se [] data;
  do b <- bounding_box f;
  do a <- hole_area (xf_store f) (xf_hits f);
  Ok ((fst (fst b) - snd (fst b), fst (snd b) - snd (snd b)), a).
(** 853-867 *)
Fixpoint attempts (data : text) (ks : list (list Z * zkind)) : res (list ((list Z * zkind) * ((Qc * Qc) * Qc))) :=
  match ks with
  | [] => Ok []
  | k :: ks' =>
      do se <- guess_settings k;
      do rs <- attempts data ks';
      Ok (match attempt data se with Ok v => (k, v) :: rs | Err _ => rs end)
  end.
(** 893-904 _layer_size_score *)
Definition layer_size_score (v : (Qc * Qc) * Qc) : Qc :=
  let board := fst (fst v) * snd (fst v) in
  if Qc_eq_dec board 0 then 0
  else let h := snd v / board - Q2Qc (1 # 4) in
       let s := board - zq 8 in
       (h * h) * (s * s).
(** 870-875: the only value of a key, if there is one *)
Definition fmt_eqb (a b : list Z) : bool := if list_eq_dec Z.eq_dec a b then true else false.
Definition zkind_eqb (a b : zkind) : bool := match a, b with ZLead, ZLead | ZTrail, ZTrail => true | _, _ => false end.
Definition only {A} (eqb : A -> A -> bool) (l : list A) : option A :=
  match l with a :: l' => if forallb (eqb a) l' then Some a else None | [] => None end.
Definition or_else {A} (a b : option A) : option A := match a with Some _ => a | None => b end.
(** 887 min(scores.values()) *)
Fixpoint least (l : list Qc) : option Qc :=
  match l with
  | [] => None
  | q :: l' => match least l' with None => Some q | Some m => Some (if Qclt_le_dec m q then m else q) end
  end.
(** 888-890 *)
Fixpoint first_with {A} (m : Qc) (l : list (A * Qc)) : option A :=
  match l with [] => None | (k, q) :: l' => if Qc_eq_dec q m then Some k else first_with m l' end.
(** 797-890 *)
Definition detect (data : text) : res (list Z * zkind) :=
  do f <- parse_raw holesize x_default [] data;
  let dz := single (unit_zeros (xf_stmts f)) in
  do df <- detected_format (xf_stmts f);
  match df, dz with
  | Some f, Some z => Ok (f, z)
  | _, _ =>
      let zs := match dz with Some z => [z] | None => [ZLead; ZTrail] end in
      let fs := match df with Some f => [f] | None => [[2; 4]; [2; 5]; [3; 3]]%Z end in
      do rs <- attempts data (flat_map (fun z => map (fun f => (f, z)) fs) zs);
      let df := or_else (only fmt_eqb (map (fun r => fst (fst r)) rs)) df in
      let dz := or_else (only zkind_eqb (map (fun r => snd (fst r)) rs)) dz in
      match df, dz with
      | Some f, Some z => Ok (f, z)
      | _, _ =>
          let scores := map (fun r => (fst r, layer_size_score (snd r))) rs in
          match least (map snd scores) with
          | None => Err ValueError
          | Some m => match first_with m scores with
                      | Some k => Ok k
                      | None => Err TypeError        (* None is not a mapping; unreachable *)
                      end
          end
      end
  end.
(** 62-84 *)
Definition loads (data : text) (settings : option xset) (tools : list tool) : res xfile :=
  do se <- (match settings with Some se => Ok se | None => do k <- detect data; guess_settings k end);
  parse_raw holesize se tools data.
End Detect.
