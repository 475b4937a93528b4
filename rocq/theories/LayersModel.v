(** Layers of a board: gerber/layers.py and gerber/pcb.py. *)
From Verif Require Export DetectModel.
Open Scope list_scope.

(** ** Guessing the class of a layer from its file name *)

(** [str.lower()] on ASCII (other characters are not modelled). *)
Definition lower_chr (c : ascii) : ascii :=
  let n := nat_of_ascii c in if ((65 <=? n) && (n <=? 90))%nat then ascii_of_nat (n + 32) else c.
Definition lower (s : text) : text := map lower_chr s.

(** [\w] on ASCII. *)
Definition is_word (c : ascii) : bool :=
  let n := nat_of_ascii c in
  ((48 <=? n) && (n <=? 57) || (65 <=? n) && (n <=? 90) || (97 <=? n) && (n <=? 122) || (n =? 95))%nat.
(** [[.-]]. *)
Definition is_sep (c : ascii) : bool := ceq c "."%char || ceq c "-"%char.

(** layers.py:27. The fields regex and content are empty in every hint, so they are left out: the
    test of hint.regex (layers.py:138-140) never fires and guess_layer_class_by_content
    (layers.py:151-163) always returns False. *)
Record hint := mkHint { h_layer : string; h_ext : list string; h_name : list string }.

(** layers.py:29-109. *)
Definition hints : list hint := (
  [ mkHint "top" ["gtl"; "cmp"; "top"] ["art01"; "top"; "GTL"; "layer1"; "soldcom"; "comp"; "F.Cu"];
    mkHint "bottom" ["gbl"; "sld"; "bot"; "sol"; "bottom"] ["art02"; "bottom"; "bot"; "GBL"; "layer2"; "soldsold"; "B.Cu"];
    mkHint "internal"
      ["in"; "gt1"; "gt2"; "gt3"; "gt4"; "gt5"; "gt6"; "g1"; "g2"; "g3"; "g4"; "g5"; "g6"]
      ["art"; "internal"; "pgp"; "pwr"; "gnd"; "ground"; "gp1"; "gp2"; "gp3"; "gp4"; "gt5"; "gp6";
       "In1.Cu"; "In2.Cu"; "In3.Cu"; "In4.Cu"; "group3"; "group4"; "group5"; "group6"; "group7"; "group8"];
    mkHint "topsilk" ["gto"; "sst"; "plc"; "ts"; "skt"; "topsilk"] ["sst01"; "topsilk"; "silk"; "slk"; "sst"; "F.SilkS"];
    mkHint "bottomsilk" ["gbo"; "ssb"; "pls"; "bs"; "skb"; "bottomsilk"] ["bsilk"; "ssb"; "botsilk"; "bottomsilk"; "B.SilkS"];
    mkHint "topmask" ["gts"; "stc"; "tmk"; "smt"; "tr"; "topmask"]
      ["sm01"; "cmask"; "tmask"; "mask1"; "maskcom"; "topmask"; "mst"; "F.Mask"];
    mkHint "bottommask" ["gbs"; "sts"; "bmk"; "smb"; "br"; "bottommask"]
      ["sm"; "bmask"; "mask2"; "masksold"; "botmask"; "bottommask"; "msb"; "B.Mask"];
    mkHint "toppaste" ["gtp"; "tm"; "toppaste"] ["sp01"; "toppaste"; "pst"; "F.Paste"];
    mkHint "bottompaste" ["gbp"; "bm"; "bottompaste"] ["sp02"; "botpaste"; "bottompaste"; "psb"; "B.Paste"];
    mkHint "outline" ["gko"; "outline"] ["BDR"; "border"; "out"; "outline"; "Edge.Cuts"];
    mkHint "ipc_netlist" ["ipc"] [];
    mkHint "drawing" ["fab"] ["assembly drawing"; "assembly"; "fabrication"; "fab drawing"; "fab"] ])%string.

(** [(\w*[.-])*] at the start of [s]: what can remain behind it (all alternatives; the group is
    never empty, so a repetition ends behind a separator with only [\w.-] before it). *)
Fixpoint behind_seps (s : text) : list text :=
  match s with
  | [] => []
  | c :: s' => if is_sep c then s' :: behind_seps s' else if is_word c then behind_seps s' else []
  end.

(** The hint name as a pattern: "." is any character but a newline, the other characters stand for
    themselves, all ignoring case (re.IGNORECASE).  What remains behind it. *)
Fixpoint behind_name (p s : text) : option text :=
  match p, s with
  | [], _ => Some s
  | x :: p', y :: s' => if (if ceq x "."%char then negb (ceq y nl) else ceq (lower_chr x) (lower_chr y)) then behind_name p' s' else None
  | _ :: _, [] => None
  end.

(** [$]: the end, or before a newline at the end. *)
Definition at_end (s : text) : bool := match s with [] => true | [c] => ceq c nl | _ => false end.

(** [([.-]\w* )?$]. *)
Fixpoint word_end (s : text) : bool := at_end s || match s with c :: s' => is_word c && word_end s' | [] => false end.
Definition tail_end (s : text) : bool := at_end s || match s with c :: s' => is_sep c && word_end s' | [] => false end.

(** layers.py:142: the pattern made from a hint name, searched in [s]. *)
Definition name_matches (p : text) (s : text) : bool :=
  existsb (fun t => match behind_name p t with Some u => tail_end u | None => false end) (s :: behind_seps s).

(** os.path.split(filename)[1]. *)
Fixpoint basename (s : text) : text :=
  match s with
  | [] => []
  | c :: s' => if char_in "/"%char s' then basename s' else if ceq c "/"%char then s' else s
  end.

(** os.path.splitext of a name without "/": the part before the last dot and that dot with the part
    behind it; leading dots are part of the root. *)
Fixpoint last_dot (s : text) : option (text * text) :=
  match s with
  | [] => None
  | c :: s' => match last_dot s' with
               | Some (a, b) => Some (c :: a, b)
               | None => if ceq c "."%char then Some ([], s) else None
               end
  end.
Definition splitext (s : text) : text * text :=
  match last_dot s with
  | Some (a, b) => if forallb (ceq "."%char) a then (s, []) else (a, b)
  | None => (s, [])
  end.

Definition mem_text (t : text) (l : list string) : bool := existsb (fun s => teq t (T s)) l.

(** layers.py:143: does the hint fit the root and the extension? *)
Definition hint_fits (name ext : text) (h : hint) : bool :=
  mem_text (skipn 1 ext) (h_ext h) || existsb (fun n => name_matches (T n) name) (h_name h).

(** layers.py:127-148 guess_layer_class for a string. (Anything else raises inside the [try] and
    gives 'unknown'.) *)
Definition guess_layer_class (filename : text) : string :=
  let (name, ext) := splitext (lower (basename filename)) in
  match find (hint_fits name ext) hints with Some h => h_layer h | None => "unknown"%string end.

(** ** Layers *)

(** layers.py:196-295.  [l_id] stands for the identity of the python object, [l_order] is
    InternalLayer.order, [l_sides] is DrillLayer.layers; a layer of class 'internal' is always an
    InternalLayer and one of class 'drill' a DrillLayer, as from_cam makes them. *)
Record layer := mkLayer { l_id : nat; l_class : string; l_order : Z; l_sides : list string }.

(** What common.read returned. *)
Inductive camkind := CamGerber | CamExcellon | CamIpc.

(** layers.py:258: [re.search(r'\d+', filename)]: the first run of digits. *)
Fixpoint span_digits (s : text) : text :=
  match s with c :: s' => if is_digit c then c :: span_digits s' else [] | [] => [] end.
Fixpoint first_number (s : text) : option text :=
  match s with
  | [] => None
  | c :: s' => if is_digit c then Some (span_digits s) else first_number s'
  end.

(** layers.py:210-221 PCBLayer.from_cam, 242-249 DrillLayer, 252-266 InternalLayer. *)
Definition from_cam (id : nat) (k : camkind) (filename : text) : layer :=
  let c := guess_layer_class filename in
  let is_excellon := match k with CamExcellon => true | _ => false end in
  if is_excellon || String.eqb c "drill" then mkLayer id "drill" 0 ["top"; "bottom"]%string
  else if String.eqb c "internal" then
    mkLayer id "internal" (match first_number filename with Some d => dval d | None => 0%Z end) []
  else match k with CamIpc => mkLayer id "ipc_netlist" 0 [] | _ => mkLayer id c 0 [] end.

(** [sorted] of internal layers by InternalLayer.__lt__ (layers.py:283-286): python's sort is
    stable; a stable sort has one possible result, computed here by insertion. *)
Fixpoint insert (x : layer) (l : list layer) : list layer :=
  match l with
  | [] => [x]
  | y :: l' => if (l_order y <? l_order x)%Z then y :: insert x l' else x :: l
  end.
Definition sorted (l : list layer) : list layer := fold_right insert [] l.

Definition of_class (c : string) (l : list layer) : list layer := filter (fun x => String.eqb (l_class x) c) l.

(** layers.py:167-170. *)
Definition layer_order : list string :=
  ["outline"; "toppaste"; "topsilk"; "topmask"; "top"; "internal"; "bottom"; "bottommask"; "bottomsilk"; "bottompaste"]%string.
Definition append_after : list string := ["drill"; "drawing"]%string.

(** layers.py:166-193 sort_layers. (The branch for 'drill' in the first loop, 180-181, is never
    taken, since 'drill' is not in layer_order.) *)
Definition sort_layers (layers : list layer) (from_top : bool) : list layer :=
  let internal := sorted (of_class "internal" layers) in
  let output := flat_map (fun c => if String.eqb c "internal" then internal else of_class c layers) layer_order in
  (if from_top then output else rev output) ++ flat_map (fun c => of_class c layers) append_after.

(** ** Boards: gerber/pcb.py. A board is its list of sorted layers (71-73). *)
Definition pcb (layers : list layer) : list layer := sort_layers layers true.

Definition class_in (cs : list string) (x : layer) : bool := existsb (String.eqb (l_class x)) cs.
Definition on_side (s : string) (x : layer) : bool := existsb (String.eqb s) (l_sides x).

(** pcb.py:94-96. *)
Definition drill_layers (b : list layer) : list layer := of_class "drill" b.

(** pcb.py:84, 92: the drills go behind the first layer; IndexError when there is none. *)
Definition interleave (board drills : list layer) : res (list layer) :=
  match board with x :: r => Ok ([x] ++ drills ++ r) | [] => Err IndexError end.

(** pcb.py:78-84. *)
Definition top_layers (b : list layer) : res (list layer) :=
  interleave (filter (class_in ["topsilk"; "topmask"; "top"]%string) (rev b)) (filter (on_side "top") (drill_layers b)).
(** pcb.py:86-92. *)
Definition bottom_layers (b : list layer) : res (list layer) :=
  interleave (filter (class_in ["bottomsilk"; "bottommask"; "bottom"]%string) b) (filter (on_side "bottom") (drill_layers b)).
(** pcb.py:98-102. *)
Definition copper_layers (b : list layer) : list layer := rev (filter (class_in ["top"; "bottom"; "internal"]%string) b).
(** pcb.py:104-108. *)
Definition outline_layer (b : list layer) : option layer := find (fun x => String.eqb (l_class x) "outline") b.
(** pcb.py:110-115. *)
Definition layer_count (b : list layer) : nat := List.length (filter (class_in ["top"; "bottom"; "internal"]%string) b).
(** pcb.py:117-124: whose bounds are returned ([None]: python falls off the end and returns None). *)
Definition bounds_layer (b : list layer) : option layer :=
  match outline_layer b with Some x => Some x | None => find (fun x => String.eqb (l_class x) "top") b end.
