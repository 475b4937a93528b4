(** Model of PCB.from_directory (gerber/pcb.py:27-69), utils.listdir (gerber/utils.py:304-333) and
    layer_signatures (gerber/layers.py:111-115). *)
From Verif Require Export LayersModel.
Open Scope list_scope.

(** utils.py:326-332 listdir(directory, True, True), of what os.listdir returned *)
Definition os_files : list string := [".DS_Store"; "Thumbs.db"; "ethumbs.db"]%string.
Definition visible (files : list text) : list text :=
  let files := filter (fun f => negb (match f with c :: _ => ceq c "."%char | [] => false end)) files in
  filter (fun f => negb (mem_text f os_files)) files.

(** layers.py:111-115 *)
Definition layer_signatures (c : string) : list string :=
  match find (fun h => String.eqb (h_layer h) c) hints with Some h => h_ext h ++ h_name h | None => [] end.

(** pcb.py:41-47: the name of the board according to a file *)
Definition board_stem (class : string) (filename : text) : text :=
  let name := fst (splitext filename) in
  let (n, ext) := splitext name in
  if mem_text (skipn 1 ext) (layer_signatures class) || (String.eqb class "drill" && text_in (T "drill") ext) then n else name.

Section Dir.
(** gerber_read of the file of this name in the directory: what kind of file it is, or the exception *)
Variable read : text -> res camkind.
Variable directory : text.
(** pcb.py:37-60.  The directory is an absolute path without a slash at its end (33).  Layers are numbered in the
    order in which they are made; the set of names is kept as a list. *)
Fixpoint load (files : list text) (id : nat) : res (list layer * list text) :=
  match files with
  | [] => Ok ([], [])
  | f :: files =>
      match read f with
      | Ok k =>
          let l := from_cam id k (directory ++ "/"%char :: f) in
          do r <- load files (S id);
          Ok (l :: fst r, board_stem (l_class l) f :: snd r)
      | Err ParseError | Err IOError => load files id
      | Err e => Err e
      end
  end.
(** pcb.py:62-69 and 71-73 *)
Definition same_text (names : list text) (n : text) : bool := forallb (teq n) names.
Definition from_directory (board_name : option text) (files : list text) : res (list layer * text) :=
  do r <- load (visible files) 0;
  let name := match board_name with
              | Some n => n
              | None => match snd r with
                        | n :: names => if same_text names n then n else basename directory
                        | [] => basename directory
                        end
              end in
  Ok (pcb (fst r), name).
End Dir.
