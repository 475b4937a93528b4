(** File format detection: gerber/utils.py:208-230 and gerber/common.py:44-71. *)
From Verif Require Export PyBase.
Open Scope list_scope.

(** [s.split()]: maximal runs of non-whitespace. *)
Fixpoint words (s : text) : list text :=
  match s with
  | [] => []
  | c :: s' =>
      if is_space c then words s'
      else match s' with
           | [] => [[c]]
           | d :: _ => if is_space d then [c] :: words s'
                       else match words s' with
                            | w :: ws => (c :: w) :: ws
                            | [] => [[c]]  (* unreachable: s' starts with a non-blank *)
                            end
           end
  end.

Inductive ffmt := Excellon | Rs274x | IpcD356 | Unknown.

(** utils.py:222-229: the test made on one line. *)
Definition line_format (line : text) : ffmt :=
  if text_in (T "M48") line then Excellon
  else if text_in (T "%FS") line then Rs274x
  else match words line with
       | a :: b :: _ => if teq a (T "P") && teq b (T "JOB") then IpcD356 else Unknown
       | _ => Unknown
       end.

(** utils.py:221-230: the loop over the lines. *)
Fixpoint detect_lines (ls : list text) : ffmt :=
  match ls with
  | [] => Unknown
  | l :: ls' => match line_format l with Unknown => detect_lines ls' | f => f end
  end.

(** utils.py:208-230 detect_file_format. *)
Definition detect_file_format (data : text) : ffmt := detect_lines (split_on nl data).

(** common.py:61-71 loads: which loader is called; [Err ParseError] where none is. *)
Inductive loader := LoadGerber | LoadExcellon | LoadIpc.
Definition loads_with (data : text) : res loader :=
  match detect_file_format data with
  | Rs274x => Ok LoadGerber
  | Excellon => Ok LoadExcellon
  | IpcD356 => Ok LoadIpc
  | Unknown => Err ParseError
  end.
