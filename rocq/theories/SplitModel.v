(** Model of GerberParser._split_commands, gerber/rs274x.py:279-308. *)
From Verif Require Import PyBase.

Definition is_nl (c : ascii) : bool := ceq c cr || ceq c nl.

(** rs274x.py:288-308: the loop over the characters; [cur] is [data[start:cur]], [hdr] is in_header.
    Returns the commands yielded and the text never yielded ([data[start:]] at the end). *)
Fixpoint split_loop (cur : text) (hdr : bool) (data : text) : list text * text :=
  match data with
  | [] => ([], cur)
  | val :: rest =>
      if ceq val "%"%char && match cur with [] => true | _ => false end then       (* 292-294 *)
        split_loop (cur ++ [val]) true rest
      else if is_nl val then                                                        (* 296-299 *)
        let (ys, t) := split_loop [] hdr rest in
        (match cur with [] => ys | _ => cur :: ys end, t)
      else if negb hdr && ceq val "*"%char then                                     (* 301-303 *)
        let (ys, t) := split_loop [] hdr rest in ((cur ++ [val]) :: ys, t)
      else if hdr && ceq val "%"%char then                                          (* 305-308 *)
        let (ys, t) := split_loop [] false rest in ((cur ++ [val]) :: ys, t)
      else split_loop (cur ++ [val]) hdr rest
  end.

(** rs274x.py:279-308. *)
Definition split_commands (data : text) : list text := fst (split_loop [] true data).
(** What is silently dropped at the end of the data. *)
Definition split_tail (data : text) : text := snd (split_loop [] true data).
