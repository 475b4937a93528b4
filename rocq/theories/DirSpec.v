(** Which files of a directory make up a board and how the board is called, independently of the code. *)
From Verif Require Export LayersSpec DirModel.
Open Scope list_scope.

(** Files that are not looked at. *)
Definition ignored (f : text) : Prop := (exists r, f = "."%char :: r) \/ f = T "Thumbs.db" \/ f = T "ethumbs.db".
(** A file that cannot be opened or is not of a known format. *)
Definition unreadable (r : res camkind) : Prop := r = Err ParseError \/ r = Err IOError.
(** The files of a directory that are loaded, with what they contain. *)
Inductive board_files (read : text -> res camkind) : list text -> list (text * camkind) -> Prop :=
| files_none : board_files read [] []
| files_ignored f fs ks : ignored f -> board_files read fs ks -> board_files read (f :: fs) ks
| files_skipped f fs ks : ~ ignored f -> unreadable (read f) -> board_files read fs ks -> board_files read (f :: fs) ks
| files_loaded f k fs ks : ~ ignored f -> read f = Ok k -> board_files read fs ks -> board_files read (f :: fs) ((f, k) :: ks).
(** The layers made of them, numbered in this order. *)
Fixpoint layers_of (dir : text) (id : nat) (ks : list (text * camkind)) : list layer :=
  match ks with [] => [] | (f, k) :: ks => from_cam id k (dir ++ "/"%char :: f) :: layers_of dir (S id) ks end.
(** Another error is met. *)
Inductive board_error (read : text -> res camkind) : list text -> exn -> Prop :=
| error_here f fs e : ~ ignored f -> read f = Err e -> e <> ParseError -> e <> IOError -> board_error read (f :: fs) e
| error_ignored f fs e : ignored f -> board_error read fs e -> board_error read (f :: fs) e
| error_skipped f fs e : unreadable (read f) -> board_error read fs e -> board_error read (f :: fs) e
| error_loaded f k fs e : read f = Ok k -> board_error read fs e -> board_error read (f :: fs) e.

(** A file is called after a board: <board>.<extension>, or <board>.<signature>.<extension> with something that
    is known to name the class of the layer. *)
Definition dotless (t : text) : Prop := ~ In "."%char t.
Definition proper (t : text) : Prop := exists c, In c t /\ c <> "."%char.
Definition signature (c : string) (s : text) : Prop :=
  (exists h n, In h hints /\ h_layer h = c /\ (In n (h_ext h) \/ In n (h_name h)) /\ s = T n) \/
  (c = "drill"%string /\ contains (T "drill") s).
Inductive called (c : string) : text -> text -> Prop :=
| called_plain b e : proper b -> dotless e -> (forall b' s, b = b' ++ "."%char :: s -> dotless s -> ~ signature c s) ->
    called c (b ++ "."%char :: e) b
| called_signed b s e : proper b -> dotless s -> dotless e -> signature c s -> called c (b ++ "."%char :: s ++ "."%char :: e) b.
