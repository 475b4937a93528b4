(** What a whole IPC-D-356 netlist says, record by record. *)
From Verif Require Import PyBase QcLib NumModel IpcModel IpcSpec.
Open Scope list_scope.

(** The values of P UNITS: inches with degrees, millimetres with degrees, inches with radians. *)
Inductive units_said : list text -> ipc_settings -> Prop :=
| said_inch : units_said [T "CUST"; T "0"] (mkIS false false)
| said_cust : units_said [T "CUST"] (mkIS false false)
| said_mm : units_said [T "CUST"; T "1"] (mkIS true false)
| said_radians : units_said [T "CUST"; T "2"] (mkIS false true).

(** [says se names ls ss]: lines [ls], in the units [se] and with long net names [names], are the statements [ss]. *)
Inductive says : ipc_settings -> (text -> text) -> list text -> list statement -> Prop :=
| says_nothing se names : says se names [] []
| says_comment se names t ls ss : trimmed t -> says se names ls ss -> says se names ((T "C  " ++ t) :: ls) (IComment t :: ss)
| says_units se names ws se' ls ss : units_said ws se' -> says se' names ls ss ->
    says se names (parameter_line (T "UNITS") (spaced ws) :: ls) (IParameter (T "UNITS") (spaced ws) :: ss)
| says_name se names n ws names' ls ss : variable n -> Forall a_word ws -> names' n = spaced ws -> (forall m, m <> n -> names' m = names m) ->
    says se names' ls ss -> says se names (parameter_line n (spaced ws) :: ls) (IParameter n (spaced ws) :: ss)
| says_parameter se names n ws ls ss : a_word n -> n <> T "UNITS" -> ~ variable n -> Forall a_word ws -> says se names ls ss ->
    says se names (parameter_line n (spaced ws) :: ls) (IParameter n (spaced ws) :: ss)
| says_test se names wid c f ls ss : is_radians se = false -> In (co_feature c) ["1"; "2"; "6"]%char -> feature_of (co_feature c) f -> fits_columns wid c -> dash_found wid c ->
    says se names ls ss -> says se names (record_line wid c :: ls) (ITest (set_net (names (co_net c)) (the_record se f c)) :: ss)
| says_conductor se names net layer ap shapes ls ss : trimmed net -> (List.length net <= 14)%nat -> (0 <= layer < 100)%Z -> is_coord ap -> shapes <> [] ->
    Forall (fun s => s <> [] /\ Forall is_coord s) shapes -> says se names ls ss ->
    says se names (conductor_line net layer ap shapes :: ls)
      (IConductor (mkConductor net layer (option_map (units se) (fst ap), option_map (units se) (snd ap)) (map (fun s => map (in_units se) (path 0 0 s)) shapes)) :: ss)
| says_adjacent se names n adj ls ss : a_word n -> Forall a_word adj -> says se names ls ss -> says se names ((T "379" ++ spaced (n :: adj)) :: ls) (IAdjacency n adj :: ss)
| says_outline se names ty cs ls ss : ty = [] \/ a_word ty -> (List.length ty <= 14)%nat -> Forall is_coord cs -> says se names ls ss ->
    says se names (outline_line ty cs :: ls) (IOutline (mkOutline ty (map (in_units se) (path 0 0 cs))) :: ss)
| says_end se names ls ss : says se names ls ss -> says se names (T "999" :: ls) (IEnd :: ss).
