(** Properties of the position of a macro group: C54. *)
From Verif Require Import PyBase QcLib NumModel GerberText HeapModel HeapSpec GroupModel GroupSpec GroupProofs.
Open Scope list_scope.
Open Scope Qc_scope.

(** Setting the position of a group puts it there and translates every object in it, however deeply
    nested, by the new minus the old position (the origin if it had none), and nothing else. *)
Theorem C54_move_translates : forall fuel h l p ms new, is_group h l p ms -> (List.length ms <= fuel)%nat ->
  exists h', set_position fuel l new h = Ok h' /\ placed h l ms new (fst new - fst p, snd new - snd p) h' /\ is_group h' l new ms.
Proof. exact C54_moves_lemma. Qed.
Print Assumptions C54_move_translates.

(** After any sequence of moves everything is where the last one alone would have put it. *)
Theorem C54_only_the_last_move_counts : forall fuel h l p ms ps new, is_group h l p ms -> (List.length ms <= fuel)%nat ->
  set_positions fuel l (ps ++ [new]) h = set_position fuel l new h.
Proof. exact C54_final_lemma. Qed.
Print Assumptions C54_only_the_last_move_counts.

(** A group of a circle and an outline of two lines. *)
Definition q (x y : Z) : Qc * Qc := (zq x, zq y).
Definition sample : heap :=
  [ new_group None [1; 2]%nat None (Some Inch);
    new_circle (Some (q 1 1)) (zq 2) (VNum 0) 0 0 (Some Inch);
    new_region [3; 4]%nat (Some Inch);
    new_line (q 0 0) (q 4 0) 5%nat (Some Inch);
    new_line (q 4 0) (q 0 0) 5%nat (Some Inch);
    new_circle (Some (q 0 0)) (zq 0) (VNum 0) 0 0 (Some Inch) ].
Lemma line_movable a b : movable (new_line a b 5%nat (Some Inch)).
Proof.
  split; [cbn; repeat (constructor; [cbn; intuition discriminate|]); constructor|]. split; [|discriminate].
  intros n v I. cbn in I. destruct I as [<-|[<-|[<-|[<-|[<-|[]]]]]]; cbn; try discriminate; intros X; injection X as <-; repeat eexists.
Qed.
Example C54_sample : is_group sample 0%nat (0, 0) [1; 2; 3; 4]%nat.
Proof.
  exists (new_group None [1; 2]%nat None (Some Inch)). split; [reflexivity|]. split; [left; split; reflexivity|]. split; [|split; [|split; [|split]]].
  - cbn. apply (Members_cons sample 1%nat (new_circle (Some (q 1 1)) (zq 2) (VNum 0) 0 0 (Some Inch)) [2%nat] [] [2; 3; 4]%nat); [reflexivity|constructor|].
    apply (Members_cons sample 2%nat (new_region [3; 4]%nat (Some Inch)) [] [3; 4]%nat []); [reflexivity| |constructor].
    apply (Members_cons sample 3%nat (new_line (q 0 0) (q 4 0) 5%nat (Some Inch)) [4%nat] [] [4%nat]); [reflexivity|constructor|].
    apply (Members_cons sample 4%nat (new_line (q 4 0) (q 0 0) 5%nat (Some Inch)) [] [] []); [reflexivity|constructor|constructor].
  - repeat (constructor; [cbn; intuition discriminate|]). constructor.
  - cbn. intuition discriminate.
  - exists false, [1; 2]%nat. reflexivity.
  - intros m om I G. destruct I as [<-|[<-|[<-|[<-|[]]]]]; injection G as <-; try apply line_movable.
    + split; [cbn; repeat (constructor; [cbn; intuition discriminate|]); constructor|]. split; [|discriminate].
      intros n v I. cbn in I. destruct I as [<-|[<-|[<-|[<-|[<-|[]]]]]]; cbn; try discriminate. intros X; injection X as <-; repeat eexists.
    + split; [cbn; repeat (constructor; [cbn; intuition discriminate|]); constructor|]. split.
      * intros n v I. cbn in I. destruct I as [<-|[<-|[<-|[<-|[<-|[]]]]]]; cbn; discriminate.
      * intros v X; injection X as <-. exists false, [3; 4]%nat. reflexivity.
Qed.
Example C54_sample_positions : match set_positions 4 0%nat [q 5 5; q 2 1] sample with Ok h => option_map (fun o => getattr "start" (po_attrs o)) (hget h 4%nat) | Err _ => None end = Some (Some (vpoint (q 6 1))).
Proof. vm_compute. reflexivity. Qed.
