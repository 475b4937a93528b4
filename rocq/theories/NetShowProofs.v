(** Images of netlists. *)
From Coq Require Import Lra Lia.
From Verif Require Import PyBase QcLib GeomModel GeomSpec GeomProofs CairoModel CairoSpec CairoProofs CairoLayer CairoMore CairoScale MacroGeomModel MacroGeomProofs ShowMacro CamShowDrill NetShowModel NetShowSpec.
From Verif Require IpcModel ShowExamples.
Import ListNotations.
Open Scope R_scope.
Open Scope list_scope.

Section Net.
Variable fill : list curve -> shape.
Variable glyphs : list ascii -> pt -> shape.

(** What a dot covers on the surface *)
Definition spot (c : context) (r : record) : shape :=
  let q := record_position c r in masked c (circle_box q (15 / 1000)) (drawing ((Over, c_disc (scale_point c q) (15 / 1000 / 2 * scale c)) :: holes fill c q 0 0 0 0 Clear (hole_operator c true))).
Lemma dot_render c r layer : CairoModel.render fill c (record_dot c r) layer = Ok (draw (layer_operator c true) (spot c r) layer).
Proof. reflexivity. Qed.
Lemma records_union c l : invert c = false -> forall layer, exists img, render_records fill glyphs c l layer = Ok img /\
  forall q, img q <-> layer q \/ exists r, In r l /\ (spot c r q \/ record_text glyphs c r q).
Proof.
  intros V. induction l as [|r l IH]; intros layer.
  - exists layer. split; [reflexivity|]. intros q. split; [auto|]. intros [H|(r & [] & _)]. exact H.
  - cbn [render_records]. unfold render_record at 1. rewrite dot_render. cbn [bind]. match goal with |- context [render_records _ _ _ _ ?L] => destruct (IH L) as (img & E & H) end.
    exists img. split; [exact E|]. intros q. rewrite (H q). unfold layer_operator. rewrite V. cbn [negb andb draw]. split.
    + intros [[[H0|H0]|H0]|(r' & J & H0)]; [now left|right; exists r; cbn; auto..|right; exists r'; cbn; auto].
    + intros [H0|(r' & [<-|J] & H0)]; [tauto|tauto|right; exists r'; auto].
Qed.
Lemma records_removed c l : invert c = true -> forall layer, exists img, render_records fill glyphs c l layer = Ok img /\
  forall q, img q <-> layer q /\ ~ exists r, In r l /\ (spot c r q \/ record_text glyphs c r q).
Proof.
  intros V. induction l as [|r l IH]; intros layer.
  - exists layer. split; [reflexivity|]. intros q. split; [|tauto]. intros H. split; [exact H|]. intros (r & [] & _).
  - cbn [render_records]. unfold render_record at 1. rewrite dot_render. cbn [bind]. match goal with |- context [render_records _ _ _ _ ?L] => destruct (IH L) as (img & E & H) end.
    exists img. split; [exact E|]. intros q. rewrite (H q). unfold layer_operator. rewrite V. cbn [negb andb draw]. split.
    + intros [[[H0 N1] N2] N3]. split; [exact H0|]. intros (r' & [<-|J] & K); [tauto|]. apply N3. exists r'. auto.
    + intros [H0 N]. split; [split; [split; [exact H0|]|]|].
      * intros K. apply N. exists r. cbn. auto.
      * intros K. apply N. exists r. cbn. auto.
      * intros (r' & J & K). apply N. exists r'. cbn. auto.
Qed.
Lemma dots_union c l : invert c = false -> forall layer, exists img, render_all fill c (map (record_dot c) l) layer = Ok img /\
  forall q, img q <-> layer q \/ exists r, In r l /\ spot c r q.
Proof.
  intros V. induction l as [|r l IH]; intros layer.
  - exists layer. split; [reflexivity|]. intros q. split; [auto|]. intros [H|(r & [] & _)]. exact H.
  - cbn [map render_all]. rewrite dot_render. cbn [bind]. match goal with |- context [render_all _ _ _ ?L] => destruct (IH L) as (img & E & H) end.
    exists img. split; [exact E|]. intros q. rewrite (H q). unfold layer_operator. rewrite V. cbn [negb andb draw]. split.
    + intros [[H0|H0]|(r' & J & H0)]; [now left|right; exists r; cbn; auto|right; exists r'; cbn; auto].
    + intros [H0|(r' & [<-|J] & H0)]; [tauto|tauto|right; exists r'; auto].
Qed.
Lemma spot_invert s b mir r q : spot (set_bounds s b false mir) r q <-> spot (set_bounds s b true mir) r q.
Proof.
  unfold spot, record_position, masked, drawing, holes, scale_point, on_surface, clip, matrix, size_px, origin_px. cbn - [c_disc floor ceil].
  destruct (Rlt_dec 0 0) as [L|L]; [lra|]. reflexivity.
Qed.
Lemma dot_shape c r p : prim_shape fill (what (record_dot c r)) p <-> disc (record_position c r) (15 / 2000) p.
Proof. cbn [record_dot what prim_shape]. rewrite no_holes_iff. replace (15 / 1000 / 2) with (15 / 2000) by lra. reflexivity. Qed.
Lemma dot_box c r : bounds (circle_box (record_position c r) (15 / 1000)) (disc (record_position c r) (15 / 2000)).
Proof. replace (15 / 2000) with (15 / 1000 / 2) by lra. apply circle_bounds. lra. Qed.
Lemma dot_renderable c r : renderable fill (record_dot c r).
Proof.
  split; [|split; [cbn; lra|now left]]. intros q Q. apply dot_shape in Q. apply (proj1 (dot_box c r)). exact Q.
Qed.
Definition below_records (c : context) (l : list record) (p : pt) : Prop :=
  forall r, In r l -> disc (record_position c r) (15 / 2000) p -> scale c * snd p <= scale c * (snd (record_position c r) + 15 / 2000) - 1.
(** On the surface, dots appear as discs. *)
Lemma spots_shown s b mir l p : filling fill -> 0 < s -> fst (fst b) <= snd (fst b) -> fst (snd b) <= snd (snd b) -> inside b p ->
  below_records (set_bounds s b false mir) l p ->
  (exists r, In r l /\ spot (set_bounds s b false mir) r (pixel s b mir p)) <-> (exists r, In r l /\ disc (record_position (set_bounds s b false mir) r) (15 / 2000) p).
Proof.
  intros Fi S X Y I0 B. set (c := set_bounds s b false mir) in *.
  destruct (layer_ok fill b s mir (map Single (map (record_dot c) l)) Fi S X Y) as (img & R & H).
  { apply Forall_forall. intros i J. apply in_map_iff in J as (d & <- & J). apply in_map_iff in J as (r & <- & J). apply dot_renderable. }
  fold c in R. unfold render_layer in R. rewrite flat_single in R.
  destruct (dots_union c l eq_refl (fun q => invert c = true /\ on_surface c q)) as (img' & R' & H'). assert (E : img' = img) by congruence. subst img'.
  assert (Q : img (pixel s b mir p) <-> exists r, In r l /\ spot c r (pixel s b mir p)).
  { rewrite (H' _). split; [intros [[V _]|K]; [discriminate|exact K]|auto]. }
  rewrite <- Q, (H p I0).
  - unfold layer_shows. rewrite darkened_all.
    + split.
      * intros (i & J & K). apply in_map_iff in J as (d & <- & J). apply in_map_iff in J as (r & <- & J). exists r. split; [exact J|]. now apply dot_shape in K.
      * intros (r & J & K). exists (Single (record_dot c r)). split; [apply in_map, in_map, J|]. cbn. now apply (dot_shape c r p).
    + intros i J. apply in_map_iff in J as (d & <- & J). apply in_map_iff in J as (r & <- & J). reflexivity.
  - intros d J K. rewrite flat_single in J. apply in_map_iff in J as (r & <- & J). apply dot_shape in K. pose proof (B r J K) as L. cbn [record_dot bbox]. change (scale c) with s in L.
    unfold circle_box, BoxModel.circle_box, BoxModel.around. cbn [fst snd]. unfold half. replace (15 / 1000 / 2) with (15 / 2000) by lra. exact L.
Qed.

Lemma records_reachable l n : forall pos name, In (pos, name) (records_of l n) <-> reachable l n pos name.
Proof.
  intros pos name. unfold records_of, IpcModel.render. rewrite in_map_iff. split.
  - intros ([[q nm] a] & E & J). injection E as <- <-. apply filter_In in J as [J V]. exists q, a. split; [exact J|]. split; [reflexivity|].
    cbn [snd] in V. destruct l, a; cbn in V; try discriminate; auto.
  - intros (q & a & J & -> & V). exists ((q, name), a). split; [reflexivity|]. apply filter_In. split; [exact J|]. cbn [snd]. destruct l; [destruct V as [->|[->| ->]]|destruct V as [->| ->]..|contradiction]; reflexivity.
Qed.
Lemma netlist_shown s b mir l n : filling fill -> 0 < s -> fst (fst b) <= snd (fst b) -> fst (snd b) <= snd (snd b) ->
  let v := (fst (fst b), fst (snd b)) in
  exists img, render_netlist fill glyphs (Some (set_bounds s b false mir)) l n = Ok img /\
  forall p, inside b p -> below_dots v l n s p -> (img (pixel s b mir p) <-> dotted v l n p \/ named glyphs s v l n (pixel s b mir p)).
Proof.
  intros Fi S X Y v. cbn [render_netlist]. destruct (records_union (set_bounds s b false mir) (records_of l n) eq_refl (fun q => false = true /\ on_surface (set_bounds s b false mir) q)) as (img & R & H).
  exists img. split; [exact R|]. intros p I0 B. rewrite (H _).
  pose proof (spots_shown s b mir (records_of l n) p Fi S X Y I0) as SP. 
  assert (B' : below_records (set_bounds s b false mir) (records_of l n) p) by (intros [pos name] J D; exact (B pos name (proj1 (records_reachable l n pos name) J) D)).
  specialize (SP B'). split.
  - intros [[F _]|([pos name] & J & [K|K])]; [discriminate| |].
    + left. destruct (proj1 SP (ex_intro _ (pos, name) (conj J K))) as ([pos' name'] & J' & D). exists pos', name'. split; [now apply records_reachable|exact D].
    + right. exists pos, name. split; [now apply records_reachable|exact K].
  - intros [(pos & name & J & D)|(pos & name & J & D)]; right.
    + apply records_reachable in J. destruct (proj2 SP (ex_intro _ (pos, name) (conj J D))) as (r & Jr & K). exists r. auto.
    + exists (pos, name). split; [now apply records_reachable|]. right. exact D.
Qed.
Lemma netlist_inverted s b mir l n : filling fill -> 0 < s -> fst (fst b) <= snd (fst b) -> fst (snd b) <= snd (snd b) ->
  let v := (fst (fst b), fst (snd b)) in
  exists img, render_netlist fill glyphs (Some (set_bounds s b true mir)) l n = Ok img /\
  forall p, inside b p -> below_dots v l n s p -> (img (pixel s b mir p) <-> ~ (dotted v l n p \/ named glyphs s v l n (pixel s b mir p))).
Proof.
  intros Fi S X Y v. cbn [render_netlist]. destruct (records_removed (set_bounds s b true mir) (records_of l n) eq_refl (fun q => true = true /\ on_surface (set_bounds s b true mir) q)) as (img & R & H).
  exists img. split; [exact R|]. intros p I0 B. rewrite (H _).
  pose proof (spots_shown s b mir (records_of l n) p Fi S X Y I0) as SP. 
  assert (B' : below_records (set_bounds s b false mir) (records_of l n) p) by (intros [pos name] J D; exact (B pos name (proj1 (records_reachable l n pos name) J) D)).
  specialize (SP B'). split.
  - intros [_ N] Q. apply N. destruct Q as [(pos & name & J & D)|(pos & name & J & D)].
    + apply records_reachable in J. destruct (proj2 SP (ex_intro _ (pos, name) (conj J D))) as (r & Jr & K). exists r. split; [exact Jr|]. left. now apply spot_invert.
    + exists (pos, name). split; [now apply records_reachable|]. right. exact D.
  - intros N. split.
    + split; [reflexivity|]. exact (on_surface_at s b mir p S I0).
    + intros ([pos name] & J & [K|K]); apply N.
      * left. apply spot_invert in K. destruct (proj1 SP (ex_intro _ (pos, name) (conj J K))) as ([pos' name'] & J' & D). exists pos', name'. split; [now apply records_reachable|exact D].
      * right. exists pos, name. split; [now apply records_reachable|exact K].
Qed.
End Net.

Lemma one_reached l pos name : reachable l one_point pos name -> pos = (2, 2).
Proof. intros (q & a & [E|[]] & -> & _). injection E as <- _ _. unfold real_pt. cbn [fst snd]. now rewrite ShowExamples.real_zq. Qed.
Lemma one_reachable : reachable IpcModel.RTop one_point (2, 2) (T "A").
Proof. exists (zq 2, zq 2), IpcModel.AccBoth. split; [now left|]. split; [|now right]. unfold real_pt. cbn [fst snd]. now rewrite ShowExamples.real_zq. Qed.
Lemma not_in_place : ~ points_in_place.
Proof.
  intros H. set (none := fun (_ : list ascii) (_ : pt) (_ : pt) => False). set (b := ((1, 4), (1, 4))).
  destruct (H CairoMore.between none 1000 b false IpcModel.RTop one_point CairoMore.between_filling) as (img & R & E); [lra|cbn; lra..|].
  destruct (netlist_shown CairoMore.between none 1000 b false IpcModel.RTop one_point CairoMore.between_filling) as (img' & R' & E'); [lra|cbn; lra..|].
  assert (img' = img) by congruence. subst img'. assert (I0 : inside b (2, 2)) by (unfold inside; cbn; lra).
  assert (K : img (pixel 1000 b false (2, 2))).
  { apply E; [exact I0| |].
    - intros pos name P _. apply one_reached in P as ->. cbn. lra.
    - left. exists (2, 2), (T "A"). split; [exact one_reachable|]. unfold disc, dist2. cbn. lra. }
  apply E' in K; [|exact I0|].
  - destruct K as [(pos & name & P & D)|(pos & name & P & [])]. apply one_reached in P as ->. unfold disc, dist2 in D. cbn in D. lra.
  - intros pos name P D. apply one_reached in P as ->. unfold disc, dist2 in D. cbn in D. lra.
Qed.
