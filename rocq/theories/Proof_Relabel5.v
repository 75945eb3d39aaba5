(** Unique vertices numbered in another way: intersections. *)
From Coq Require Import String Ascii List Arith NArith ZArith Bool Lia Permutation.
From Verif Require Import Base BaseFacts Model_Issues Types Model_Intersections Model_Topology Spec_Colocation Spec_Renumber Spec_Relabel
  Proof_Order Proof_Colocation Proof_Renumber Proof_Relabel.
Import ListNotations.
Open Scope list_scope.

Lemma traverses_alike : forall S (act act' : S -> nat * nat -> outcome (S * bool)), (forall s c, act' s c = act s c) ->
  forall fl cands s r, traverses act fl cands s r -> traverses act' fl cands s r.
Proof.
  intros S act act' E fl cands s r T. induction T as [fl s|cands s|fl cands c rest s s' b r P A T IH|fl cands c rest s e P A|fl cands c rest s P A].
  - apply tr_all_visited.
  - apply tr_stopped.
  - apply (tr_visit act' fl cands c rest s s' b r P); [rewrite E; exact A|exact IH].
  - apply (tr_raise act' fl cands c rest s e P). rewrite E. exact A.
  - apply (tr_undefined act' fl cands c rest s P). rewrite E. exact A.
Qed.
Lemma Forall2_iff : forall A B (P Q : A -> B -> Prop) l k, (forall a b, P a b <-> Q a b) -> (Forall2 P l k <-> Forall2 Q l k).
Proof. intros A B P Q l k E. split; intros F; induction F; constructor; try assumption; apply E; assumption. Qed.
Section Intersections.
Context (f : nat -> nat) (m : Model) (cmvs : list (list ComponentMeshVertex)) (back : ComponentMeshVertex -> option nat).
Notation m' := (relink m cmvs back).
Context (N : numbers (nb_unique_vertices m) f).
Context (BK : forall c, back c = option_map f (m_unique_vertex m c)) (RG : forall c uv, m_unique_vertex m c = Some uv -> uv < nb_unique_vertices m).
Context (px : Predicates) (trees : Trees).
Lemma r_common : forall s1 s2 t1 t2, triangles_common_vertices m' s1 s2 t1 t2 = triangles_common_vertices m s1 s2 t1 t2.
Proof.
  intros s1 s2 t1 t2. unfold triangles_common_vertices. apply flat_map_ext. intros v1.
  assert (E : forall t, find (fun v2 => same_unique_vertex (surface_vertex m' s1 v1) (surface_vertex m' s2 v2)) t = find (fun v2 => same_unique_vertex (surface_vertex m s1 v1) (surface_vertex m s2 v2)) t).
  { induction t as [|v2 t IH]; [reflexivity|]. cbn [find]. rewrite IH. apply if_eq; [|reflexivity|reflexivity]. apply (back_eqb f m back N BK RG). }
  rewrite E. reflexivity.
Qed.
Lemma r_hit : forall s1 s2 a c, surfaces_hit px m' s1 s2 a c = surfaces_hit px m s1 s2 a c.
Proof.
  intros s1 s2 a c.
  assert (D : forall t1 t2, triangles_intersection_detection px m' s1 s2 t1 t2 = triangles_intersection_detection px m s1 s2 t1 t2).
  { intros t1 t2. unfold triangles_intersection_detection. rewrite r_common. reflexivity. }
  assert (P : forall p q, polygons_intersect px m' s1 s2 p q = polygons_intersect px m s1 s2 p q).
  { intros p q. unfold polygons_intersect. apply if_eq; [reflexivity|reflexivity|]. apply if_eq; [reflexivity|apply D|].
    apply bind_eq; [reflexivity|]. intros k1. apply bind_eq; [reflexivity|]. intros k2. apply anyM_eq; [reflexivity|]. intros t1. apply anyM_eq; [reflexivity|]. intros t2. apply D. }
  unfold surfaces_hit. rewrite P. reflexivity.
Qed.
Lemma r_action : forall s1 s2 a s c, surfaces_action px m' s1 s2 a s c = surfaces_action px m s1 s2 a s c.
Proof. intros. unfold surfaces_action, record_action. rewrite r_hit. reflexivity. Qed.
Lemma r_pair_task : forall a s1 s2 cands r, pair_task px m' a s1 s2 cands r <-> pair_task px m a s1 s2 cands r.
Proof.
  intros a s1 s2 cands r. unfold pair_task. split; intros (found & T & E); exists found; (split; [|exact E]).
  - apply (traverses_alike _ (surfaces_action px m' s1 s2 a)); [|exact T]. intros s c. symmetry. apply r_action.
  - apply (traverses_alike _ (surfaces_action px m s1 s2 a)); [|exact T]. intros s c. apply r_action.
Qed.
Lemma r_self_task : forall a s r, self_task px m' trees a s r <-> self_task px m trees a s r.
Proof.
  intros a s r. unfold self_task. change (get_surface m' (co_id s)) with (get_surface m (co_id s)). destruct (get_surface m (co_id s)); [|reflexivity|reflexivity].
  destruct (mesh_tree_id (tr_uuids trees) (co_id s)); [apply r_pair_task|reflexivity|reflexivity].
Qed.
Lemma r_overlap_task : forall a c r, overlap_task px m' trees a c r <-> overlap_task px m trees a c r.
Proof.
  intros a c r. unfold overlap_task.
  change (let! id1 := at_index (tr_uuids trees) (fst c) in let! id2 := at_index (tr_uuids trees) (snd c) in let! s1 := get_surface m' id1 in let! s2 := get_surface m' id2 in Ok (s1, s2))
    with (let! id1 := at_index (tr_uuids trees) (fst c) in let! id2 := at_index (tr_uuids trees) (snd c) in let! s1 := get_surface m id1 in let! s2 := get_surface m id2 in Ok (s1, s2)).
  match goal with |- match ?x with _ => _ end <-> _ => destruct x as [[s1 s2]|e|] end; [apply r_pair_task|reflexivity|reflexivity].
Qed.
Lemma r_polygons : forall a r, intersecting_polygons px m' trees a r <-> intersecting_polygons px m trees a r.
Proof.
  intros a r. unfold intersecting_polygons. cbn [m_surfaces relink]. destruct (existsb _ (active (m_surfaces m))); [reflexivity|].
  split; intros (rs & os & ors & F1 & T & F2 & E); exists rs, os, ors; (split; [apply (Forall2_iff _ _ _ _ _ _ (r_self_task a)), F1|split; [exact T|split; [apply (Forall2_iff _ _ _ _ _ _ (r_overlap_task a)), F2|exact E]]]).
Qed.
Lemma r_surfaces_elements : forall i r, add_intersecting_surfaces_elements px m' trees i r <-> add_intersecting_surfaces_elements px m trees i r.
Proof. intros i r. split; intros (found & P & E); exists found; (split; [apply r_polygons, P|exact E]). Qed.
Lemma r_section_intersections : forall r, section_inspect_intersections px m' trees r <-> section_inspect_intersections px m trees r.
Proof. intros r. apply r_surfaces_elements. Qed.
Lemma r_self_intersections : forall r, inspect_surfaces_self_intersections px m' trees r <-> inspect_surfaces_self_intersections px m trees r.
Proof. intros r. split; intros (found & P & E); exists found; (split; [apply r_polygons, P|exact E]). Qed.
Lemma r_brep_intersections : forall lines r, brep_inspect_intersections px m' trees lines r <-> brep_inspect_intersections px m trees lines r.
Proof. intros lines r. split; intros (r1 & P & K); exists r1; (split; [apply r_surfaces_elements, P|exact K]). Qed.
End Intersections.
