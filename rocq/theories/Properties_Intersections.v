(** C25 - C29, C47, C48: intersections. *)
From Coq Require Import String Ascii List Arith NArith ZArith Bool Lia Permutation Floats.SpecFloat.
From Verif Require Import Base BaseFacts Model_Issues Types Model_Intersections Spec_Colocation Spec_Intersections
  Proof_Intersections Proof_Intersections2 Proof_Intersections3 Proof_Intersections4 Proof_Intersections5.
Import ListNotations.
Open Scope list_scope.

(** C25: up to 256 vertices the fan is the fan of the polygon; beyond, the 8-bit range loses triangles *)
Theorem C25_fan_triangulates : forall polygon apex, 3 <= length polygon <= 256 -> apex < length polygon ->
  exists triangles positions, polygon_fan_triangles polygon apex = Ok triangles /\
    is_fan (length polygon) apex positions /\ Forall2 (triangle_at polygon) positions triangles.
Proof. exact fan_spec. Qed.
Print Assumptions C25_fan_triangulates.
Theorem C25_fan_loses_triangles : forall polygon apex, length polygon = 258 -> polygon_fan_triangles polygon apex = Ok [].
Proof. exact fan_258. Qed.
Print Assumptions C25_fan_loses_triangles.

(** C26 *)
Theorem C26_list_is_exact : forall px m candidates r, surface_intersecting_elements px m candidates r ->
  exists l, r = Ok l /\ lists_candidates (surface_pair_meets px m) candidates (ii_issues l).
Proof. exact surface_list. Qed.
Print Assumptions C26_list_is_exact.
(** the two queries may visit the candidates in different orders *)
Theorem C26_boolean_agrees : forall px m candidates r1 r2,
  mesh_has_self_intersections px m candidates r1 -> surface_intersecting_elements px m candidates r2 ->
  exists b l, r1 = Ok b /\ r2 = Ok l /\ (b = true <-> ii_issues l <> []).
Proof. exact surface_agree. Qed.
Print Assumptions C26_boolean_agrees.
(** nothing is missed when every pair of polygons that meet has meeting boxes, in one order or the other *)
Theorem C26_complete : forall px m candidates l,
  (forall p q, p < nb_polygons m -> q < nb_polygons m -> surface_pair_meets px m (p, q) -> In (p, q) candidates \/ In (q, p) candidates) ->
  (forall p q, surface_pair_meets px m (p, q) -> surface_pair_meets px m (q, p)) ->
  surface_intersecting_elements px m candidates (Ok l) ->
  forall p q, p < nb_polygons m -> q < nb_polygons m -> surface_pair_meets px m (p, q) -> In (p, q) (ii_issues l) \/ In (q, p) (ii_issues l).
Proof. exact surface_complete. Qed.
Print Assumptions C26_complete.
Theorem C26_queries_terminate : forall px m candidates,
  (exists r, surface_intersecting_elements px m candidates r) /\ (exists r, mesh_has_self_intersections px m candidates r).
Proof. exact surface_runs. Qed.
Print Assumptions C26_queries_terminate.

(** C27: an active surface without polygon silences everything *)
Theorem C27_empty_surface_silences : forall px m trees,
  (exists s, In s (m_surfaces m) /\ co_active s = true /\ nb_polygons (co_mesh s) = 0) ->
  (forall issues r, add_intersecting_surfaces_elements px m trees issues r -> r = Ok issues) /\
  (forall r, section_inspect_intersections px m trees r -> exists l, r = Ok l /\ ii_issues l = []) /\
  (forall lines r, brep_inspect_intersections px m trees lines r -> exists l, r = Ok l /\ ii_issues l = []) /\
  (forall r, inspect_surfaces_self_intersections px m trees r -> exists l, r = Ok l /\ ii_issues l = []) /\
  (forall r, model_has_intersecting_surfaces px m trees r -> r = Ok false).
Proof. exact empty_silences. Qed.
Print Assumptions C27_empty_surface_silences.
(** otherwise: first each active surface with itself, then each overlapping pair of surfaces *)
Theorem C27_report : forall px m trees r, intersections_ready px m trees -> no_empty_surface m ->
  section_inspect_intersections px m trees r ->
  exists l, r = Ok l /\ surfaces_report (fun s1 s2 => lists_candidates (surfaces_meet px m s1 s2)) m trees (ii_issues l) /\
    forall x, In x (ii_issues l) <->
      exists s1 s2 c, proposed m trees s1 s2 c /\ surfaces_meet px m s1 s2 c /\ x = (surface_element s1 (fst c), surface_element s2 (snd c)).
Proof. exact section_report. Qed.
Print Assumptions C27_report.
Theorem C27_boolean_agrees : forall px m trees r1 r2, intersections_ready px m trees ->
  model_has_intersecting_surfaces px m trees r1 -> section_inspect_intersections px m trees r2 ->
  exists b l, r1 = Ok b /\ r2 = Ok l /\ (b = true <-> ii_issues l <> []).
Proof. exact model_agree. Qed.
Print Assumptions C27_boolean_agrees.
(** the query for self intersections lists the pairs inside one surface, of the same candidates *)
Theorem C27_self_intersections : forall px m trees r, intersections_ready px m trees -> no_empty_surface m ->
  inspect_surfaces_self_intersections px m trees r ->
  exists l, r = Ok l /\ forall x, In x (ii_issues l) <->
    exists s1 s2 c, proposed m trees s1 s2 c /\ co_id s1 = co_id s2 /\ surfaces_meet px m s1 s2 c /\
      x = (surface_element s1 (fst c), surface_element s2 (snd c)).
Proof. exact self_report. Qed.
Print Assumptions C27_self_intersections.

Theorem C27_C48_queries_terminate : forall px m trees lines,
  (exists r, section_inspect_intersections px m trees r) /\ (exists r, brep_inspect_intersections px m trees lines r) /\
  (exists r, inspect_surfaces_self_intersections px m trees r) /\ (exists r, model_has_intersecting_surfaces px m trees r).
Proof. exact model_runs. Qed.
Print Assumptions C27_C48_queries_terminate.

(** C28 *)
Theorem C28_list_is_exact : forall px surface curve candidates r, triangulated surface -> edges_exist curve ->
  candidates_in_range (nb_polygons surface) (length (ec_edges curve)) candidates ->
  curve_intersecting_elements px surface curve candidates r ->
  exists l, r = Ok l /\ lists_candidates (curve_meets px surface curve) candidates (ii_issues l).
Proof. exact curve_list. Qed.
Print Assumptions C28_list_is_exact.
Theorem C28_boolean_agrees : forall px surface curve candidates r1 r2, triangulated surface -> edges_exist curve ->
  candidates_in_range (nb_polygons surface) (length (ec_edges curve)) candidates ->
  meshes_have_intersections px surface curve candidates r1 -> curve_intersecting_elements px surface curve candidates r2 ->
  exists b l, r1 = Ok b /\ r2 = Ok l /\ (b = true <-> ii_issues l <> []).
Proof. exact curve_agree. Qed.
Print Assumptions C28_boolean_agrees.
(** an edge that only ends at a vertex of the triangle is not listed *)
Theorem C28_contact_at_a_vertex : forall px surface curve c t s,
  sm_dimension surface <> 2 -> triangle_of surface (polygon_vertices surface (fst c)) t -> segment_of curve (snd c) s ->
  at_vertex (fst (px_segment_triangle px s t)) \/ fst (px_segment_triangle px s t) = Parallel -> at_vertex (snd (px_segment_triangle px s t)) ->
  (forall p, an_end s p -> px_point_triangle px p t = Outside \/ at_vertex (px_point_triangle px p t)) ->
  (forall p, an_end s p -> fst (px_segment_triangle px s t) = Parallel -> at_vertex (px_point_triangle px p t)) ->
  ~ curve_meets px surface curve c.
Proof. exact curve_vertex_contact. Qed.
Print Assumptions C28_contact_at_a_vertex.

(** C29: two polygons of a BRep or a Section *)
Theorem C29_polygons : forall px m s1 s2 p q, indices_in_range px -> (sm_dimension (co_mesh s1) = 2 -> readable m s1 s2) ->
  polygons_ready (co_mesh s1) -> polygons_ready (co_mesh s2) -> p < nb_polygons (co_mesh s1) -> q < nb_polygons (co_mesh s2) ->
  exists b, polygons_intersect px m s1 s2 p q = Ok b /\
    (b = true <-> polygons_meet s1 s2
      (if Nat.eqb (sm_dimension (co_mesh s1)) 2 then triangles_meet_2d px m s1 s2 snd else triangles_meet_3d px m s1 s2) p q).
Proof. exact polygons_decides. Qed.
Print Assumptions C29_polygons.
Theorem C29_small_polygons_never : forall px m s1 s2 p q,
  length (polygon_vertices (co_mesh s1) p) < 3 \/ length (polygon_vertices (co_mesh s2) q) < 3 ->
  polygons_intersect px m s1 s2 p q = Ok false.
Proof. exact small_never. Qed.
Print Assumptions C29_small_polygons_never.
(** whatever the geometry, all three vertices shared; two vertices without unique vertex count as shared *)
Theorem C29_three_shared_always : forall px m s1 s2 p q a b c t2,
  polygon_vertices (co_mesh s1) p = [a; b; c] -> polygon_vertices (co_mesh s2) q = t2 -> length t2 = 3 ->
  (forall v, In v [a; b; c] -> exists w, In w t2 /\ uv_of m s1 v = uv_of m s2 w) ->
  polygons_intersect px m s1 s2 p q = Ok true.
Proof. exact three_shared. Qed.
Print Assumptions C29_three_shared_always.
Theorem C29_unlinked_always : forall px m s1 s2 p q,
  length (polygon_vertices (co_mesh s1) p) = 3 -> length (polygon_vertices (co_mesh s2) q) = 3 ->
  (forall v, In v (polygon_vertices (co_mesh s1) p) -> uv_of m s1 v = None) ->
  (forall w, In w (polygon_vertices (co_mesh s2) q) -> uv_of m s2 w = None) ->
  polygons_intersect px m s1 s2 p q = Ok true.
Proof. exact unlinked_always. Qed.
Print Assumptions C29_unlinked_always.
(** a triangle of a Section inside another one without crossing its sides is not seen, wherever its points are *)
Theorem C29_section_inclusion_missed : forall px m s1 s2 p q t1 t2,
  sm_dimension (co_mesh s1) = 2 -> indices_in_range px -> polygons_ready (co_mesh s1) -> polygons_ready (co_mesh s2) -> readable m s1 s2 ->
  p < nb_polygons (co_mesh s1) -> q < nb_polygons (co_mesh s2) ->
  polygon_vertices (co_mesh s1) p = t1 -> polygon_vertices (co_mesh s2) q = t2 -> length t1 = 3 -> length t2 = 3 ->
  (forall v w, In v t1 -> In w t2 -> uv_of m s1 v <> uv_of m s2 w) ->
  (forall e1 e2 p1 q1 p2 q2, side t1 e1 -> side t2 e2 -> point_of (co_mesh s1) (fst e1) p1 -> point_of (co_mesh s1) (snd e1) q1 ->
     point_of (co_mesh s2) (fst e2) p2 -> point_of (co_mesh s2) (snd e2) q2 ->
     fst (px_segment_segment px (p1, q1) (p2, q2)) = Outside) ->
  polygons_intersect px m s1 s2 p q = Ok false.
Proof. exact inclusion_missed. Qed.
Print Assumptions C29_section_inclusion_missed.

(** C47: two common vertices in a Section.  The second one is read in the first mesh with its number in the second mesh *)
Theorem C47_out_of_range : forall px m s1 s2 t1 t2 a b,
  sm_dimension (co_mesh s1) = 2 -> common_vertices m s1 s2 t2 t1 [a; b] -> fst a < length (sm_points (co_mesh s1)) ->
  length (sm_points (co_mesh s1)) <= snd b -> triangles_intersection_detection px m s1 s2 t1 t2 = UB.
Proof. exact second_out_of_range. Qed.
Print Assumptions C47_out_of_range.
(** it is harmless when common vertices have the same number, as inside one surface *)
Theorem C47_same_numbers : forall px m s1 s2 t1 t2,
  (forall v w, In v t1 -> In w t2 -> uv_of m s1 v = uv_of m s2 w -> v = w) ->
  (triangles_meet_2d px m s1 s2 snd t1 t2 <-> triangles_meet_2d px m s1 s2 fst t1 t2).
Proof. exact same_numbers. Qed.
Print Assumptions C47_same_numbers.

(** C48: lines and surfaces of a BRep *)
Theorem C48_brep_report : forall px m trees lines r, intersections_ready px m trees -> line_trees_of m trees lines ->
  (forall l, In l (m_lines m) -> edges_exist (co_mesh l)) -> big_polygons m -> no_empty_surface m -> no_empty_line m ->
  brep_inspect_intersections px m trees lines r ->
  exists l surfaces_part lines_part, r = Ok l /\ ii_issues l = surfaces_part ++ lines_part /\
    surfaces_report (fun s1 s2 => lists_candidates (surfaces_meet px m s1 s2)) m trees surfaces_part /\
    forall x, In x lines_part <->
      exists s l c, proposed_line m trees lines s l c /\ embedded_in_block m (co_id l) /\
        line_meets px (co_mesh s) (co_mesh l) c /\ x = (surface_element s (fst c), line_element l (snd c)).
Proof. exact brep_report. Qed.
Print Assumptions C48_brep_report.
(** one active line without edge, or one active surface without polygon, and no line is tested *)
Theorem C48_empty_mesh_silences_lines : forall px m trees lines issues r,
  (exists s, In s (m_surfaces m) /\ co_active s = true /\ nb_polygons (co_mesh s) = 0) \/
  (exists l, In l (m_lines m) /\ co_active l = true /\ ec_edges (co_mesh l) = []) ->
  add_intersecting_lines_surfaces_elements px m trees lines issues r -> r = Ok issues.
Proof. exact empty_silences_lines. Qed.
Print Assumptions C48_empty_mesh_silences_lines.
(** the yes/no query does not look at lines *)
Theorem C48_boolean_ignores_lines : forall px m trees lines r1 r2, intersections_ready px m trees -> line_trees_of m trees lines ->
  (forall l, In l (m_lines m) -> edges_exist (co_mesh l)) -> big_polygons m -> no_empty_surface m -> no_empty_line m ->
  model_has_intersecting_surfaces px m trees r1 -> brep_inspect_intersections px m trees lines r2 ->
  exists b l surfaces_part lines_part, r1 = Ok b /\ r2 = Ok l /\ ii_issues l = surfaces_part ++ lines_part /\
    (b = true <-> surfaces_part <> []) /\
    (forall x, In x surfaces_part -> exists s1 s2 c, x = (surface_element s1 (fst c), surface_element s2 (snd c))) /\
    (forall x, In x lines_part -> exists s l c, x = (surface_element s (fst c), line_element l (snd c))).
Proof. exact boolean_ignores_lines. Qed.
Print Assumptions C48_boolean_ignores_lines.

(** ** Concrete instances: exact predicates on points with small integer coordinates *)
Definition coordinate (d : double) : Z := match d with S754_finite s m e => (if s then -1 else 1) * (Zpos m * 2 ^ e) | _ => 0 end%Z.
Definition xc (p : Point) (i : nat) : Z := coordinate (nth i p (S754_zero false)).
Definition pt (l : list Z) : Point := map (fun z => match z with Z0 => S754_zero false | Zpos p => S754_finite false p 0 | Zneg p => S754_finite true p 0 end) l.
Definition orient2 (a b c : Point) : Z :=
  Z.sgn ((xc b 0 - xc a 0) * (xc c 1 - xc a 1) - (xc b 1 - xc a 1) * (xc c 0 - xc a 0)).
Definition orient3 (a b c d : Point) : Z :=
  let u i := (xc b i - xc a i)%Z in let v i := (xc c i - xc a i)%Z in let w i := (xc d i - xc a i)%Z in
  Z.sgn (u 0%nat * (v 1%nat * w 2%nat - v 2%nat * w 1%nat) - u 1%nat * (v 0%nat * w 2%nat - v 2%nat * w 0%nat)
         + u 2%nat * (v 0%nat * w 1%nat - v 1%nat * w 0%nat)).
Definition on_segment (o0 o1 : Z) : Position := if Z.eqb o0 0 then Vertex0 else if Z.eqb o1 0 then Vertex1 else Inside.
Definition exact_segments (s t : Segment) : Position * Position :=
  let '(a, b) := s in let '(c, d) := t in
  let o1 := orient2 a b c in let o2 := orient2 a b d in let o3 := orient2 c d a in let o4 := orient2 c d b in
  if (Z.eqb o1 0 && Z.eqb o2 0) || (Z.eqb o3 0 && Z.eqb o4 0) then (Parallel, Parallel)
  else if Z.ltb 0 (o1 * o2) || Z.ltb 0 (o3 * o4) then (Outside, Outside)
  else (on_segment o3 o4, on_segment o1 o2).
Definition in_triangle (s0 s1 s2 : Z) : Position :=  (* signs with respect to the sides 0-1, 1-2, 2-0 *)
  if (Z.ltb (s0 * s1) 0 || Z.ltb (s1 * s2) 0 || Z.ltb (s2 * s0) 0)%bool then Outside
  else if Z.eqb s0 0 && Z.eqb s2 0 then Vertex0 else if Z.eqb s0 0 && Z.eqb s1 0 then Vertex1
  else if Z.eqb s1 0 && Z.eqb s2 0 then Vertex2 else if Z.eqb s0 0 then Edge0 else if Z.eqb s1 0 then Edge1
  else if Z.eqb s2 0 then Edge2 else Inside.
Definition exact_point (p : Point) (t : Triangle) : Position :=
  let '(a, b, c) := t in in_triangle (orient2 a b p) (orient2 b c p) (orient2 c a p).
Definition exact_triangle (s : Segment) (t : Triangle) : Position * Position :=
  let '(p, q) := s in let '(a, b, c) := t in
  let o1 := orient3 a b c p in let o2 := orient3 a b c q in
  if Z.eqb o1 0 && Z.eqb o2 0 then (Parallel, Parallel)
  else if Z.ltb 0 (o1 * o2) then (Outside, Outside)
  else match in_triangle (orient3 p q a b) (orient3 p q b c) (orient3 p q c a) with
       | Outside => (Outside, Outside)
       | q => (on_segment o1 o2, q)
       end.
Definition exact_px : Predicates :=
  mkPredicates exact_point exact_segments exact_triangle
    (fun q => match q with Vertex0 => Some 0 | Vertex1 => Some 1 | Vertex2 => Some 2 | _ => None end)
    (fun m l1 l2 => existsb (fun v => existsb (fun w => Nat.eqb v w) l2) l1).
Example exact_indices : indices_in_range exact_px.
Proof.
  assert (S : forall a b i, px_index exact_px (on_segment a b) = Some i -> i < 2).
  { intros a b i. unfold on_segment. destruct (Z.eqb a 0), (Z.eqb b 0); cbn; intros [= <-] || discriminate; lia. }
  split; [|split].
  - intros [a b] [c d] i. cbn [px_segment_segment exact_px exact_segments]. destruct (_ || _); [discriminate|]. destruct (_ || _); [discriminate|]. cbn [fst]. apply S.
  - intros [a b] [c d] i. cbn [px_segment_segment exact_px exact_segments]. destruct (_ || _); [discriminate|]. destruct (_ || _); [discriminate|]. cbn [snd]. apply S.
  - intros [a b] [[c d] e] i. cbn [px_segment_triangle exact_px exact_triangle]. destruct (_ && _); [discriminate|]. destruct (Z.ltb _ _); [discriminate|].
    unfold in_triangle. repeat (match goal with |- context[if ?b then _ else _] => destruct b end; try (cbn; intros [= <-] || discriminate; lia)).
Qed.
Definition ex_mesh (dim : nat) (points : list (list Z)) (polygons : list (list nat)) : SurfaceMesh :=
  mkSurface dim (map pt points) polygons (fun _ => None) [] (fun _ => false) (fun _ => S754_zero false) (fun _ => Ok []) (fun _ => false).
Definition ex_surfaces (meshes : list SurfaceMesh) (lines : list EdgedCurve) (uv : nat -> nat -> option nat) (internal : list (ComponentID * ComponentID)) : Model :=
  mkModel [] (map (fun c => mkComponent (fst c + 10) None true (snd c)) (enum lines))
    (map (fun c => mkComponent (fst c) None true (snd c)) (enum meshes)) [] [] []
    (fun c => uv (cid_id (cmv_component c)) (cmv_vertex c)) [] internal OpenGeodeExn (fun _ => ""%string) (fun _ => ""%string) (fun _ => ""%string) (fun _ => ""%string).

(** C47: two triangles of two surfaces on both sides of the edge (0,0)-(2,0), conformal, are reported because the second end
    of the edge is taken to be (1,2) *)
Definition sec1 := ex_mesh 2 [[0; 0]; [2; 0]; [1; 2]]%Z [[0; 1; 2]].
Definition sec2 := ex_mesh 2 [[1; -2]; [0; 0]; [2; 0]]%Z [[0; 1; 2]].
Definition sec_model := ex_surfaces [sec1; sec2] [] (fun s v => Some (match s with 0 => v | _ => nth v [3; 0; 1] 9 end)) [].
Definition sec_trees := mkTrees [0; 1] [(0, 1)] (fun _ => [(0, 0)]) (fun _ _ => [(0, 0)]).
Ltac check_all := repeat (split; [vm_compute; reflexivity|]); vm_compute; reflexivity.
Example C47_false_alarm :
  polygons_intersect exact_px sec_model (mkComponent 0 None true sec1) (mkComponent 1 None true sec2) 0 0 = Ok true /\
  ~ triangles_meet_2d exact_px sec_model (mkComponent 0 None true sec1) (mkComponent 1 None true sec2) fst [0; 1; 2] [0; 1; 2].
Proof.
  split; [vm_compute; reflexivity|]. intros K.
  set (s1 := mkComponent 0 None true sec1) in *. set (s2 := mkComponent 1 None true sec2) in *.
  pose proof (common_spec sec_model s1 s2 [0; 1; 2] [0; 1; 2]) as Hc. vm_compute in Hc.
  destruct K as [c Hc' L|a b v w pa pb pv pw T1 T2 Hc' Hv Hw Ha Hb Hpv Hpw HT1 HT2 H|c e1 e2 p1 q1 p2 q2 Hc' L].
  - rewrite <- (common_fun _ _ _ _ _ _ _ Hc Hc') in L. discriminate L.
  - pose proof (common_fun _ _ _ _ _ _ _ Hc Hc') as E. injection E as <- <-.
    assert (v = 2) as -> by (eapply third_fun; [exact Hv|]; exists [0; 1], []; cbn; split; [reflexivity|]; intuition lia).
    assert (w = 0) as -> by (eapply third_fun; [exact Hw|]; exists [], [1; 2]; cbn; split; [reflexivity|]; intuition lia).
    vm_compute in Ha, Hb, Hpv, Hpw. injection Ha as <-. injection Hb as <-. injection Hpv as <-. injection Hpw as <-.
    destruct HT1 as (a1 & b1 & c1 & E1 & A1 & B1 & C1). injection E1 as <- <- <-. destruct HT2 as (a2 & b2 & c2 & E2 & A2 & B2 & C2). injection E2 as <- <- <-.
    destruct T1 as [[? ?] ?], T2 as [[? ?] ?]. vm_compute in A1, B1, C1, A2, B2, C2. injection A1 as <-. injection B1 as <-. injection C1 as <-.
    injection A2 as <-. injection B2 as <-. injection C2 as <-. destruct H as [H|[H|[H|H]]]; apply H; vm_compute; reflexivity.
  - rewrite <- (common_fun _ _ _ _ _ _ _ Hc Hc') in L. cbn in L. lia.
Qed.
(** the second end has number 3 in the second mesh: there is no such point in the first one *)
Definition sec3 := ex_mesh 2 [[1; -2]; [0; 0]; [5; 5]; [2; 0]]%Z [[0; 1; 3]].
Example C47_out_of_range_example :
  polygons_intersect exact_px (ex_surfaces [sec1; sec3] [] (fun s v => Some (match s with 0 => v | _ => nth v [3; 0; 8; 1] 9 end)) [])
    (mkComponent 0 None true sec1) (mkComponent 1 None true sec3) 0 0 = UB.
Proof. vm_compute. reflexivity. Qed.
(** C29: a triangle inside another one is not reported by a Section *)
Definition sec_in := ex_mesh 2 [[4; 4]; [5; 4]; [4; 5]]%Z [[0; 1; 2]].
Definition sec_out := ex_mesh 2 [[0; 0]; [20; 0]; [0; 20]]%Z [[0; 1; 2]].
Example C29_inclusion_example :
  let m := ex_surfaces [sec_in; sec_out] [] (fun s v => Some (3 * s + v)) [] in
  polygons_intersect exact_px m (mkComponent 0 None true sec_in) (mkComponent 1 None true sec_out) 0 0 = Ok false /\
  (forall p, In p (sm_points sec_in) -> exact_point p (pt [0; 0], pt [20; 0], pt [0; 20])%Z = Inside).
Proof. split; [vm_compute; reflexivity|]. intros p Hp. cbn in Hp. repeat (destruct Hp as [<-|Hp]; [vm_compute; reflexivity|]). destruct Hp. Qed.

(** a BRep: two crossing triangles, a quadrangle sharing an edge with the first one, and a line through the first triangle *)
Definition br1 := ex_mesh 3 [[0; 0; 0]; [4; 0; 0]; [0; 4; 0]; [4; -4; 2]; [0; -4; 1]]%Z [[0; 1; 2]; [1; 0; 4; 3]].
Definition br2 := ex_mesh 3 [[1; 1; -1]; [1; 1; 1]; [9; 9; 0]]%Z [[0; 1; 2]].
Definition br_line := mkCurve (map pt [[1; 1; -3]; [1; 1; 3]; [1; 1; 9]]%Z) [(0, 1); (1, 2)] (fun _ => S754_zero false) (fun _ => false).
Definition br_model := ex_surfaces [br1; br2] [br_line; br_line] (fun s v => Some (8 * s + v)) [(mkCID LineT 10, mkCID BlockT 99)].
Definition br_trees := mkTrees [1; 0] [(1, 0)] (fun i => match i with 0 => [(0, 0)] | _ => [(0, 1); (0, 0); (1, 1)] end)
  (fun i j => match i with 1 => [(1, 0); (0, 0)] | _ => [(0, 0)] end).
Definition br_lines := mkLineTrees [11; 10] (fun i j => match i with 1 => [(0, 0); (0, 1); (1, 0)] | _ => [(0, 0)] end).
Example br_ready : intersections_ready exact_px br_model br_trees /\ line_trees_of br_model br_trees br_lines /\
  (forall l, In l (m_lines br_model) -> edges_exist (co_mesh l)) /\ big_polygons br_model /\ no_empty_surface br_model /\ no_empty_line br_model.
Proof.
  assert (SS : forall s, In s (m_surfaces br_model) -> s = mkComponent 0 None true br1 \/ s = mkComponent 1 None true br2).
  { intros s [<-|[<-|[]]]; [left|right]; reflexivity. }
  assert (LL : forall l, In l (m_lines br_model) -> l = mkComponent 10 None true br_line \/ l = mkComponent 11 None true br_line).
  { intros l [<-|[<-|[]]]; [left|right]; reflexivity. }
  split; [|split; [|split; [|split; [|split]]]].
  - constructor.
    + repeat constructor; cbn; intuition discriminate.
    + constructor.
      * repeat constructor; cbn; intuition discriminate.
      * intros id [<-|[<-|[]]]; [exists (mkComponent 1 None true br2)|exists (mkComponent 0 None true br1)]; cbn; auto.
      * intros s Hs _. destruct (SS s Hs) as [->| ->]; cbn; auto.
      * intros i j [[= <- <-]|[]]. cbn. lia.
      * intros s i Hs Hi p q Hpq. destruct (SS s Hs) as [->| ->]; destruct i as [|[|[|i]]]; try discriminate Hi; cbn in *;
          repeat (destruct Hpq as [Hpq|Hpq]; [injection Hpq as <- <-; lia|]); try destruct Hpq.
      * intros s1 s2 i j H1 H2 E1 E2 p q Hpq. destruct (SS s1 H1) as [->| ->], (SS s2 H2) as [->| ->]; destruct i as [|[|[|i]]]; try discriminate E1;
          destruct j as [|[|[|j]]]; try discriminate E2; cbn in *.
        all: repeat (destruct Hpq as [Hpq|Hpq]; [injection Hpq as <- <-; lia|]); try destruct Hpq.
    + intros s Hs p Hp. destruct (SS s Hs) as [->| ->]; cbn in Hp; destruct p as [|[|p]]; try lia; cbn;
        (split; [repeat constructor; cbn; intuition discriminate|split; [intuition lia|lia]]).
    + exact exact_indices.
    + intros s Hs. destruct (SS s Hs) as [->| ->]; discriminate.
  - constructor.
    + repeat constructor; cbn; intuition discriminate.
    + intros l Hl _. destruct (LL l Hl) as [->| ->]; cbn; auto.
    + intros s l i j Hs Hl Ei Ej p q Hpq. destruct (SS s Hs) as [->| ->], (LL l Hl) as [->| ->]; destruct i as [|[|[|i]]]; try discriminate Ei; cbn in *;
        repeat (destruct Hpq as [Hpq|Hpq]; [injection Hpq as <- <-; lia|]); try destruct Hpq.
  - intros l Hl e He. destruct (LL l Hl) as [->| ->]; cbn in He; destruct e as [|[|e]]; try lia; eexists (_, _); eexists _, _; cbn; repeat split; reflexivity.
  - intros s p Hs Hp. destruct (SS s Hs) as [->| ->]; cbn in Hp; destruct p as [|[|p]]; try lia; cbn; lia.
  - intros s Hs _. destruct (SS s Hs) as [->| ->]; discriminate.
  - intros l Hl _. destruct (LL l Hl) as [->| ->]; discriminate.
Qed.
Example br_found : forall r, brep_inspect_intersections exact_px br_model br_trees br_lines r ->
  exists l, r = Ok l /\ forall x, In x (ii_issues l) <->
    x = ((mkCID SurfaceT 0, 0), (mkCID SurfaceT 1, 0)) \/ x = ((mkCID SurfaceT 0, 0), (mkCID LineT 10, 0)).
Proof.
  intros r H. destruct br_ready as (R & LT & LE & Big & Hne & Hnl).
  destruct (brep_report _ _ _ _ _ R LT LE Big Hne Hnl H) as (l & sp & lp & -> & E & HR & HL). exists l. split; [reflexivity|]. intros x. rewrite E, in_app_iff, HL.
  pose proof (all_members exact_px br_model br_trees R sp HR x) as HS. rewrite HS. clear HS HR HL E sp lp.
  set (A := mkComponent 0 None true br1). set (B := mkComponent 1 None true br2).
  assert (SS : forall s, In s (m_surfaces br_model) -> s = A \/ s = B) by (intros s [<-|[<-|[]]]; [left|right]; reflexivity).
  assert (LL : forall l, In l (m_lines br_model) -> l = mkComponent 10 None true br_line \/ l = mkComponent 11 None true br_line) by (intros s [<-|[<-|[]]]; [left|right]; reflexivity).
  assert (HA : In A (m_surfaces br_model)) by (left; reflexivity). assert (HB : In B (m_surfaces br_model)) by (right; left; reflexivity).
  assert (D : forall s1 s2 p q, In s1 (m_surfaces br_model) -> In s2 (m_surfaces br_model) -> p < nb_polygons (co_mesh s1) -> q < nb_polygons (co_mesh s2) ->
     exists b, polygons_intersect exact_px br_model s1 s2 p q = Ok b /\ (b = true <-> polygons_meet s1 s2 (meet2 exact_px br_model s1 s2) p q)).
  { intros s1 s2 p q H1 H2 Hp Hq. apply polygons_decides; try assumption; [exact exact_indices| |apply (ir_surfaces _ _ _ R); assumption..].
    intros E. destruct (SS s1 H1) as [->| ->]; discriminate E. }
  split.
  - intros [(s1 & s2 & c & P & (Hd & M) & ->)|(s & l' & c & (Hs & _ & Hl & _ & i & j & Ei & Ej & Hc) & (t & b & Hemb) & M & ->)].
    + left. fold (meet2 exact_px br_model s1 s2) in M. destruct P as [(-> & Hs & _ & i & Ei & Hc)|(H1 & H2 & i & j & Hij & E1 & E2 & Hc)].
      * destruct (SS s2 Hs) as [->| ->]; destruct i as [|[|[|i]]]; try discriminate Ei; cbn in Hc;
          repeat (destruct Hc as [<-|Hc]; [try (contradict Hd; split; reflexivity)|]); try destruct Hc.
        destruct (D A A 0 1 HA HA) as (b & Eb & Hb); [cbn; lia..|]. vm_compute in Eb. injection Eb as <-. discriminate (proj2 Hb M).
      * destruct Hij as [[= <- <-]|[]]. destruct (SS s1 H1) as [->| ->]; [|discriminate E1]. destruct (SS s2 H2) as [->| ->]; [discriminate E2|].
        cbn in Hc. destruct Hc as [<-|[<-|[]]]; [|reflexivity].
        destruct (D A B 1 0 HA HB) as (b & Eb & Hb); [cbn; lia..|]. vm_compute in Eb. injection Eb as <-. discriminate (proj2 Hb M).
    + right. destruct Hemb as [[= _ E _]|[]]. destruct (LL l' Hl) as [->| ->]; [|discriminate E]. clear E. destruct (SS s Hs) as [->| ->].
      * destruct i as [|[|[|i]]]; try discriminate Ei. assert (Hc' : In c [(0, 0); (0, 1); (1, 0)]) by exact Hc.
        assert (LD : forall c, fst c < 2 -> snd c < 2 -> decides (polygon_edge_intersect exact_px br1 br_line) (line_meets exact_px br1 br_line) c).
        { intros c0 Hp Hq. apply (line_pair_decides exact_px br_model br_trees R LE A (mkComponent 10 None true br_line));
            [exact HA|left; reflexivity|apply (Big A); [exact HA|exact Hp]|exact Hp|exact Hq]. }
        destruct Hc' as [<-|[<-|[<-|[]]]]; [reflexivity| |].
        -- destruct (LD (0, 1)) as (b0 & Eb & Hb); [cbn; lia..|]. vm_compute in Eb. injection Eb as <-. discriminate (proj2 Hb M).
        -- destruct (LD (1, 0)) as (b0 & Eb & Hb); [cbn; lia..|]. vm_compute in Eb. injection Eb as <-. discriminate (proj2 Hb M).
      * destruct i as [|[|[|i]]]; try discriminate Ei. assert (Hc' : In c [(0, 0)]) by exact Hc. destruct Hc' as [<-|[]].
        destruct (line_pair_decides exact_px br_model br_trees R LE B (mkComponent 10 None true br_line) (0, 0)) as (b0 & Eb & Hb);
          [exact HB|left; reflexivity|cbn; lia..|]. vm_compute in Eb. injection Eb as <-. discriminate (proj2 Hb M).
  - intros [->| ->].
    + left. exists A, B, (0, 0). split; [|split; [|reflexivity]].
      * right. split; [exact HA|]. split; [exact HB|]. exists 1, 0. cbn. auto 8.
      * split; [intros [E _]; discriminate E|]. destruct (D A B 0 0 HA HB) as (b & Eb & Hb); [cbn; lia..|]. apply Hb. vm_compute in Eb. congruence.
    + right. exists A, (mkComponent 10 None true br_line), (0, 0). split; [|split; [exists LineT, 99; left; reflexivity|split; [|reflexivity]]].
      * split; [exact HA|]. split; [reflexivity|]. split; [left; reflexivity|]. split; [reflexivity|]. exists 1, 1. cbn. auto 8.
      * destruct (line_pair_decides exact_px br_model br_trees R LE A (mkComponent 10 None true br_line) (0, 0)) as (b0 & Eb & Hb);
          [exact HA|left; reflexivity|cbn; lia..|]. apply Hb. vm_compute in Eb. congruence.
Qed.
