# Formal model of OpenGeode-Inspector in Rocq (Coq 8.16.1)

This file says what is modelled, how each property of `properties.jsonl` is stated and
proved, and what the result rests on.  It is updated as the model grows.

## 1. Method

* The model is executable Gallina, one definition per C++ function (or per loop body), each with a
  comment `(* file:lines *)` naming the code it follows and every simplification made.
* Everything that lives in *other* libraries (OpenGeode meshes, geometry predicates, AABB tree,
  nearest-neighbour search, turn-around-vertex queries, ray tracing) is an *oracle*: a record field or
  function argument of the model.  Theorems quantify over all oracles; when a contract of the oracle is
  needed it is a visible hypothesis of the theorem.
* Exceptions are an explicit outcome (`Throw OpenGeodeExn | Throw OtherExn`), undefined behaviour is a
  distinct outcome (`UB`); neither is ever identified with a normal result.
* Integers: `index_t` counts that are summed or truncated by the code go through `u32` (mod 2^32) and the
  8-bit counter of the edge-manifold map through `u8` (mod 2^8).  Mesh/vertex indices themselves are `nat`
  with `NO_ID` modelled as `None`.
* Doubles are `spec_float` of the standard library (`Coq.Floats.SpecFloat`, pure inductive type, no axiom),
  compared by `SFltb`/`SFleb`, i.e. with IEEE NaN/infinity/zero behaviour.
* Containers: `std::vector` = `list`; `flat_hash_map` = association list in insertion order; every loop over a
  hash map visits it in the order chosen by an arbitrary permutation (`HashOrder`, quantified in the theorems), in
  the texts of the reports too. (Simplification: two maps with the same insertion history are visited in the same order.)
* Parallelism: `async::parallel_invoke` and `async::spawn` are modelled by arbitrary interleavings.
* When the code violates the natural property, the violation is a theorem `*_refuted` with a concrete
  witness, and the exact guarantee that remains is proved.

File layout (`rocq/theories`): `Base.v`, `Types.v` (outcomes, wraps, list loops, the data of meshes and models),
`Model_*.v` (the code), `Spec_*.v` (small independent specifications; a reader should only need these and the
statements), `Proof_*.v` (lemmas), `Properties_*.v` (the property theorems, `Print Assumptions`, and concrete
non-trivial instances of their hypotheses, as `Example`s).

| theme | model | specification | theorems |
|-------|-------|---------------|----------|
| issue lists and maps | Model_Issues | Spec_Issues | Properties_Issues (C01-C03) |
| colocation | Model_Colocation | Spec_Colocation | Properties_Colocation (C04-C08) |
| adjacency | Model_Adjacency | Spec_Adjacency | Properties_Adjacency (C09-C12, C44) |
| manifold | Model_Hash, Model_Cycles, Model_Manifold | Spec_Manifold, Spec_Cycles, Spec_Maps | Properties_Manifold (C13-C18, C44) |
| degeneration, negative elements | Model_Degeneration, Model_Negative | Spec_Degeneration, Spec_Negative | Properties_Degeneration (C19-C24) |
| intersections | Model_Intersections | Spec_Intersections | Properties_Intersections (C25-C29, C47, C48) |
| topology of Sections | Model_Topology | Spec_Topology | Properties_Topology (C35, C38, C45, C49) |
| topology of BReps | Model_BRep, Model_Blocks | Spec_BRep, Spec_Blocks, Spec_Fusion | Properties_BRep, Properties_Blocks, Properties_Fusion (C36, C37, C39-C43, C46, C50-C56, C65) |
| result objects, counts, texts, validity | Model_Results, Model_Validity | Spec_Results | Properties_Results (C30-C32, C57) |
| whole-object validity | all of the above | Spec_Valid, Spec_ValidModels | Properties_Valid, Properties_ValidModels (C58-C60) |
| concurrency | Model_Parallel, Model_ParallelInspectors | Spec_Parallel | Properties_Parallel (C33, C34) |
| messages | all of the above | Spec_Messages, Spec_TopologyMessages | Properties_Messages, Properties_TopologyMessages (C61-C63) |
| reproducibility | all of the above | Spec_Reproducible | Properties_Reproducible (C66) |
| absence of undefined behaviour | all of the above | Spec_Safe | Properties_Safe (C67) |
| inactive components | inspections of meshes, intersections | Spec_Inactive | Properties_Inactive (C68) |
| fans around vertices and edges | Model_Manifold | Spec_Fans | Properties_Fans (C69) |
| storage order of components | Model_* (all model inspections) | Spec_Order | Properties_Order (C70) |
| order of surfaces in intersection tests | Model_Intersections | Spec_Symmetry | Properties_Symmetry (C71) |
| components of a model against their meshes alone | Model_Results | Spec_Components | Properties_Components (C72) |
| renumbered meshes | Model_Results | Spec_Renumber | Properties_Renumber (C73) |
| topology verdict on one unique vertex | Model_Topology, Model_BRep, Model_Blocks | Spec_Local | Properties_Local (C74) |
| other numbers of the unique vertices, in all reports of models | Model_Results, Model_Validity and all the criteria | Spec_Relabel | Properties_Relabel (C75) |
| other identifiers of the components, in all reports of models | Model_Results, Model_Validity and all the criteria | Spec_Rename | Properties_Rename (C76) |
| BRep surface intersections in real space, exact predicates | Model_Intersections | Spec_Geometry | Properties_Geometry (C77) |
| Section surface intersections in the real plane, exact predicates | Model_Intersections | Spec_Geometry, Spec_Geometry2 | Properties_Geometry2 (C78) |
| Line/surface and curve/surface intersections in real space and plane, predicates that locate contacts | Model_Intersections | Spec_Geometry, Spec_Geometry3 | Properties_Geometry3 (C79, C80) |
| Valid BReps in real space | Model_Validity, Model_Intersections | Spec_Geometry4, Spec_ValidModels | Properties_Geometry4 (C81) |
| Valid Sections in the real plane | Model_Validity, Model_Intersections | Spec_Geometry5, Spec_ValidModels | Properties_Geometry5 (C82) |
| Other descriptions of a model | Model_Results, Model_Validity | Spec_Described, Spec_Order, Spec_Rename, Spec_Relabel | Properties_Described (C83) |
| Python view of the reports | Model_Python | Spec_Python | Properties_Python (C84, C85) |
| Moved objects | (all of the above) | Spec_Moved | Properties_Moved (C86) |
| Affine images | Model_Intersections | Spec_Affine | Properties_Affine (C87) |
| Example program | Model_Example | Spec_Example | Properties_Example (C88) |
| Pieces of a mesh | (the models of the meshes and reports) | Spec_Pieces | Properties_Pieces (C89) |
| Descriptions of polygons | (the models of surfaces and reports) | Spec_Redescribe | Properties_Redescribe (C90) |
| Descriptions of polyhedra | (the models of solids and reports) | Spec_RedescribeSolid | Properties_RedescribeSolid (C91) |
| Parts of model reports | (the models of Sections, BReps and reports) | Spec_Parts | Properties_Parts (C92) |
| Sections side by side | (the topology of Sections) | Spec_Beside | Properties_Beside (C93) |
| command line programs | Model_Programs | Spec_Programs | Properties_Programs (C64) |

## 2. Plan per property

All 93 properties are expressible in the model.  "Refuted" marks the properties whose natural reading is false of the
code: a theorem exhibits the violation on a concrete input and other theorems give exactly what remains true.

| id | modelled | how it is proved |
|----|----------|-------|
| C01-C03 | InspectionIssues / InspectionIssuesMap as records, histories as lists of calls | induction on histories; witness of length 2^32 for the count (refuted: `nb_issues` is taken modulo 2^32) |
| C04, C05 | bucket loop over an arbitrary colocation mapping | bucket invariant; pigeonhole for C05; a mapping out of range is UB |
| C06 | the filter with its marker array, literally (incl. off-by-one) | loop invariants on the marker array; refuted witness for "one representative per unique vertex" |
| C07, C08 | model with links, activity, point oracle; point-set compaction | list induction, back-mapping lemma |
| C09, C10 | polygon/polyhedron adjacency tables | direct, forallb/existsb characterisations |
| C11, C12, C44 | models with components, unique vertices | membership characterisations; exceptions of the lookup counted as reports, as the code does |
| C13, C17 | occurrence maps with u8/u32 counters | count invariant of map insertion; witness of 257 uses (C13) |
| C14-C16 | turn-around oracle with exceptions | permutation/inclusion lemma (pigeonhole); C15/C16 say which failures escape |
| C18 | model edge and facet maps | count invariant |
| C19-C21, C24 | lists filtered by double comparisons (`spec_float`) | filter lemmas, transitivity of IEEE comparison, NaN cases |
| C22 | edge-storage state machine | invariant over call histories |
| C23 | spawning loop + tasks, loop variable with lifetime | schedule witness (UB) and invariance proof for the schedules that avoid it |
| C25, C29, C47 | fan triangulation with 8-bit indices, common vertices | arithmetic mod 256; witnesses for polygons of 258 vertices and different numberings |
| C26-C28, C48 | AABB candidate traversal as an arbitrary order over an arbitrary candidate list, One/All actions | induction over the traversal; silencing by an empty mesh proved in general |
| C30-C32, C57 | all result records, nb_issues, string, validity | arithmetic mod 2^32, case analysis; witnesses for the two forgotten categories |
| C33, C34 | small-step interleaving semantics of fork/join task trees with private slots and exceptions | commutation / invariant over every schedule; C34 shows which exceptions are swallowed |
| C35-C39, C45, C49-C53 | BRep/Section topology inspectors in an exception monad | loop characterisations; witnesses |
| C40-C43, C54-C56 | queue algorithm, pruning graph, block checks | invariants, measure, reachability, greatest fixpoint |
| C46 | u32 arithmetic of the prediction | Z mod arithmetic; exact under a bound on the sizes |
| C58-C60 | the `is_*_valid` functions | composition of the theorems above: valid iff every (independently written) condition holds |
| C61-C63 | the texts of all messages | for every issue list of every inspector, an invariant "message i describes issue i" through all loops; C63 refuted: an announced number can be 4294967295 |
| C64 | the eleven `main` functions | case analysis on loading, then C58-C62; refuted: a BRep with only wrong facets prints the clean text |
| C65 | the loop fusing surfaces, with its mapping from unique vertices | invariant over the visited polygon vertices; the glued surface is specified by a relation proved functional |
| C66 | two runs of the inspectors with two hash orders and two traversals | a relation between runs (permuted pairs) preserved by every loop; texts compared as multisets of lines |
| C67 | every partial operation of the model (`UB`: index out of range, front of an empty queue, modulo 0, non-terminating loop) | definedness is propagated through every loop; loops with fuel by a measure; links read before being checked by a forced failure, for each of the five conditions |
| C68 | the whole inspections of meshes and the intersection searches, run on two models that agree on their active components | equality of the runs, loop by loop; identifiers gathered on the way are those of active components (refuted for borders and topology: two pairs of concrete models) |
| C69 | the vertex and solid edge inspections, with the contract that turning around meets exactly the elements linked to its starting point | equivalence closure of the step through an edge or a facet: a fan is incomplete iff some two elements are not linked; uniqueness of sorted lists for the independence of the start |
| C70 | all inspections and queries of Section and BRep, on two models whose component lists are permutations of each other | functions that find components by identifier are equal; loops over components commute step by step, so permuting them permutes the entries; surfaces that cannot bound blocks and dangling surfaces (whose search follows the order) are sets independent of it |
| C71 (refuted for Sections) | the intersection tests with their two surfaces exchanged | the common vertices seen from both sides are the same pairs swapped; each clause of the meeting relation goes to its mirror clause, using symmetry of the predicates; the Section clause for two common vertices has no mirror (C47), hence the counterexample |
| C72 | the inspections of a model and of the mesh of one component | a loop that records one report per component leaves the entry of the others alone (induction); the report recorded is the report of the mesh with another description; colocation: C04 group filter; adjacency: what the border loop appends |
| C73 | the inspections of single meshes under a bijection of vertices, elements and stored edges | each criterion has an exact specification (the theorems on adjacency, colocation, degeneration, manifolds, negative elements and intersections); the specification is transported along the bijection (cycles, fans and uses included), and two duplicate-free lists with corresponding members are permutations of each other; solid edges: the first occurrence and hence the start of the turn-around may change, so completeness is first restated by fans (C69) |
| C74 | the checks of one unique vertex and the lists of the topology reports, in two models with the same components and relationships | each check is compared in both models, by congruence over its loops, the facts about the linked mesh vertices being the only ones used; then the loop over all vertices is restricted to the messages of one vertex |
| C75 | the inspections of two models whose unique vertices differ by a permutation of their numbers | the relabelled model is the old one with other links; criteria that do not read numbers are convertible, the others are compared by induction on their loops (keys of maps, groups, lists by vertex), the topology lists by C74; counts and complaints follow from the lengths |
| C76 | the inspections of two models whose components differ by a one-to-one change of identifiers | each accessor, relation and search commutes with the change; loops over components are compared entry by entry, the topology tests through their specifications (C74), the walk over the surfaces of a block by induction on its queue; a run of the search for intersections is rebuilt task by task in the renamed model |
| C77 | the 3D triangle test and the search for intersecting surfaces, with a segment-triangle predicate that is exact for rational geometry | triangles as weighted means of their corners over Q; a contact of two triangles is walked along until it meets a side of one of them (so the side tests see it); common vertices and sides by linear independence; an exact predicate is built by Fourier-Motzkin elimination to show that the promises can be kept |
| C78 | the 2D triangle test and the search for intersecting surfaces, with exact predicates on segments and on a point and a triangle | the way out of a triangle from a shared point crosses a side (weights of the plane over Q), so sides touch unless one triangle holds the other; sides on one line are replaced by a neighbouring side at the end of their overlap; a common side by the signs of weights; exact predicates by Fourier-Motzkin elimination |
| C79 | the test of an edge and a polygon and the line part of the BRep report, with a predicate that locates contacts | each answer of the predicate is compared with the place of the single contact; two common points put a segment in the plane of a triangle; report and silence from C48; predicates by Fourier-Motzkin elimination |
| C80 | the tests of an edge and a triangle of surface_curve_intersections.cpp in both dimensions and their lists | in space by cases on the predicate; in the plane: a segment on the line of a side goes beyond a corner, any other one leaves the triangle through sides, weights over Q |
| C81 | nothing new: validity of C60 with the predicates of C77 and C79 | exact predicates that also locate contacts are exhibited (decision procedure over Q); then C60 is rewritten with the equivalences of C77 and C79 |
| C82 | nothing new: validity of C59 with the predicates of C78 | C59 is rewritten with the equivalence of C78; the exception is exhibited by a concrete Section evaluated in the kernel |
| C83 | nothing new: the changes of C70, C76 and C75 in a row | what the inspection assumes is preserved by each change; runs of the search in the last description are followed back to the first |
| C84 | the result classes of the Python bindings: which attributes each class has, and what they give | the containers reachable from an object are computed and compared with the members of the C++ headers; the verdict by C31; counterexamples computed |
| C85 | the class of the verdicts in Python, and truth value testing of a Python object without `__bool__` and `__len__` | C31 for the counts; counterexample computed |
| C86 | every mesh and model under a map g of points, with oracles that answer about g p what they answered about p | each loop commutes with g (equalities and relations between runs); topology by C76 with identifiers kept; for every invertible g and every oracles, oracles that follow exist |
| C87 | models whose points follow an affine one-to-one map of rational space, exact predicates in both positions | affine maps keep and reflect weighted means, hence segments, triangles, flatness and all that C77-C80 say of the reports |
| C88 | the example program as a list of statements run on an object given by its methods; the bound class as such an object | computation on the first two statements for every model; induction on the program for every object |
| C89 | two meshes and a whole in which both are found under other numbers, sharing no vertex | each check lists what its specification says of every element; the specification of an element is decided inside its piece, so the two lists add up |
| C90 | a surface and the same surface with other numbers inside its polygons, all in the same or all in the other direction | the specification of each check is carried over by the maps of sides and corners; a sum over the sides is invariant under their permutation |
| C91 | a solid and the same solid with other numbers inside its polyhedra, facets from other vertices, all in the same or all in the other direction | the specification of each check is carried over by the maps of facets, corners and edges; facets are compared as cycles; an alternating quantity keeps its sign under an even number of swaps |
| C92 | two models with a component whose mesh is the same under other numbers or descriptions | what the model report says of a component is what the report on its mesh alone says (C72), apart from the border; those correspond by C73, C90 and C91 |
| C93 | two Sections and the Section made of both | every check at a unique vertex only reads the components linked to it, their relationships, and whether all surfaces have polygons: same answers in part and whole, then fold over the vertices of the first and of the second |

## 3. Trusted base

* Coq's kernel (8.16.1).  `Print Assumptions` says "Closed under the global context" for every theorem named in
  `MANIFEST.json`: no axiom at all, neither of ours nor of the standard library.  (The environment of the compiled files
  contains seven axioms of the standard library module `Coq.ssr.ssrunder.Under_rel`, loaded with the
  standard library; no theorem depends on them.)  No `Admitted`, no `Parameter`/`Axiom`, no functor, no
  disabled check.
* The transcription of the C++ into Gallina, function by function, as cited in the comments.
* The oracles, i.e. the behaviour of libraries that are not part of this repository.  Theorems quantify over all of
  them, and any contract needed is a visible hypothesis:
  * `Geometry` (`g_colocated`: mapping computed by `NNSearch::colocated_index_mapping`; `g_same`: inexact point equality; the
    text of a point), contract `consistent`;
  * `Measures` (lengths, heights, volumes: any functions to doubles), mesh predicates `is_*_degenerated`;
  * `Lookup`, `TopoLookup` (component mesh edges / polygons found from unique vertices, ray tracing, corner polyhedra), contracts
    `lookup_right`, `lookup_ok`, `blocks_ok`;
  * `sm_around_vertex`, `so_around_vertex`, `so_around_edge` (the local fans, may throw);
  * `HashOrder`, `VertexCycle` (iteration order and canonical form of hash map keys);
  * `Predicates` (geometric intersection predicates), `Trees`, `LineTrees` (bounding boxes that meet, in any order: `traverses`);
  * `m_uuid_string`, `m_point_string`, `m_cmv_string` (texts of identifiers); `World`, `Queries` of the programs (files,
    registered extensions, `geode_lippincott`).
* Semantics of `async::parallel_invoke`/`async::spawn`/`when_all`: fork and join of tasks that may interleave at every
  step, an exception of a task being rethrown at `get()`/at the end of `parallel_invoke`.
* Python: an object of a class bound with pybind11 has the attributes that the binding lists and no others, and an object with
  neither `__bool__` nor `__len__` is true (Python language reference, truth value testing).

## 4. Simplifications and what is not modelled

* Mesh and vertex indices are `nat`; sizes that the code stores in `index_t` are bounded by hypotheses (`below_2_32`) where the
  code sums or subtracts them.
* Meshes are values: their accessors are total functions on valid indices, and an invalid index where the C++ would assert or
  read out of bounds is `UB` in the model.
* Geometry itself (distances, heights, volumes, intersections of triangles, ray tracing), file formats, the
  parsing of flags, logging, CMake and the mixin `add_inspectors.hpp` (which only forwards its arguments) are not modelled.
  Of the Python bindings, the result classes are modelled (which attributes can be read, C84) and the class of the verdicts (C85); the classes of the inspectors,
  whose methods are bound one to one to the C++ methods of the same name, are not, nor is writing to an attribute.
* Memory exhaustion and stack overflow are not modelled.

## 5. Testing the theorems

`tools/mutate.py` edits one definition of the model in a scratch copy (swapped projections, off-by-one ranges, negated
conditions, dropped updates, other constants, other relations) and rebuilds; each verdict is a line of `seeded/LOG.jsonl`, together with hand-written
bugs.  Survivors were either turned into stronger theorems (C46, C56, C61-C63 come from such survivors) or are explained in the log.
