-Q theories Verif
theories/Base.v
theories/BaseFacts.v
theories/Model_Issues.v
theories/Spec_Issues.v
theories/Proof_Issues.v
theories/Types.v
theories/Model_Colocation.v
theories/Spec_Colocation.v
theories/Proof_Colocation.v
theories/Proof_Colocation2.v
theories/Spec_Maps.v
theories/Proof_Maps.v
theories/Proof_Colocation3.v
theories/Properties_Issues.v
theories/Properties_Colocation.v
theories/Model_Cycles.v
theories/Spec_Cycles.v
theories/Proof_Cycles.v
theories/Model_Adjacency.v
theories/Spec_Adjacency.v
theories/Proof_Adjacency.v
theories/Properties_Adjacency.v
theories/Model_Hash.v
theories/Model_Manifold.v
theories/Spec_Manifold.v
theories/Proof_Hash.v
theories/Proof_Manifold.v
theories/Proof_Manifold2.v
theories/Proof_Manifold3.v
theories/Properties_Manifold.v
theories/Model_Degeneration.v
theories/Spec_Degeneration.v
theories/Model_Negative.v
theories/Spec_Negative.v
theories/Proof_Degeneration.v
theories/Proof_Degeneration2.v
theories/Properties_Degeneration.v
theories/Model_Intersections.v
theories/Spec_Intersections.v
theories/Proof_Intersections.v
theories/Proof_Intersections2.v
theories/Proof_Intersections3.v
theories/Proof_Intersections4.v
theories/Proof_Intersections5.v
theories/Properties_Intersections.v
theories/Model_Topology.v
theories/Spec_Topology.v
theories/Proof_Topology.v
theories/Proof_Topology2.v
theories/Proof_Topology3.v
theories/Proof_Topology4.v
theories/Proof_TopologyCheck.v
theories/Properties_Topology.v
theories/Model_BRep.v
theories/Spec_BRep.v
theories/Proof_BRep.v
theories/Proof_BRep2.v
theories/Proof_BRep3.v
theories/Proof_BRep4.v
theories/Proof_BRep5.v
theories/Proof_BRep6.v
theories/Proof_BRepCheck.v
theories/Properties_BRep.v
theories/Model_Blocks.v
theories/Spec_Fusion.v
theories/Proof_Fusion.v
theories/Spec_Blocks.v
theories/Proof_Blocks.v
theories/Proof_Blocks2.v
theories/Proof_Blocks3.v
theories/Proof_Blocks4.v
theories/Proof_Blocks5.v
theories/Proof_Blocks6.v
theories/Properties_Blocks.v
theories/Properties_Fusion.v
theories/Model_Results.v
theories/Model_Validity.v
theories/Spec_Results.v
theories/Proof_Results.v
theories/Proof_GoodModels.v
theories/Properties_Results.v
theories/Model_Parallel.v
theories/Model_ParallelInspectors.v
theories/Spec_Parallel.v
theories/Proof_Parallel.v
theories/Proof_Parallel2.v
theories/Proof_Parallel3.v
theories/Proof_Parallel4.v
theories/Properties_Parallel.v
theories/Spec_Valid.v
theories/Proof_Valid.v
theories/Proof_Valid2.v
theories/Properties_Valid.v
theories/Spec_ValidModels.v
theories/Proof_ValidModels.v
theories/Proof_ValidModels2.v
theories/Proof_ValidModels3.v
theories/Proof_ValidModels4.v
theories/Proof_Searches.v
theories/Properties_ValidModels.v
theories/Spec_Messages.v
theories/Proof_Messages.v
theories/Proof_Messages2.v
theories/Properties_Messages.v
theories/Spec_TopologyMessages.v
theories/Proof_TopologyMessages.v
theories/Proof_TopologyMessages2.v
theories/Proof_TopologyMessages3.v
theories/Properties_TopologyMessages.v
theories/Model_Programs.v
theories/Spec_Programs.v
theories/Proof_Programs.v
theories/Proof_Programs2.v
theories/Properties_Programs.v
theories/Spec_Reproducible.v
theories/Proof_Reproducible.v
theories/Proof_Reproducible2.v
theories/Proof_Reproducible3.v
theories/Properties_Reproducible.v
theories/Spec_Safe.v
theories/Proof_Safe.v
theories/Proof_Safe2.v
theories/Proof_Safe3.v
theories/Proof_Safe4.v
theories/Proof_Safe5.v
theories/Properties_Safe.v
theories/Spec_Inactive.v
theories/Proof_Inactive.v
theories/Proof_Inactive2.v
theories/Properties_Inactive.v
theories/Spec_Fans.v
theories/Proof_Fans.v
theories/Properties_Fans.v
theories/Spec_Order.v
theories/Proof_Order.v
theories/Proof_Order2.v
theories/Proof_Order3.v
theories/Proof_Order4.v
theories/Proof_Order5.v
theories/Proof_Order6.v
theories/Properties_Order.v
theories/Spec_Symmetry.v
theories/Proof_Symmetry.v
theories/Properties_Symmetry.v
theories/Spec_Components.v
theories/Proof_Components.v
theories/Proof_Components2.v
theories/Properties_Components.v
theories/Spec_Renumber.v
theories/Proof_Renumber.v
theories/Proof_Renumber2.v
theories/Proof_Renumber3.v
theories/Proof_Renumber4.v
theories/Properties_Renumber.v
theories/Spec_Local.v
theories/Proof_Local.v
theories/Proof_Local2.v
theories/Properties_Local.v
theories/Spec_Relabel.v
theories/Proof_Relabel.v
theories/Proof_Relabel2.v
theories/Proof_Relabel3.v
theories/Proof_Relabel4.v
theories/Proof_Relabel5.v
theories/Proof_Relabel6.v
theories/Proof_Relabel7.v
theories/Properties_Relabel.v
theories/Spec_Rename.v
theories/Proof_Rename.v
theories/Proof_Rename2.v
theories/Proof_Rename3.v
theories/Proof_Rename4.v
theories/Proof_Rename5.v
theories/Proof_Rename6.v
theories/Proof_Rename7.v
theories/Proof_Rename8.v
theories/Proof_Rename9.v
theories/Properties_Rename.v
theories/Spec_Geometry.v
theories/Proof_Geometry.v
theories/Proof_Geometry2.v
theories/Proof_Geometry3.v
theories/Proof_Geometry4.v
theories/Proof_Exact.v
theories/Proof_Exact2.v
theories/Proof_Geometry5.v
theories/Proof_Geometry6.v
theories/Properties_Geometry.v
theories/Spec_Geometry2.v
theories/Proof_Flat.v
theories/Proof_Flat2.v
theories/Proof_Flat3.v
theories/Proof_Flat4.v
theories/Proof_Exact3.v
theories/Properties_Geometry2.v
theories/Spec_Geometry3.v
theories/Proof_Locate.v
theories/Proof_Locate2.v
theories/Proof_Exact4.v
theories/Proof_Locate3.v
theories/Proof_Locate4.v
theories/Proof_Locate5.v
theories/Properties_Geometry3.v
theories/Proof_Exact5.v
theories/Spec_Geometry4.v
theories/Proof_Geometry7.v
theories/Properties_Geometry4.v
theories/Spec_Geometry5.v
theories/Proof_Geometry8.v
theories/Properties_Geometry5.v
theories/Proof_Order7.v
theories/Spec_Described.v
theories/Properties_Described.v
theories/Model_Python.v
theories/Spec_Python.v
theories/Proof_Python.v
theories/Properties_Python.v
theories/Spec_Moved.v
theories/Proof_Moved.v
theories/Proof_Moved2.v
theories/Proof_Moved3.v
theories/Proof_Moved4.v
theories/Proof_Moved5.v
theories/Properties_Moved.v
theories/Spec_Affine.v
theories/Proof_Affine.v
theories/Proof_Affine2.v
theories/Properties_Affine.v
theories/Model_Example.v
theories/Spec_Example.v
theories/Properties_Example.v
theories/Spec_Pieces.v
theories/Proof_Pieces.v
theories/Proof_Pieces2.v
theories/Proof_Pieces3.v
theories/Proof_Pieces4.v
theories/Properties_Pieces.v
theories/Spec_Redescribe.v
theories/Proof_Redescribe.v
theories/Proof_Redescribe2.v
theories/Properties_Redescribe.v
theories/Spec_RedescribeSolid.v
theories/Proof_RedescribeSolid.v
theories/Proof_RedescribeSolid2.v
theories/Properties_RedescribeSolid.v
theories/Spec_Parts.v
theories/Proof_Parts.v
theories/Properties_Parts.v
theories/Spec_Beside.v
theories/Proof_Beside.v
theories/Proof_Beside2.v
theories/Proof_Beside3.v
theories/Proof_Beside4.v
theories/Proof_Beside5.v
theories/Proof_Beside6.v
theories/Properties_Beside.v
