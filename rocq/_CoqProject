-Q theories Verif
theories/M_Alias.v
theories/M_Attr.v
theories/M_Balancer.v
theories/M_Block.v
theories/M_Blueprint.v
theories/M_Card.v
theories/M_Colours.v
theories/M_Dict.v
theories/M_Fetch.v
theories/M_Find.v
theories/M_Grid.v
theories/M_Interchange.v
theories/M_Json.v
theories/M_Legacy.v
theories/M_Main.v
theories/M_NetFree.v
theories/M_Network.v
theories/M_Optimal.v
theories/M_Optimise.v
theories/M_Oracle.v
theories/M_Palette.v
theories/M_Parse.v
theories/M_Partial.v
theories/M_Plot.v
theories/M_Pow2.v
theories/M_Quad.v
theories/M_Render.v
theories/M_Rotate.v
theories/M_Show.v
theories/M_Shrink.v
theories/M_Simplify.v
theories/M_Solve.v
theories/M_String.v
theories/M_Template.v
theories/M_Text.v
theories/M_Tile.v
theories/M_Util.v
theories/M_Viewer.v
theories/P_Alias.v
theories/P_Alloc.v
theories/P_Allocate.v
theories/P_Balancer.v
theories/P_Benes.v
theories/P_Block.v
theories/P_Block2.v
theories/P_Blueprint.v
theories/P_Card.v
theories/P_Cnf.v
theories/P_Colours.v
theories/P_Colours2.v
theories/P_Colours3.v
theories/P_Colours4.v
theories/P_Compute.v
theories/P_Connect.v
theories/P_Cut.v
theories/P_Cut2.v
theories/P_Dict.v
theories/P_Dpll.v
theories/P_Edge.v
theories/P_Edge2.v
theories/P_Ends.v
theories/P_Fetch.v
theories/P_Find.v
theories/P_Find2.v
theories/P_Find3.v
theories/P_Flow.v
theories/P_FlowWitness.v
theories/P_Flux.v
theories/P_Frame.v
theories/P_FreeExact.v
theories/P_FreeNum.v
theories/P_FreeWitness.v
theories/P_Gen.v
theories/P_Grid.v
theories/P_GridComplete.v
theories/P_GridOk.v
theories/P_GridSound.v
theories/P_InterMain.v
theories/P_Interchange.v
theories/P_Layout.v
theories/P_Legacy.v
theories/P_List.v
theories/P_Lossless.v
theories/P_Main.v
theories/P_MainTotal.v
theories/P_Mirror.v
theories/P_NetArith.v
theories/P_NetClause.v
theories/P_NetEnds.v
theories/P_NetFree.v
theories/P_NetFree2.v
theories/P_NetShape.v
theories/P_NetTotal.v
theories/P_NetVars.v
theories/P_Network.v
theories/P_Network2.v
theories/P_Nonneg.v
theories/P_Once.v
theories/P_OptOk.v
theories/P_Optimal.v
theories/P_Palette.v
theories/P_Palette2.v
theories/P_Parse.v
theories/P_Parse2.v
theories/P_Parse3.v
theories/P_Parse4.v
theories/P_Parse5.v
theories/P_Parse6.v
theories/P_Parse7.v
theories/P_Parse8.v
theories/P_Parse9.v
theories/P_Partial.v
theories/P_Pattern.v
theories/P_Pattern2.v
theories/P_Pow2.v
theories/P_Pow2Exact.v
theories/P_Pow2Flow.v
theories/P_Pow2Frame.v
theories/P_Pow2Total.v
theories/P_ReadFree.v
theories/P_Realise.v
theories/P_Rotate.v
theories/P_Search.v
theories/P_ShareExact.v
theories/P_ShareQuantity.v
theories/P_ShareSound.v
theories/P_Similar.v
theories/P_Simplify.v
theories/P_Simplify2.v
theories/P_Simplify3.v
theories/P_Simplify4.v
theories/P_Simplify5.v
theories/P_Solve.v
theories/P_String.v
theories/P_Table.v
theories/P_Template.v
theories/P_Text.v
theories/P_Tile.v
theories/P_Trace.v
theories/P_Transport.v
theories/P_Uniq.v
theories/P_Util.v
theories/P_Util2.v
theories/P_Util3.v
theories/P_Viewer.v
theories/P_Viewer2.v
theories/P_Walk.v
theories/P_Wiring.v
theories/Spec_Alias.v
theories/Spec_Attr.v
theories/Spec_Balancer.v
theories/Spec_Blueprint.v
theories/Spec_Cnf.v
theories/Spec_Colours.v
theories/Spec_Edge.v
theories/Spec_Fetch.v
theories/Spec_Find.v
theories/Spec_Flow.v
theories/Spec_Free.v
theories/Spec_Import.v
theories/Spec_Interchange.v
theories/Spec_Layout.v
theories/Spec_Legacy.v
theories/Spec_Loop.v
theories/Spec_Main.v
theories/Spec_Network.v
theories/Spec_Optimal.v
theories/Spec_Palette.v
theories/Spec_Parse.v
theories/Spec_Pattern.v
theories/Spec_Plot.v
theories/Spec_Pow2.v
theories/Spec_Quad.v
theories/Spec_Render.v
theories/Spec_Share.v
theories/Spec_Simplify.v
theories/Spec_Table.v
theories/Spec_Text.v
theories/Spec_Tile.v
theories/Spec_Transform.v
theories/Spec_Viewer.v
theories/T_Alias.v
theories/T_Attr.v
theories/T_Balancer.v
theories/T_Block.v
theories/T_Blueprint.v
theories/T_Colours.v
theories/T_Crosstable.v
theories/T_Edge.v
theories/T_Encoders.v
theories/T_Enumerate.v
theories/T_Fetch.v
theories/T_Find.v
theories/T_Free.v
theories/T_Grid.v
theories/T_Import.v
theories/T_Interchange.v
theories/T_Legacy.v
theories/T_Lossless.v
theories/T_Main.v
theories/T_Mirror.v
theories/T_NetDemo.v
theories/T_NetFree.v
theories/T_Network.v
theories/T_Offsets.v
theories/T_Optimal.v
theories/T_Palette.v
theories/T_Parse.v
theories/T_Partial.v
theories/T_Pattern.v
theories/T_Plot.v
theories/T_Pow2.v
theories/T_Pow2Main.v
theories/T_Quad.v
theories/T_ReadFree.v
theories/T_Render.v
theories/T_Render2.v
theories/T_Round.v
theories/T_Share.v
theories/T_Show.v
theories/T_Shrink.v
theories/T_Simplify.v
theories/T_Table.v
theories/T_Template.v
theories/T_Text.v
theories/T_Tile.v
theories/T_Viewer.v
