-Q theories Verif
theories/Base.v
theories/Scalar.v
theories/Float64.v
theories/Model_LinkedList.v
theories/Spec_LinkedList.v
theories/Refine_LinkedList.v
theories/Proof_LinkedList.v
theories/Proof_LinkedList2.v
theories/Proof_LinkedList3.v
theories/Proof_LinkedList4.v
theories/Proof_LinkedList5.v
theories/Proof_LinkedList6.v
theories/Proof_LinkedList7.v
theories/Spec_Iter.v
theories/Proof_Iter.v
theories/Properties_LinkedList.v
theories/Model_Position.v
theories/Spec_Position.v
theories/Proof_Position.v
theories/Proof_I32.v
theories/Properties_Position.v
theories/Model_Time.v
theories/Spec_Time.v
theories/Proof_Time.v
theories/Proof_Time2.v
theories/Proof_Time3.v
theories/Proof_Time4.v
theories/Properties_Time.v
theories/Model_System.v
theories/Spec_System.v
theories/Proof_System.v
theories/Proof_System2.v
theories/Proof_System3.v
theories/Proof_Norm64.v
theories/Proof_System4.v
theories/Proof_System5.v
theories/Proof_System6.v
theories/Proof_System7.v
theories/Proof_System8.v
theories/Proof_System9.v
theories/Proof_System10.v
theories/Proof_System11.v
theories/Proof_System12.v
theories/Properties_System.v
theories/Model_Agent.v
theories/Spec_Agent.v
theories/Proof_Agent.v
theories/Proof_Agent2.v
theories/Proof_Agent3.v
theories/Proof_Agent4.v
theories/Properties_Agent.v
theories/Model_Analysis.v
theories/Spec_Analysis.v
theories/Proof_Analysis.v
theories/Proof_Analysis2.v
theories/Proof_Analysis3.v
theories/Proof_Analysis4.v
theories/Proof_Analysis5.v
theories/Proof_Analysis6.v
theories/Proof_Analysis7.v
theories/Proof_Analysis8.v
theories/Proof_Analysis9.v
theories/Proof_Analysis10.v
theories/Proof_Analysis11.v
theories/Properties_Analysis.v
theories/Model_Text.v
theories/Spec_Text.v
theories/Proof_Text.v
theories/Proof_Text2.v
theories/Proof_Text3.v
theories/Model_Args.v
theories/Spec_Args.v
theories/Proof_Args.v
theories/Model_Error.v
theories/Proof_Text4.v
theories/Proof_Text5.v
theories/Proof_Args2.v
theories/Proof_Args3.v
theories/Properties_Text.v
theories/Properties_Args.v
theories/Model_Run.v
theories/Spec_Run.v
theories/Proof_Run.v
theories/Proof_Run2.v
theories/Proof_Run3.v
theories/Proof_Run4.v
theories/Proof_Run5.v
theories/Spec_Run2.v
theories/Proof_Run6.v
theories/Proof_Run7.v
theories/Proof_Run8.v
theories/Proof_Run9.v
theories/Proof_Run10.v
theories/Proof_Run11.v
theories/Proof_Run12.v
theories/Proof_Run13.v
theories/Proof_Run14.v
theories/Properties_Run.v
theories/Model_Search.v
theories/Spec_Search.v
theories/Proof_Search.v
theories/Proof_Search2.v
theories/Proof_Search3.v
theories/Properties_Search.v
theories/Model_Program.v
theories/Spec_Program.v
theories/Proof_Program.v
theories/Proof_Program2.v
theories/Proof_Program3.v
theories/Proof_Program4.v
theories/Proof_Program5.v
theories/Proof_Program6.v
theories/Model_Program2.v
theories/Spec_Program2.v
theories/Proof_Program7.v
theories/Proof_Program8.v
theories/Properties_Program.v
theories/Properties_Program2.v
theories/Model_Disk.v
theories/Spec_Disk.v
theories/Proof_Disk.v
theories/Proof_Disk2.v
theories/Proof_Disk3.v
theories/Properties_Disk.v
theories/Proof_Sum64.v
theories/Proof_Rel64.v
theories/Proof_Moments64.v
theories/Spec_Accuracy.v
theories/Proof_Accuracy.v
theories/Proof_Accuracy2.v
theories/Proof_Accuracy3.v
theories/Proof_Accuracy4.v
theories/Properties_Accuracy.v
theories/Properties_Build.v
theories/Spec_Wall64.v
theories/Proof_Wall64.v
theories/Proof_Wall64b.v
theories/Proof_Wall64c.v
theories/Properties_Wall64.v
theories/Spec_Hist64.v
theories/Proof_Hist64.v
theories/Proof_Hist64b.v
theories/Proof_Hist64c.v
theories/Proof_Hist64d.v
theories/Proof_Hist64e.v
theories/Properties_Hist64.v
theories/Model_Usage.v
theories/Spec_Usage.v
theories/Proof_Usage.v
theories/Properties_Usage.v
theories/Model_Access.v
theories/Properties_Access.v
theories/Model_Default.v
theories/Proof_Default.v
theories/Properties_Default.v
theories/Model_Program3.v
theories/Spec_Program3.v
theories/Proof_Race.v
theories/Proof_Race2.v
theories/Proof_Race3.v
theories/Proof_Race4.v
theories/Properties_Program3.v
theories/Proof_Crowd.v
theories/Proof_Crowd2.v
theories/Proof_Crowd3.v
theories/Proof_Crowd4.v
theories/Properties_Crowd.v
theories/Spec_Lines.v
theories/Proof_Lines.v
theories/Proof_Lines2.v
theories/Properties_Lines.v
theories/Model_Table.v
theories/Spec_Table.v
theories/Proof_Table.v
theories/Proof_Table2.v
theories/Properties_Table.v
theories/Model_Generated.v
theories/Spec_Generated.v
theories/Proof_Generated.v
theories/Proof_Generated2.v
theories/Proof_Generated3.v
theories/Proof_Generated4.v
theories/Properties_Generated.v
theories/Spec_Force64.v
theories/Proof_Force64.v
theories/Proof_Force64b.v
theories/Proof_Force64c.v
theories/Proof_Walk64.v
theories/Proof_Inner64.v
theories/Proof_Pair64.v
theories/Properties_Force64.v
theories/Proof_Seeds.v
theories/Properties_Seeds.v
theories/Spec_Refl64.v
theories/Proof_Refl64.v
theories/Proof_Refl64b.v
theories/Proof_Refl64c.v
theories/Proof_Refl64d.v
theories/Proof_Refl64e.v
theories/Properties_Refl64.v
theories/Properties_Bins.v
theories/Properties_Parts.v
theories/Properties_Diffusion.v
theories/Model_Ensemble.v
theories/Spec_Ensemble.v
theories/Proof_Ensemble.v
theories/Proof_Ensemble2.v
theories/Proof_Ensemble3.v
theories/Proof_Ensemble4.v
theories/Properties_Ensemble.v
theories/Proof_Mirror.v
theories/Properties_Mirror.v
theories/Model_Points.v
theories/Spec_Points.v
theories/Proof_Points.v
theories/Properties_Points.v
theories/Properties_Iter.v
theories/Model_Int.v
theories/Spec_Int.v
theories/Proof_Int.v
theories/Properties_Int.v
theories/Proof_Total.v
theories/Properties_Total.v
theories/Proof_Total2.v
theories/Spec_Export64.v
theories/Proof_Export64.v
theories/Proof_Export64b.v
theories/Proof_Export64c.v
theories/Properties_Export64.v
theories/Proof_Default64.v
theories/Properties_Default64.v
theories/Proof_Mirror64.v
theories/Properties_Mirror64.v
theories/Spec_First64.v
theories/Proof_First64.v
theories/Proof_First64b.v
theories/Properties_First64.v
theories/Model_Check.v
theories/Proof_Check.v
theories/Proof_Check64.v
theories/Properties_Check.v
theories/Spec_Run64.v
theories/Proof_Run64.v
theories/Proof_Run64b.v
theories/Proof_Run64c.v
theories/Proof_Run64d.v
theories/Properties_Run64.v
theories/Spec_Rep64.v
theories/Proof_Rep64.v
theories/Proof_Rep64b.v
theories/Proof_Rep64c.v
theories/Proof_Rep64d.v
theories/Proof_Rep64e.v
theories/Properties_Rep64.v
theories/Model_Rebin.v
theories/Proof_Rebin.v
theories/Properties_Rebin.v
theories/Model_Interact.v
theories/Properties_Interact.v
