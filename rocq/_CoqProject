-Q theories Verif
theories/Arith.v
theories/RootFinding_Model.v
theories/RootFinding_Proofs.v
theories/RootFinding_Props.v
theories/Robust_Model.v
theories/Robust_Proofs.v
theories/Robust_Props.v
theories/Hermite_Model.v
theories/Hermite_Proofs.v
theories/Hermite_Props.v
theories/FastLogs_Model.v
theories/FastLogs_Proofs.v
theories/FastLogs_Alias.v
theories/FastLogs_Props.v
theories/TypeLists_Model.v
theories/TypeLists_Proofs.v
theories/TypeLists_Props.v
theories/Indexer_Model.v
theories/Indexer_Props.v
theories/Serialization_Model.v
theories/Serialization_Proofs.v
theories/Serialization_Props.v
theories/Vector_Model.v
theories/Vector_Spec.v
theories/Vector_Proofs.v
theories/Vector_Props.v
theories/BaseDefaults_Model.v
theories/BaseDefaults_Props.v
theories/Thermo_Spec.v
theories/Thermo_Tools.v
theories/Ideal_Model.v
theories/Ideal_Props.v
theories/Stiff_Model.v
theories/Stiff_Props.v
theories/Fill_Model.v
theories/Fill_Proofs.v
theories/NobleAbel_Model.v
theories/NobleAbel_Props.v
theories/Carnahan_Model.v
theories/Carnahan_Props.v
theories/SAP_Model.v
theories/SAP_Props.v
theories/JWL_Model.v
theories/JWL_Props.v
theories/Gruneisen_Model.v
theories/Gruneisen_RhoMax.v
theories/Gruneisen_Props.v
theories/Vinet_Model.v
theories/Vinet_Props.v
theories/DavisReactants_Model.v
theories/DavisReactants_Props.v
theories/DavisProducts_Model.v
theories/DavisProducts_Props.v
theories/MGUsup_Model.v
theories/MGUsup_Props.v
theories/PowerMG_Model.v
theories/PowerMG_Props.v
theories/Electrons_Model.v
theories/Electrons_Props.v
theories/Mods_Spec.v
theories/Mods_Model.v
theories/Mods_View.v
theories/Mods_Instances.v
theories/Mods_Props.v
theories/Mods_Props2.v
theories/Mods_Props3.v
theories/Variant_Model.v
theories/Variant_Props.v
theories/PTE_Scratch_Model.v
theories/PTE_Scratch_Props.v
theories/PTE_Driver_Model.v
theories/PTE_Driver_Props.v
theories/PTE_Model.v
theories/PTE_Tools.v
theories/PTE_Base_Props.v
theories/PTE_Init.v
theories/PTE_Tools2.v
theories/PTE_Calm.v
theories/PTE_Witness.v
theories/PTE_RhoT_Props.v
theories/PTE_FixedT_Props.v
theories/PTE_FixedP_Props.v
theories/PTE_PT_Props.v
theories/PTE_RhoU_Props.v
theories/PTE_More_Props.v
theories/PTE_Linear_Props.v
theories/KPT_Model.v
theories/KPT_Spec.v
theories/KPT_Proofs.v
theories/KPT_Props.v
theories/SpinerUtil_Model.v
theories/SpinerUtil_Spec.v
theories/SpinerUtil_Proofs.v
theories/SpinerUtil_Props.v
theories/Spiner_Model.v
theories/Spiner_Spec.v
theories/Spiner_Props.v
theories/SgEos_Scratch_Model.v
theories/SgEos_Scratch_Props.v
theories/SgEos_Model.v
theories/SgEos_Spec.v
theories/SgEos_Proofs.v
theories/SgEos_View.v
theories/SgEos_Props.v
theories/SgEos_Finds_Props.v
theories/Stellar_Model.v
theories/Stellar_Spec.v
theories/Stellar_Proofs.v
theories/Stellar_Props.v
theories/Stellar_Build_Props.v
theories/Stellar_Finds_Props.v
theories/Helm_Spec.v
theories/Helm_Model.v
theories/Helm_Proofs.v
theories/Helm_Parts.v
theories/Helm_Coul.v
theories/Helm_Read.v
theories/Helm_Props.v
theories/Helm_Finds_Props.v
theories/ApproxT_Model.v
theories/ApproxT_Props.v
theories/Sesame_Model.v
theories/Sesame_Spec.v
theories/Sesame_Parse_Props.v
theories/Sesame_Names_Props.v
theories/Sesame_Tables_Props.v
theories/Sesame_Bounds_Props.v
theories/Eospac_Model.v
theories/Eospac_Spec.v
theories/Eospac_Props.v
theories/Eospac_Vector_Props.v
theories/Eospac_Finds_Props.v
theories/Helm_Coulomb_Props.v
theories/Bindings_Model.v
theories/Bindings_Spec.v
theories/Bindings_Proofs.v
theories/Bindings_Props.v
theories/Doc_Spec.v
theories/Doc_Props.v
theories/Doc_Solid_Props.v
theories/Float_Spec.v
theories/Float_Tools.v
theories/Float_Model.v
theories/Float_Props.v
theories/Float_Sum_Proofs.v
theories/Float_Sum_Props.v
theories/Float_Root_Proofs.v
theories/Float_Find_Proofs.v
theories/Float_Root_Props.v
theories/Stability_Spec.v
theories/Stability_Props.v
theories/Equilibrium_Spec.v
theories/Equilibrium_Proofs.v
theories/Equilibrium_Props.v
theories/Equilibrium_EOS_Props.v
theories/ScratchName_Model.v
theories/ScratchName_Props.v
theories/CommandLine_Model.v
theories/CommandLine_Props.v
theories/Init_Model.v
theories/Init_Spec.v
theories/Init_Props.v
theories/Init_Temp_Props.v
theories/Init_Bulk_Model.v
theories/Init_Bulk_Spec.v
theories/Init_Bulk_Props.v
theories/Equilibrium_RhoU_Props.v
