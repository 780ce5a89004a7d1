-Q theories Verif
theories/Base.v
theories/Dict.v
theories/Smt.v
theories/Walk_Model.v
theories/Walk_Proofs.v
theories/Check_Model.v
theories/Check_Spec.v
theories/Check_Proofs.v
theories/Batch_Proofs.v
theories/Check_Props.v
theories/Math_Model.v
theories/Math_Spec.v
theories/Poly_Proofs.v
theories/Linear_Proofs.v
theories/Arith_Proofs.v
theories/Bounds_Proofs.v
theories/Math_Props.v
theories/Parse_Model.v
theories/Parse_Spec.v
theories/Parse_Proofs.v
theories/Parse_Props.v
theories/Domain_Model.v
theories/Domain_Spec.v
theories/Domain_Proofs.v
theories/Files_Proofs.v
theories/Domain_Props.v
theories/Smt_Facts.v
theories/Engine_Model.v
theories/Engine_Spec.v
theories/Engine_Proofs.v
theories/Engine_Props.v
theories/Sample_Model.v
theories/Sample_Spec.v
theories/Sample_Proofs.v
theories/Sample_Props.v
theories/Adaptive_Model.v
theories/Adaptive_Spec.v
theories/Adaptive_Proofs.v
theories/Adaptive_Props.v
theories/Lit_Model.v
theories/Lit_Spec.v
theories/Lit_Proofs.v
theories/Lit_Tests.v
theories/Lit_Props.v
theories/Sdd_Model.v
theories/Sdd_Spec.v
theories/Sdd_Proofs.v
theories/Sdd_Example.v
theories/Sdd_Props.v
theories/Piecewise_Model.v
theories/Piecewise_Spec.v
theories/Piecewise_Proofs.v
theories/Piecewise_Props.v
theories/Xsdd_Model.v
theories/Xsdd_Spec.v
theories/Xsdd_Proofs.v
theories/Xsdd_Props.v
theories/Vtree_Model.v
theories/Vtree_Spec.v
theories/Vtree_Proofs.v
theories/Primal_Proofs.v
theories/IntTree_Proofs.v
theories/Vtree_Props.v
theories/Xadd_Model.v
theories/Resolve_Model.v
theories/Integral_Spec.v
theories/Integral_Proofs.v
theories/Xadd_Spec.v
theories/Resolve_Spec.v
theories/Xadd_Proofs.v
theories/Resolve_Bounds.v
theories/Xwalk_Proofs.v
theories/Xtest_Proofs.v
theories/Resolve_Proofs.v
theories/Xhist_Proofs.v
theories/Xreq_Proofs.v
theories/Toxadd_Model.v
theories/Toxadd_Spec.v
theories/Toxadd_Proofs.v
theories/Xadd_Props.v
theories/Resolve_Props.v
theories/Toxadd_Props.v
theories/Volume_Model.v
theories/Volume_Spec.v
theories/Volume_Proofs.v
theories/Xvars_Proofs.v
theories/Volume_Vars.v
theories/Volume_Props.v
theories/Volume_Order.v
theories/Smtlib_Model.v
theories/Smtlib_Spec.v
theories/Smtlib_Proofs.v
theories/Smtlib_Props.v
theories/Cli_Model.v
theories/Cli_Spec.v
theories/Cli_Props.v
theories/Compare_Model.v
theories/Compare_Spec.v
theories/Compare_Props.v
theories/Transform_Model.v
theories/Transform_Spec.v
theories/Transform_Proofs.v
theories/Transform_Props.v
theories/Multimap_Model.v
theories/Multimap_Props.v
theories/Latte_Model.v
theories/Latte_Spec.v
theories/Latte_Proofs.v
theories/Latte_Props.v
theories/Print_Model.v
theories/Print_Spec.v
theories/Print_Proofs.v
theories/Print_Read.v
theories/Print_Props.v
theories/Factor_Model.v
theories/Factor_Spec.v
theories/Factor_Integral.v
theories/Factor_Proofs.v
theories/Factor_Walk.v
theories/Factor_Value.v
theories/Factor_Piece.v
theories/Factor_Term.v
theories/Factor_Volume.v
theories/Factor_Mono.v
theories/Factor_Example.v
theories/Factor_Props.v
theories/Reject_Model.v
theories/Reject_Spec.v
theories/Reject_Proofs.v
theories/Reject_Props.v
theories/Minizinc_Model.v
theories/Minizinc_Spec.v
theories/Minizinc_Proofs.v
theories/Minizinc_Props.v
theories/External_Model.v
theories/External_Spec.v
theories/External_Proofs.v
theories/External_Props.v
theories/Convert_Model.v
theories/Convert_Spec.v
theories/Convert_Proofs.v
theories/Convert_Props.v
theories/Xalg_Model.v
theories/Xalg_Spec.v
theories/Xalg_Proofs.v
theories/Xalg_Props.v
theories/Xview_Model.v
theories/Xview_Spec.v
theories/Xview_Proofs.v
theories/Xview_Props.v
theories/Task_Model.v
theories/Task_Spec.v
theories/Task_Proofs.v
theories/Task_Props.v
