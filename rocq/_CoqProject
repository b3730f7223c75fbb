-Q theories Verif
theories/Base.v
theories/Asylum_Model.v
theories/Asylum_Spec.v
theories/Asylum_Proofs1.v
theories/Asylum_Proofs2.v
theories/Asylum_Proofs3.v
theories/Asylum_Proofs4.v
theories/Asylum_Proofs5.v
theories/Asylum_Properties.v
theories/Tree_Model.v
theories/Tree_Spec.v
theories/Tree_Proofs.v
theories/Tree_Proofs2.v
theories/Tree_Properties.v
theories/UI_Model.v
theories/UI_Spec.v
theories/UI_Proofs.v
theories/UI_Proofs2.v
theories/UI_Proofs3.v
theories/UI_Proofs4.v
theories/UI_Properties.v
theories/Measure_Model.v
theories/Measure_Spec.v
theories/Measure_Proofs1.v
theories/Measure_Proofs2.v
theories/Measure_Proofs3.v
theories/Measure_Proofs4.v
theories/Measure_Proofs5.v
theories/Measure_Proofs6.v
theories/Measure_Proofs7.v
theories/Measure_Proofs8.v
theories/Measure_Proofs9.v
theories/Measure_Properties.v
theories/Cmd_Model.v
theories/Cmd_Spec.v
theories/Cmd_Proofs.v
theories/Cmd_Proofs2.v
theories/Cmd_Proofs3.v
theories/Cmd_Properties.v
theories/Proc_Model.v
theories/Proc_Spec.v
theories/Proc_Proofs.v
theories/Proc_Proofs2.v
theories/Proc_Properties.v
theories/Files_Model.v
theories/Files_Spec.v
theories/Files_Proofs.v
theories/Files_Proofs2.v
theories/Files_Proofs3.v
theories/Files_Proofs4.v
theories/Files_Properties.v
theories/Load_Model.v
theories/Load_Spec.v
theories/Load_Proofs.v
theories/Load_Proofs2.v
theories/Load_Faults.v
theories/Load_Proofs3.v
theories/Load_Proofs4.v
theories/Load_Proofs5.v
theories/Load_Properties.v
theories/Ctf_Model.v
theories/Ctf_Spec.v
theories/Ctf_Proofs.v
theories/Ctf_Proofs2.v
theories/Ctf_Proofs3.v
theories/Ctf_Proofs4.v
theories/Ctf_Proofs5.v
theories/Ctf_Proofs6.v
theories/Ctf_Proofs7.v
theories/Ctf_Properties.v
theories/Cpp_Lex_Model.v
theories/Cpp_Ast_Model.v
theories/Cpp_Parse_Model.v
theories/Cpp_Display_Spec.v
theories/Cpp_Display_Proofs.v
theories/Cpp_Display_Proofs2.v
theories/Cpp_Display_Proofs3.v
theories/Cpp_Display_Proofs4.v
theories/Cpp_Display_Properties.v
theories/Cpp_Parse_Spec.v
theories/Cpp_Parse_Proofs.v
theories/Cpp_Parse_Proofs2.v
theories/Cpp_Parse_Proofs3.v
theories/Cpp_Parse_Proofs4.v
theories/Cpp_Parse_Proofs5.v
theories/Cpp_Parse_Properties.v
theories/Cpp_Lex_Spec.v
theories/Cpp_Lex_Proofs.v
theories/Cpp_Lex_Proofs2.v
theories/Cpp_Lex_Proofs3.v
theories/Cpp_Lex_Proofs4.v
theories/Cpp_Lex_Proofs5.v
theories/Cpp_Lex_Proofs6.v
theories/Cpp_Lex_Proofs7.v
theories/Cpp_Lex_Properties.v
theories/Screen_Model.v
theories/Screen_Spec.v
theories/Screen_Proofs.v
theories/Screen_Proofs2.v
theories/Screen_Proofs3.v
theories/Screen_Proofs4.v
theories/Screen_Proofs5.v
theories/Screen_Proofs6.v
theories/Screen_Proofs7.v
theories/Screen_Proofs8.v
theories/Screen_Proofs9.v
theories/Screen_Properties.v
theories/Stdio_Model.v
theories/Stdio_Spec.v
theories/Stdio_Proofs.v
theories/Stdio_Proofs2.v
theories/Stdio_Proofs3.v
theories/Stdio_Properties.v
theories/Clang_Model.v
theories/Clang_Spec.v
theories/Clang_Proofs.v
theories/Clang_Properties.v
theories/Session_Model.v
theories/Session_Spec.v
theories/Session_Proofs.v
theories/Session_Proofs2.v
theories/Session_Properties.v
theories/Table_Model.v
theories/Table_Spec.v
theories/Table_Proofs.v
theories/Table_Proofs2.v
theories/Table_Proofs3.v
theories/Table_Properties.v
theories/Wait_Model.v
theories/Wait_Spec.v
theories/Wait_Proofs.v
theories/Wait_Properties.v
theories/Cpp_Core_Spec.v
theories/Cpp_Core_Proofs.v
theories/Cpp_Core_Proofs2.v
theories/Cpp_Core_Proofs3.v
theories/Cpp_Core_Proofs4.v
theories/Cpp_Core_Proofs5.v
theories/Cpp_Core_Proofs6.v
theories/Cpp_Core_Proofs7.v
theories/Cpp_Core_Properties.v
theories/Csv_Model.v
theories/Csv_Spec.v
theories/Csv_Proofs.v
theories/Csv_Proofs2.v
theories/Csv_Proofs3.v
theories/Csv_Proofs4.v
theories/Csv_Properties.v
theories/Shell_Model.v
theories/Shell_Spec.v
theories/Shell_Proofs.v
theories/Shell_Properties.v
theories/Locate_Model.v
theories/Locate_Spec.v
theories/Locate_Proofs.v
theories/Locate_Proofs2.v
theories/Locate_Proofs3.v
theories/Locate_Properties.v
theories/Simpp_Model.v
theories/Simpp_Properties.v
theories/Cpp_Tests.v
theories/Load_Tests.v
theories/Ctf_Tests.v
theories/UI_Tests.v
theories/Cmd_Tests.v
theories/Float_Model.v
theories/Float_Spec.v
theories/Float_Proofs.v
theories/Float_Proofs2.v
theories/Float_Proofs3.v
theories/Float_Proofs4.v
theories/Float_Proofs5.v
theories/Float_Properties.v
theories/Share_Model.v
theories/Share_Spec.v
theories/Share_Proofs.v
theories/Share_Proofs2.v
theories/Share_Proofs3.v
theories/Share_Proofs4.v
theories/Share_Proofs5.v
theories/Share_Properties.v
