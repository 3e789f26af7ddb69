-Q theories Verif
theories/Base.v
theories/Tree_Model.v
theories/Tree_Spec.v
theories/Tree_Heap.v
theories/Tree_Ops.v
theories/Tree_Project.v
theories/Tree_Proofs.v
theories/Tree_Props.v
theories/Reg_Model.v
theories/Reg_Proofs.v
theories/Reg_Props.v
theories/Settings_Model.v
theories/Numeral.v
theories/Settings_Spec.v
theories/Settings_Proofs.v
theories/Settings_Props.v
theories/Item_Model.v
theories/Item_Props.v
theories/Text.v
theories/Rot_Model.v
theories/Rot_Spec.v
theories/Rot_Proofs.v
theories/Rot_Props.v
theories/Eng_Model.v
theories/Eng_Spec.v
theories/Eng_Moves.v
theories/Eng_Inv.v
theories/Eng_Struct.v
theories/Eng_Trace.v
theories/Eng_Stop.v
theories/Eng_Flush.v
theories/Eng_Hook.v
theories/Eng_Facts.v
theories/Eng_Sets.v
theories/Eng_Start.v
theories/Eng_Progress.v
theories/Eng_More.v
theories/Eng_Sizes.v
theories/Eng_Props.v
theories/Deco_Model.v
theories/Deco_Spec.v
theories/Deco_Proofs.v
theories/Deco_Props.v
theories/Gc_Model.v
theories/Gc_Props.v
theories/DecoClass_Model.v
theories/DecoClass_Spec.v
theories/DecoClass_Proofs.v
theories/DecoClass_Props.v
theories/Handle_Model.v
theories/Handle_Spec.v
theories/Handle_Proofs.v
theories/Handle_Props.v
theories/Supp_Model.v
theories/Call_Model.v
theories/Call_Spec.v
theories/Call_Proofs.v
theories/Call_Inv.v
theories/Call_Struct.v
theories/Call_Sim.v
theories/Call_Props.v
theories/Block_Props.v
theories/Tasks_Model.v
theories/Tasks_Props.v
theories/Hnd_Model.v
theories/Hnd_Props.v
theories/Mem_Model.v
theories/Mem_Props.v
theories/Lock_Model.v
theories/Lock_Props.v
theories/File_Model.v
theories/File_Props.v
theories/File_More.v
theories/File_Size.v
theories/File_Examples.v
theories/Name_Model.v
theories/Name_Props.v
theories/Assert_Model.v
theories/Assert_Props.v
theories/Pony_Model.v
theories/Pony_Props.v
theories/Single_Model.v
theories/Single_Props.v
theories/Sig_Model.v
theories/Sig_Props.v
theories/Weak_Model.v
theories/Weak_Props.v
theories/Logging_Model.v
theories/Logging_Props.v
theories/React_Model.v
theories/React_Props.v
theories/User_Model.v
theories/User_Props.v
theories/Time_Model.v
theories/Time_Props.v
theories/Args_Model.v
theories/Args_Proofs.v
theories/Args_Props.v
theories/Json_Model.v
theories/Fmt_Model.v
theories/Fmt_Spec.v
theories/Fmt_Proofs.v
theories/Fmt_Line.v
theories/Fmt_Props.v
theories/Fmt_Examples.v
theories/Json_Props.v
theories/Field_Model.v
theories/Field_Props.v
theories/Whole_Props.v
theories/File_Once.v
theories/File_Cross.v
theories/Edit_Props.v
theories/Mail_Model.v
theories/Mail_Props.v
theories/Smtp_Model.v
theories/Smtp_Props.v
theories/Limit_Model.v
theories/Limit_Props.v
theories/Trace_Model.v
theories/Trace_Props.v
theories/Act_Model.v
theories/Act_Props.v
theories/Level_Model.v
theories/Level_Props.v
theories/Draw_Model.v
theories/Draw_Spec.v
theories/Draw_Proofs.v
theories/Draw_Props.v
theories/Writer_Model.v
theories/Writer_Props.v
theories/Race_Model.v
theories/Race_Spec.v
theories/Race_Proofs.v
theories/Race_Props.v
theories/Deliver_Heap.v
theories/Deliver_Model.v
theories/Deliver_Spec.v
theories/Deliver_Proofs.v
theories/Deliver_Props.v
theories/DecoKind_Model.v
theories/DecoKind_Spec.v
theories/DecoKind_Proofs.v
theories/DecoKind_Props.v
theories/DecoKind_Layer.v
theories/Text_Model.v
theories/Text_Spec.v
theories/Text_Props.v
theories/Clock_Model.v
theories/Clock_Spec.v
theories/Clock_Proofs.v
theories/Clock_Props.v
theories/Inform_Model.v
theories/Inform_Props.v
