-Q theories Verif
theories/SearchTree_Model.v
theories/SearchTree_Spec.v
theories/SearchTree_Proofs.v
theories/SearchTree_Examples.v
theories/Properties_SearchTree.v
theories/Py.v
theories/IntOps_Model.v
theories/IntOps_Spec.v
theories/IntOps_Proofs.v
theories/Range_Model.v
theories/Range_Spec.v
theories/Range_Proofs.v
theories/Properties_IntOps.v
theories/PySeq_Spec.v
theories/Seq_Model.v
theories/Seq_Spec.v
theories/Seq_Proofs.v
theories/SeqMut_Proofs.v
theories/SeqCmp_Model.v
theories/SeqCmp_Spec.v
theories/SeqCmp_Proofs.v
theories/Properties_Seq.v
theories/Map_Model.v
theories/Map_Spec.v
theories/Map_Proofs.v
theories/Properties_Map.v
theories/Set_Model.v
theories/Set_Spec.v
theories/Set_Proofs.v
theories/Properties_Set.v
theories/Str_Model.v
theories/Str_Spec.v
theories/Str_Proofs.v
theories/Str_Proofs2.v
theories/Str_Proofs3.v
theories/Str_Proofs4.v
theories/Properties_Str.v
theories/Bytes_Model.v
theories/Bytes_Spec.v
theories/Bytes_Proofs.v
theories/Properties_Bytes.v
theories/Codec_Model.v
theories/Codec_Spec.v
theories/Codec_Proofs.v
theories/Codec_Proofs2.v
theories/Properties_Codec.v
theories/Base64_Model.v
theories/Base64_Spec.v
theories/Base64_Proofs.v
theories/Base64_Proofs2.v
theories/Properties_Base64.v
theories/Struct_Model.v
theories/Struct_Spec.v
theories/Struct_Proofs.v
theories/Struct_Proofs2.v
theories/Properties_Struct.v
theories/CharMask_Model.v
theories/CharMask_Spec.v
theories/CharMask_Proofs.v
theories/Properties_CharMask.v
theories/PathSearch_Model.v
theories/PathSearch_Spec.v
theories/PathSearch_Proofs.v
theories/Properties_PathSearch.v
theories/Messages_Model.v
theories/Messages_Spec.v
theories/Messages_Proofs.v
theories/Properties_Messages.v
theories/Options_Model.v
theories/Options_Spec.v
theories/Options_Proofs.v
theories/Properties_Options.v
theories/Deque_Model.v
theories/Deque_Spec.v
theories/Deque_Proofs.v
theories/Properties_Deque.v
theories/ArrTuple_Model.v
theories/ArrTuple_Spec.v
theories/ArrTuple_Proofs.v
theories/Properties_ArrTuple.v
theories/LazySeq_Model.v
theories/LazySeq_Spec.v
theories/LazySeq_Proofs.v
theories/Properties_LazySeq.v
theories/Parse_Spec.v
theories/Parse_Model.v
theories/Parse_Proofs.v
theories/Properties_Parse.v
theories/ListFn_Model.v
theories/ListFn_Spec.v
theories/ListFn_Proofs.v
theories/Properties_ListFn.v
theories/MathFn_Model.v
theories/MathFn_Proofs.v
theories/Properties_MathFn.v
theories/Random_Model.v
theories/Random_Spec.v
theories/Random_Proofs.v
theories/Properties_Random.v
theories/Enforce_Model.v
theories/Enforce_Spec.v
theories/Enforce_Proofs.v
theories/Properties_Enforce.v
theories/Fanout_Model.v
theories/Fanout_Spec.v
theories/Fanout_Proofs.v
theories/Properties_Fanout.v
theories/AllAny_Model.v
theories/Properties_AllAny.v
theories/Verdict_Model.v
theories/Verdict_Spec.v
theories/Verdict_Proofs.v
theories/Properties_Verdict.v
theories/StatusCap_Model.v
theories/StatusCap_Proofs.v
theories/Properties_StatusCap.v
theories/Calendar_Model.v
theories/Calendar_Spec.v
theories/Calendar_Proofs.v
theories/Properties_Calendar.v
theories/Timedelta_Model.v
theories/Timedelta_Spec.v
theories/Timedelta_Proofs.v
theories/Properties_Timedelta.v
theories/Datetime_Model.v
theories/Datetime_Spec.v
theories/Datetime_Proofs.v
theories/Time_Proofs.v
theories/Properties_Datetime.v
theories/Iso_Model.v
theories/Iso_Spec.v
theories/Iso_Proofs.v
theories/Properties_Iso.v
theories/Audit_Model.v
theories/Audit_Spec.v
theories/Audit_Proofs.v
theories/Properties_Audit.v
theories/Explore_Model.v
theories/Explore_Spec.v
theories/Explore_Proofs.v
theories/Cover_Model.v
theories/Cover_Spec.v
theories/Cover_Proofs.v
theories/FlexEq_Model.v
theories/FlexEq_Spec.v
theories/FlexEq_Proofs.v
theories/Pytest_Model.v
theories/Properties_Explore.v
theories/Properties_Cover.v
theories/Properties_FlexEq.v
theories/Regex_Model.v
theories/Regex_Spec.v
theories/Regex_Proofs.v
theories/RegexEntry_Proofs.v
theories/RegexSub_Proofs.v
theories/RegexObj_Proofs.v
theories/Properties_Regex.v
theories/CharClass_Model.v
theories/CharClass_Spec.v
theories/CharClass_Proofs.v
theories/Properties_CharClass.v
theories/StringIO_Model.v
theories/StringIO_Spec.v
theories/StringIO_Proofs.v
theories/Properties_StringIO.v
theories/Inherit_Model.v
theories/Inherit_Spec.v
theories/Inherit_Proofs.v
theories/Properties_Inherit.v
theories/Docstring_Model.v
theories/Docstring_Spec.v
theories/Docstring_Proofs.v
theories/Properties_Docstring.v
theories/Copy_Model.v
theories/Copy_Spec.v
theories/Copy_Proofs.v
theories/Copy_Term.v
theories/Properties_Copy.v
theories/Sig_Model.v
theories/Sig_Spec.v
theories/Sig_Proofs.v
theories/Properties_Sig.v
theories/Json_Model.v
theories/Json_Spec.v
theories/Json_Proofs.v
theories/JsonRead_Proofs.v
theories/JsonWrite_Proofs.v
theories/JsonMore_Proofs.v
theories/JsonErr_Proofs.v
theories/Json_Example.v
theories/Json_Layout.v
theories/Properties_Json.v
theories/Skip_Model.v
theories/Skip_Spec.v
theories/Skip_Proofs.v
theories/Properties_Skip.v
theories/Dec_Model.v
theories/Dec_Spec.v
theories/Dec_Digits.v
theories/Dec_Round.v
theories/Dec_Fix.v
theories/Dec_Arith.v
theories/Dec_Ops.v
theories/Dec_Div.v
theories/Dec_Rem.v
theories/Dec_Nearest.v
theories/Dec_Special.v
theories/Properties_DecArith.v
theories/Dec_Cmp.v
theories/Dec_OrderSpec.v
theories/Dec_Order.v
theories/Dec_Quant.v
theories/Dec_Integral.v
theories/Properties_DecOrder.v
theories/Dec_Next.v
theories/Dec_Sqrt.v
theories/Properties_DecNext.v
theories/Watch_Model.v
theories/Watch_Spec.v
theories/Watch_Files.v
theories/Watch_Pool.v
theories/Properties_Watch.v
theories/Cli_Model.v
theories/Cli_Spec.v
theories/Cli_Proofs.v
theories/Properties_Cli.v
theories/Asserts_Model.v
theories/Asserts_Spec.v
theories/Asserts_Proofs.v
theories/Properties_Asserts.v
theories/Deal_Model.v
theories/Deal_Spec.v
theories/Properties_Deal.v
theories/SymMap_Model.v
theories/SymMap_Spec.v
theories/SymMap_Proofs.v
theories/Properties_SymMap.v
theories/Repr_Model.v
theories/Repr_Spec.v
theories/Repr_Proofs.v
theories/Properties_Repr.v
theories/Clock_Model.v
theories/Clock_Spec.v
theories/Clock_Proofs.v
theories/Properties_Clock.v
theories/Array_Model.v
theories/Array_Spec.v
theories/Array_Proofs.v
theories/Properties_Array.v
theories/Patch_Model.v
theories/Patch_Spec.v
theories/Patch_Proofs.v
theories/Properties_Patch.v
theories/FString_Model.v
theories/FString_Spec.v
theories/FString_Proofs.v
theories/Properties_FString.v
theories/Opcodes_Model.v
theories/Opcodes_Spec.v
theories/Opcodes_Proofs.v
theories/Properties_Opcodes.v
theories/Unify_Model.v
theories/Unify_Spec.v
theories/Unify_Proofs.v
theories/Properties_Unify.v
theories/Overload_Model.v
theories/Overload_Spec.v
theories/Overload_Proofs.v
theories/Properties_Overload.v
theories/DictNew_Model.v
theories/DictNew_Spec.v
theories/DictNew_Proofs.v
theories/Properties_DictNew.v
theories/TypeChoice_Model.v
theories/TypeChoice_Spec.v
theories/TypeChoice_Proofs.v
theories/Properties_TypeChoice.v
theories/ShortCut_Model.v
theories/Properties_ShortCut.v
theories/Targets_Model.v
theories/Targets_Spec.v
theories/Targets_Proofs.v
theories/Properties_Targets.v
theories/Locate_Model.v
theories/Properties_Locate.v
theories/Interps_Model.v
theories/Properties_Interps.v
theories/Callable_Model.v
theories/Callable_Spec.v
theories/Properties_Callable.v
theories/SymType_Model.v
theories/SymType_Spec.v
theories/Properties_SymType.v
theories/Heap_Model.v
theories/Heap_Spec.v
theories/Heap_Proofs.v
theories/Properties_Heap.v
theories/Freeze_Model.v
theories/Freeze_Spec.v
theories/Properties_Freeze.v
theories/InstanceOf_Model.v
theories/InstanceOf_Spec.v
theories/Properties_InstanceOf.v
theories/Wrap_Model.v
theories/Wrap_Spec.v
theories/Properties_Wrap.v
theories/Dec_Text.v
theories/Dec_TextSpec.v
theories/Dec_TextProofs.v
theories/Properties_DecText.v
theories/Cond_Model.v
theories/Cond_Spec.v
theories/Cond_Proofs.v
theories/Properties_Cond.v
theories/Lsp_Model.v
theories/Lsp_Spec.v
theories/Lsp_Proofs.v
theories/Properties_Lsp.v
theories/Raises_Model.v
theories/Raises_Spec.v
theories/Raises_Proofs.v
theories/Properties_Raises.v
theories/SymObj_Model.v
theories/SymObj_Spec.v
theories/Properties_SymObj.v
theories/Registry_Model.v
theories/Registry_Spec.v
theories/Registry_Proofs.v
theories/Properties_Registry.v
theories/CallArgs_Model.v
theories/CallArgs_Spec.v
theories/Properties_CallArgs.v
theories/MutArgs_Model.v
theories/MutArgs_Spec.v
theories/Properties_MutArgs.v
theories/Stubs_Model.v
theories/Stubs_Spec.v
theories/Properties_Stubs.v
theories/StubFind_Model.v
theories/StubFind_Spec.v
theories/Properties_StubFind.v
theories/Tracer_Model.v
theories/Tracer_Spec.v
theories/Properties_Tracer.v
theories/PostOp_Model.v
theories/PostOp_Spec.v
theories/Properties_PostOp.v
theories/StackCache_Model.v
theories/Properties_StackCache.v
theories/CallTarget_Model.v
theories/CallTarget_Spec.v
theories/Properties_CallTarget.v
theories/SmtLit_Model.v
theories/SmtLit_Spec.v
theories/Properties_SmtLit.v
theories/Protocol_Model.v
theories/Protocol_Spec.v
theories/Properties_Protocol.v
theories/PatchSig_Model.v
theories/PatchSig_Spec.v
theories/Properties_PatchSig.v
theories/FloatReal_Model.v
theories/FloatReal_Spec.v
theories/FloatReal_Proofs.v
theories/Properties_FloatReal.v
theories/FloatPrec_Model.v
theories/FloatPrec_Spec.v
theories/Properties_FloatPrec.v
theories/Icontract_Model.v
theories/Icontract_Spec.v
theories/Properties_Icontract.v
theories/EnfCall_Model.v
theories/EnfCall_Spec.v
theories/Properties_EnfCall.v
theories/Oracle_Model.v
theories/Oracle_Spec.v
theories/Oracle_Proofs.v
theories/Properties_Oracle.v
theories/Noise_Model.v
theories/Noise_Spec.v
theories/Properties_Noise.v
theories/Scoped_Model.v
theories/Scoped_Spec.v
theories/Properties_Scoped.v
theories/Verbose_Model.v
theories/Verbose_Spec.v
theories/Properties_Verbose.v
theories/Commands_Model.v
theories/Commands_Spec.v
theories/Properties_Commands.v
theories/DefDict_Model.v
theories/DefDict_Spec.v
theories/Properties_DefDict.v
theories/IncEnc_Model.v
theories/IncEnc_Spec.v
theories/Properties_IncEnc.v
theories/CaseFn_Model.v
theories/CaseFn_Spec.v
theories/Properties_CaseFn.v
theories/NestRepr_Model.v
theories/NestRepr_Spec.v
theories/Properties_NestRepr.v
theories/VarNames_Model.v
theories/VarNames_Spec.v
theories/Properties_VarNames.v
theories/UniNum_Model.v
theories/UniNum_Spec.v
theories/Properties_UniNum.v
theories/Construct_Model.v
theories/Construct_Spec.v
theories/Properties_Construct.v
theories/Special_Model.v
theories/Special_Spec.v
theories/Properties_Special.v
theories/ByteAlias_Model.v
theories/ByteAlias_Spec.v
theories/Properties_ByteAlias.v
theories/MakeInput_Model.v
theories/MakeInput_Spec.v
theories/Properties_MakeInput.v
theories/LineFind_Model.v
theories/LineFind_Spec.v
theories/Properties_LineFind.v
theories/LoadFile_Model.v
theories/LoadFile_Spec.v
theories/Properties_LoadFile.v
theories/SelfCall_Model.v
theories/SelfCall_Spec.v
theories/Properties_SelfCall.v
theories/CacheFn_Model.v
theories/CacheFn_Spec.v
theories/Properties_CacheFn.v
theories/Directive_Model.v
theories/Directive_Spec.v
theories/Properties_Directive.v
theories/TestRefs_Model.v
theories/TestRefs_Spec.v
theories/Properties_TestRefs.v
theories/DecLogic_Model.v
theories/DecLogic_Spec.v
theories/Properties_DecLogic.v
theories/Thousands_Model.v
theories/Thousands_Spec.v
theories/Properties_Thousands.v
theories/DecFormat_Model.v
theories/DecFormat_Spec.v
theories/Properties_DecFormat.v
theories/Strftime_Model.v
theories/Strftime_Spec.v
theories/Properties_Strftime.v
theories/DecFloat_Model.v
theories/DecFloat_Spec.v
theories/Properties_DecFloat.v
theories/DecShift_Model.v
theories/DecShift_Spec.v
theories/Properties_DecShift.v
