-Q theories Verif
theories/Base.v
theories/BaseFacts.v
theories/MemModel.v
theories/MemSpec.v
theories/MemProofs.v
theories/MemProperties.v
theories/TableModel.v
theories/TableSpec.v
theories/TableProofs.v
theories/TableProperties.v
theories/FloatModel.v
theories/State.v
theories/StrModel.v
theories/ValueModel.v
theories/ObjsModel.v
theories/StackModel.v
theories/GcModel.v
theories/VmModel.v
theories/MonadFacts.v
theories/StrSpec.v
theories/StrProofs.v
theories/StrProperties.v
theories/TextProofs.v
theories/ValueSpec.v
theories/ValueProofs.v
theories/ValueProperties.v
theories/StackProofs.v
theories/StackSpec.v
theories/StackProperties.v
theories/ObjsSpec.v
theories/ObjsProofs.v
theories/ObjsProperties.v
theories/VmSpec.v
theories/VmInv.v
theories/VmSafety.v
theories/VmCall.v
theories/GcSpec.v
theories/GcProofs.v
theories/VmStep.v
theories/HostModel.v
theories/HostProofs.v
theories/VmProperties.v
theories/GcProperties.v
theories/TeardownModel.v
theories/HistSpec.v
theories/HistProofs.v
theories/HistProperties.v
theories/FrameProofs.v
theories/ApiModel.v
theories/OpSpec.v
theories/OpProofs.v
theories/OpProperties.v
theories/CtxProofs.v
theories/CallSpec.v
theories/CallProofs.v
theories/CallProperties.v
theories/CoroProofs.v
theories/CoroProperties.v
theories/InsnSpec.v
theories/InsnProofs.v
theories/InsnProperties.v
theories/TokenModel.v
theories/TokenSpec.v
theories/TokenProofs.v
theories/TokenProperties.v
theories/RegModel.v
theories/RegSpec.v
theories/RegProofs.v
theories/RegProperties.v
theories/CsModel.v
theories/ExprModel.v
theories/CompModel.v
theories/KFacts.v
theories/ParseSpec.v
theories/ParseProofs.v
theories/TraceProofs.v
theories/ParseAccept.v
theories/ParseProperties.v
theories/TermProofs.v
theories/TermProperties.v
theories/FoldSpec.v
theories/FoldProperties.v
theories/RunSpec.v
theories/RepSpec.v
theories/HeapProofs.v
theories/ObjInsn.v
theories/CodeRel.v
theories/MachProofs.v
theories/UseProofs.v
theories/ExecProofs.v
theories/SimProofs.v
theories/HostCallProofs.v
theories/EmitProofs.v
theories/DidProofs.v
theories/LawProofs.v
theories/StmtProofs.v
theories/FaultSpec.v
theories/FaultProofs.v
theories/RunProofs.v
theories/RunProperties.v
theories/FaultProperties.v
theories/HostCallProperties.v
theories/ReplModel.v
theories/ReplProofs.v
theories/SessionSpec.v
theories/SessionProofs.v
theories/DeclareProofs.v
theories/SessionProperties.v
theories/ReplSpec.v
theories/ReplProperties.v
theories/LeaveSpec.v
theories/LeaveProofs.v
theories/LeaveScope.v
theories/LeaveProperties.v
theories/NameSpec.v
theories/NameProofs.v
theories/NameProperties.v
theories/NestSpec.v
theories/NestProofs.v
theories/NestProperties.v
theories/FailModel.v
theories/FailSpec.v
theories/FailProofs.v
theories/FailProperties.v
theories/SaveModel.v
theories/SaveSpec.v
theories/SaveProofs.v
theories/SaveProperties.v
theories/SaveRound.v
theories/RoundProperties.v
theories/CutSpec.v
theories/CutProofs.v
theories/CutProperties.v
theories/ShrinkModel.v
theories/ShrinkSpec.v
theories/ShrinkProofs.v
theories/ShrinkProperties.v
theories/UniqSpec.v
theories/UniqProofs.v
theories/DetProofs.v
theories/UniqProperties.v
theories/SliceSpec.v
theories/SliceProofs.v
theories/SliceProperties.v
theories/FloatSpec.v
theories/FloatProofs.v
theories/FloatProperties.v
theories/CallbackModel.v
theories/CallbackSpec.v
theories/CallbackProofs.v
theories/CallbackProperties.v
theories/BufModel.v
theories/BufSpec.v
theories/BufProofs.v
theories/BufProperties.v
