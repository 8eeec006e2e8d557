-Q theories Verif
theories/Base.v
theories/BaseFacts.v
theories/XlibModel.v
theories/XlibSpec.v
theories/XlibProofs.v
theories/XlibProps.v
theories/PoolModel.v
theories/PoolSpec.v
theories/PoolProofs.v
theories/PoolProps.v
theories/AssignModel.v
theories/AssignSpec.v
theories/AssignProofs.v
theories/AssignFull.v
theories/AssignProps.v
theories/Arith.v
theories/ExprModel.v
theories/LinkExprModel.v
theories/ExprSpec.v
theories/ExprLayout.v
theories/ExprTree.v
theories/LinkLayout.v
theories/ArithProofs.v
theories/ExprProofs.v
theories/ReduceProofs.v
theories/LinkExprProofs.v
theories/ExprTotal.v
theories/ExprProps.v
theories/LinkModel.v
theories/LinkSpec.v
theories/ResolveProofs.v
theories/PatchProofs.v
theories/SmartProofs.v
theories/NeededProofs.v
theories/LinkProps.v
theories/ObjModel.v
theories/ObjSpec.v
theories/ObjProofs.v
theories/ObjWriteModel.v
theories/ObjWriteSpec.v
theories/ObjWriteProofs.v
theories/ObjProps.v
theories/FileModel.v
theories/FileProofs.v
theories/ImageModel.v
theories/ImageSpec.v
theories/ImageProofs.v
theories/ImageProps.v
theories/HeaderModel.v
theories/HeaderSpec.v
theories/HeaderProofs.v
theories/HeaderProps.v
theories/FormatModel.v
theories/FormatSpec.v
theories/FormatProofs.v
theories/FormatPaint.v
theories/FormatProps.v
theories/HunkModel.v
theories/HunkSpec.v
theories/HunkProofs.v
theories/HunkProps.v
theories/MachineModel.v
theories/MachineSpec.v
theories/MachineProofs.v
theories/MachineProps.v
theories/OptModel.v
theories/OptSpec.v
theories/OptProps.v
theories/SectModel.v
theories/SectSpec.v
theories/SectProofs.v
theories/SectTouch.v
theories/SectErrors.v
theories/SectRun.v
theories/SectBss.v
theories/SectProps.v
theories/SymModel.v
theories/SymSpec.v
theories/SymProofs.v
theories/SymRs.v
theories/SymProps.v
theories/BinModel.v
theories/BinSpec.v
theories/BinProofs.v
theories/BinImage.v
theories/BinProps.v
theories/RelocSpec.v
theories/RelocProofs.v
theories/RelocProps.v
theories/ParseModel.v
theories/ParseSpec.v
theories/ParseFuel.v
theories/ParseProofs.v
theories/ParseProps.v
theories/LexModel.v
theories/LexSpec.v
theories/LexProofs.v
theories/LexProps.v
theories/ControlModel.v
theories/ControlSpec.v
theories/ControlProofs.v
theories/ControlComplete.v
theories/ControlProps.v
theories/ScanModel.v
theories/ScanSpec.v
theories/ScanProofs.v
theories/ScanProps.v
theories/RandModel.v
theories/RandProofs.v
theories/RandProps.v
theories/MdefModel.v
theories/MdefSpec.v
theories/MdefProofs.v
theories/MdefFile.v
theories/MdefProps.v
theories/InstrSpec.v
theories/InstrProofs.v
theories/ChipModel.v
theories/ChipSpec.v
theories/ChipProofs.v
theories/ChipOnly.v
theories/ChipProps.v
theories/MipsModel.v
theories/MipsSpec.v
theories/MipsProofs.v
theories/MipsOnly.v
theories/MipsDecode.v
theories/MipsProps.v
theories/X65Model.v
theories/X65Spec.v
theories/X65Proofs.v
theories/X65Parse.v
theories/X65Run.v
theories/X65Only.v
theories/X65Range.v
theories/X65Props.v
theories/PcRelSpec.v
theories/PcRelProps.v
theories/TokModel.v
theories/TokSpec.v
theories/TokProofs.v
theories/TokProps.v
theories/StrModel.v
theories/StrSpec.v
theories/StrProofs.v
theories/StrProps.v
theories/WholeModel.v
theories/WholeSpec.v
theories/WholeProofs.v
theories/WholeProps.v
theories/Z80Model.v
theories/Z80Spec.v
theories/Z80Check.v
theories/Z80Run.v
theories/Z80Parse.v
theories/Z80Only.v
theories/Z80Range.v
theories/Z80Props.v
theories/AttrSpec.v
theories/AttrProofs.v
theories/LineProofs.v
theories/AttrProps.v
theories/M6809Model.v
theories/M6809Spec.v
theories/M6809Proofs.v
theories/M6809Range.v
theories/M6809Only.v
theories/M6809Props.v
theories/DcpuModel.v
theories/DcpuSpec.v
theories/DcpuProofs.v
theories/DcpuOnly.v
theories/DcpuProps.v
theories/ReportModel.v
theories/ReportSpec.v
theories/ReportProofs.v
theories/ReportProps.v
theories/ElfModel.v
theories/ElfSpec.v
theories/ElfProofs.v
theories/ElfProofs2.v
theories/ElfProps.v
theories/ElfReadModel.v
theories/ElfReadSpec.v
theories/ElfReadProofs.v
theories/ElfReadProofs2.v
theories/ElfReadProofs3.v
theories/ElfReadProofs4.v
theories/ElfReadProofs5.v
theories/ElfReadProofs6.v
theories/ElfReadProps.v
theories/AmiModel.v
theories/AmiSpec.v
theories/AmiProofs.v
theories/AmiProofs2.v
theories/AmiProofs3.v
theories/AmiProofs4.v
theories/AmiProofs5.v
theories/AmiProps.v
theories/M68kModel.v
theories/M68kSpec.v
theories/M68kProofs.v
theories/M68kEa.v
theories/M68kFull.v
theories/M68kParse.v
theories/M68kModes.v
theories/M68kShapes.v
theories/M68kParen.v
theories/M68kOperand.v
theories/M68kHandlers.v
theories/M68kInstr.v
theories/M68kInstr2.v
theories/M68kInstr3.v
theories/M68kInstr4.v
theories/M68kInstr5.v
theories/M68kFront.v
theories/M68kRuns.v
theories/M68kAll.v
theories/M68kWhole.v
theories/M68kProps.v
theories/DepModel.v
theories/DepSpec.v
theories/DepProps.v
theories/Rc8Model.v
theories/Rc8Spec.v
theories/Rc8Run.v
theories/Rc8Imm.v
theories/Rc8Proofs.v
theories/Rc8Props.v
theories/Rc8JumpSpec.v
theories/Rc8Jump.v
theories/Rc8JumpProps.v
theories/Rc8MoreSpec.v
theories/Rc8More.v
theories/Rc8Option.v
theories/Rc8Single.v
theories/Rc8MoreProps.v
theories/M68kMovemModel.v
theories/M68kMovemSpec.v
theories/M68kMovem.v
theories/M68kMovemProps.v
