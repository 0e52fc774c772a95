-Q theories Verif
theories/Base.v
theories/SortModel.v
theories/SortSpec.v
theories/SortProofs.v
theories/SortProps.v
theories/DequeModel.v
theories/DequeSpec.v
theories/DequeProofs.v
theories/DequeProps.v
theories/StretchyModel.v
theories/StretchySpec.v
theories/StretchyProofs.v
theories/StretchyProps.v
theories/MangleModel.v
theories/MangleProofs.v
theories/MangleSpec.v
theories/MangleProps.v
theories/BitsModel.v
theories/BitsSpec.v
theories/BitsProofs.v
theories/BitSetProofs.v
theories/BitsProps.v
theories/IntModel.v
theories/IntSpec.v
theories/IntProofs.v
theories/IntBitsProofs.v
theories/IntGcdProofs.v
theories/IntProps.v
theories/RangeModel.v
theories/RangeSpec.v
theories/RangeProofs.v
theories/RangeInterProofs.v
theories/RangeMakeProofs.v
theories/RangeProps.v
theories/NumStrModel.v
theories/NumStrSpec.v
theories/NumStrProofs.v
theories/NumStrProps.v
theories/DateModel.v
theories/DateSpec.v
theories/DateProofs.v
theories/DateProps.v
theories/DateStrModel.v
theories/DateStrSpec.v
theories/DateStrProofs.v
theories/DateIsoProofs.v
theories/DateStrProps.v
theories/SplitModel.v
theories/SplitSpec.v
theories/SplitProofs.v
theories/SplitProps.v
theories/LocModel.v
theories/LocSpec.v
theories/LocProofs.v
theories/LocProps.v
theories/ClassModel.v
theories/ClassSpec.v
theories/ClassProofs.v
theories/ClassProps.v
theories/TypeModel.v
theories/TypeSpec.v
theories/TypeProofs.v
theories/TypeProps.v
theories/TableModel.v
theories/TableSpec.v
theories/TableProbe.v
theories/TableVec.v
theories/TableOps.v
theories/TableProofs.v
theories/TableProps.v
theories/HashModel.v
theories/HashSpec.v
theories/HashProofs.v
theories/SymProofs.v
theories/HashProps.v
theories/ListModel.v
theories/ListSpec.v
theories/ListProofs.v
theories/ListCutProofs.v
theories/ListCopyProofs.v
theories/ListSizeProofs.v
theories/ListProps.v
theories/LockModel.v
theories/LockSpec.v
theories/LockProofs.v
theories/LockRecProofs.v
theories/LockSemProofs.v
theories/LockRWProofs.v
theories/LockProps.v
theories/SeqStreamModel.v
theories/SeqStreamSpec.v
theories/SeqStreamProofs.v
theories/SeqStreamProps.v
theories/FileStreamModel.v
theories/FileStreamSpec.v
theories/FileStreamProofs.v
theories/FileStreamProps.v
theories/FileStreamBothProofs.v
theories/NlxModel.v
theories/NlxSpec.v
theories/NlxProofs.v
theories/NlxProps.v
theories/DblModel.v
theories/DblSpec.v
theories/DblProofs.v
theories/DblShiftProofs.v
theories/DblDivProofs.v
theories/DblPowProofs.v
theories/DblProps.v
theories/DispModel.v
theories/DispSpec.v
theories/DispProofs.v
theories/DispSortProofs.v
theories/DispTermProofs.v
theories/DispProps.v
theories/DispCheck.v
theories/DispUniformProofs.v
theories/DispClassProofs.v
theories/DispEngineProofs.v
theories/DispRunProofs.v
theories/DispBuildProofs.v
theories/DispCallProofs.v
theories/DispHistoryProofs.v
theories/CollModel.v
theories/CollSpec.v
theories/CollProofs.v
theories/CollIterProofs.v
theories/CollAlignProofs.v
theories/CollSourceProofs.v
theories/CollProps.v
theories/CollAgree.v
theories/CollMapProofs.v
theories/CollDequeProofs.v
theories/CollMapTopProofs.v
theories/AccModel.v
theories/AccSpec.v
theories/AccProofs.v
theories/AccMapProofs.v
theories/AccProps.v
theories/EqModel.v
theories/EqSpec.v
theories/EqProofs.v
theories/EqProps.v
theories/SubModel.v
theories/SubSpec.v
theories/SubProofs.v
theories/SubProps.v
theories/SeqOpModel.v
theories/SeqOpSpec.v
theories/SeqOpProofs.v
theories/SeqOpProps.v
theories/BinopModel.v
theories/BinopSpec.v
theories/BinopProofs.v
theories/BinopProps.v
theories/LexTable.v
theories/LexModel.v
theories/LexSpec.v
theories/LexProofs.v
theories/LitModel.v
theories/LitSpec.v
theories/LitProofs.v
theories/LexPathProofs.v
theories/LitIntProofs.v
theories/LexProps.v
theories/LitIntProps.v
theories/BlankSpec.v
theories/BlankProofs.v
theories/BlankProps.v
theories/StrSpec.v
theories/StrProofs.v
theories/StrProps.v
theories/FloatSpec.v
theories/FloatProofs.v
theories/FloatProps.v
theories/SelModel.v
theories/SelSpec.v
theories/SelProofs.v
theories/SelProofs2.v
theories/SelProps.v
theories/MultiSpec.v
theories/MultiProofs.v
theories/MultiProps.v
theories/FmtModel.v
theories/FmtSpec.v
theories/FmtProofs.v
theories/FmtProps.v
theories/RandModel.v
theories/RandSpec.v
theories/RandProofs.v
theories/RandProps.v
theories/ByteModel.v
theories/ByteSpec.v
theories/ByteProofs.v
theories/ByteProps.v
theories/PlistModel.v
theories/PlistSpec.v
theories/PlistProofs.v
theories/PlistProps.v
theories/ArrModel.v
theories/ArrSpec.v
theories/ArrProofs.v
theories/ArrProps.v
theories/FpModel.v
theories/FpSpec.v
theories/FpProofs.v
theories/FpProps.v
theories/TlModel.v
theories/TlSpec.v
theories/TlProofs.v
theories/TlProps.v
theories/FpRoundSpec.v
theories/FpRoundProofs.v
theories/FpRoundProps.v
theories/CollectModel.v
theories/CollectSpec.v
theories/CollectProofs.v
theories/CollectProps.v
theories/FindModel.v
theories/FindSpec.v
theories/FindProofs.v
theories/FindProps.v
theories/GlobSpec.v
theories/GlobModel.v
theories/GlobProofs.v
theories/GlobProofs2.v
theories/GlobProofs3.v
theories/GlobProofs4.v
theories/GlobProps.v
theories/RxSpec.v
theories/RxModel.v
theories/RxProofs.v
theories/RxProps.v
theories/DfaModel.v
theories/DfaProofs.v
theories/DfaProps.v
