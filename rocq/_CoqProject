-Q theories Verif
theories/Base.v
theories/StateDataModel.v
theories/StateDataSpec.v
theories/StateDataProofs.v
theories/StateDataProps.v
theories/DedupModel.v
theories/DedupProofs.v
theories/DedupProps.v
theories/Num.v
theories/NumbersModel.v
theories/NumbersSpec.v
theories/NumbersProofs.v
theories/NumbersProps.v
theories/Replay.v
theories/CollectionsModel.v
theories/CollectionsSpec.v
theories/CollectionsProofs.v
theories/CollectionsProps.v
theories/DisjointModel.v
theories/DisjointSpec.v
theories/DisjointProofs.v
theories/DisjointProps.v
theories/GraphModel.v
theories/GraphSpec.v
theories/GraphProofs.v
theories/GraphProofs2.v
theories/GraphProofs3.v
theories/GraphProps.v
theories/SliceModel.v
theories/SliceSpec.v
theories/SliceProofs.v
theories/SliceProps.v
theories/ShapeModel.v
theories/ShapeSpec.v
theories/ShapeProofs.v
theories/ShapeProofs2.v
theories/ShapeProps.v
theories/NodeSpec.v
theories/NodeLib.v
theories/BinaryModel.v
theories/BinarySpec.v
theories/NodeShape.v
theories/BinaryProofs.v
theories/BinaryProps.v
theories/ElemModel.v
theories/ElemSpec.v
theories/ElemProofs.v
theories/ElemProps.v
theories/NaryModel.v
theories/NarySpec.v
theories/NaryProofs.v
theories/NaryProps.v
theories/ReduceModel.v
theories/ReduceSpec.v
theories/ReduceProofs.v
theories/ReduceProps.v
theories/PartialModel.v
theories/PartialSpec.v
theories/PartialProofs.v
theories/PartialProps.v
theories/ConcatModel.v
theories/ConcatSpec.v
theories/ConcatProofs.v
theories/ConcatProofs2.v
theories/ConcatProps.v
theories/QuadModel.v
theories/QuadSpec.v
theories/QuadProofs.v
theories/QuadProofs2.v
theories/QuadProofs3.v
theories/QuadProps.v
theories/PermModel.v
theories/PermSpec.v
theories/PermProofs.v
theories/PermProofs2.v
theories/PermProps.v
theories/ArithModel.v
theories/ArithSpec.v
theories/ArithProofs.v
theories/ArithProps.v
theories/SizeModel.v
theories/SizeSpec.v
theories/SizeProofs.v
theories/SizeProps.v
theories/LockModel.v
theories/LockSpec.v
theories/LockProofs.v
theories/LockProofs2.v
theories/LockProofs3.v
theories/LockProps.v
theories/IoModel.v
theories/IoSpec.v
theories/IoProofs.v
theories/IoProofs2.v
theories/IoProps.v
theories/BasicModel.v
theories/BasicSpec.v
theories/BasicProofs.v
theories/BasicProps.v
theories/BoundsModel.v
theories/BoundsSpec.v
theories/BoundsProofs.v
theories/BoundsProps.v
theories/ViewModel.v
theories/ViewSpec.v
theories/ViewProofs.v
theories/ViewProofs2.v
theories/ViewProofs3.v
theories/ViewProofs4.v
theories/ViewProofs5.v
theories/ViewProofs6.v
theories/ViewProps.v
theories/ProposeModel.v
theories/ProposeSpec.v
theories/ProposeProofs.v
theories/ProposeProofs2.v
theories/ProposeProofs3.v
theories/ProposeProps.v
theories/AdvModel.v
theories/AdvSpec.v
theories/AdvProofs.v
theories/AdvProofs2.v
theories/AdvProofs3.v
theories/AdvProofs4.v
theories/AdvProofs5.v
theories/AdvProofs6.v
theories/AdvProofs7.v
theories/AdvProofs8.v
theories/AdvProofs9.v
theories/AdvProofs10.v
theories/AdvSpec2.v
theories/AdvProofs11.v
theories/AdvProofs12.v
theories/AdvProps.v
theories/PyModel.v
theories/GenModel.v
theories/PySpec.v
theories/GenSpec.v
theories/PyProofs.v
theories/PyValues.v
theories/PyRules.v
theories/GenProofs.v
theories/GenProofs2.v
theories/GenProofs3.v
theories/GenProofs4.v
theories/GenProofs5.v
theories/GenProofs6.v
theories/GenProofs7.v
theories/GenProofs8.v
theories/GenProofs9.v
theories/GenProofs10.v
theories/GenProofs11.v
theories/GenProps.v
theories/RunModel.v
theories/RunSpec.v
theories/RunProofs.v
theories/RunProofs2.v
theories/RunProofs3.v
theories/RunProofs4.v
theories/RunProofs5.v
theories/RunProps.v
theories/GetSpec.v
theories/GetProofs.v
theories/GetProofs2.v
theories/GetProofs3.v
theories/GetProofs4.v
theories/GetProofs5.v
theories/GetProps.v
theories/EqModel.v
theories/EqSpec.v
theories/EqProofs.v
theories/EqProofs2.v
theories/EqProofs3.v
theories/EqProps.v
theories/PowSpec.v
theories/PowProofs.v
theories/PowProps.v
theories/StateSizeModel.v
theories/StateSizeSpec.v
theories/StateSizeProofs.v
theories/StateSizeProps.v
theories/FileModel.v
theories/FileSpec.v
theories/FileProofs.v
theories/FileProofs2.v
theories/FileProofs3.v
theories/FileProofs4.v
theories/FileProofs5.v
theories/FileProofs6.v
theories/FileProps.v
theories/DblSpec.v
theories/DblModel.v
theories/DblProofs.v
theories/DblProofs2.v
theories/DblProofs3.v
theories/DblProps.v
theories/GroupModel.v
theories/GroupSpec.v
theories/GroupProofs.v
theories/GroupProofs2.v
theories/GroupProofs3.v
theories/GroupProps.v
theories/RunSpec2.v
theories/RunProofs6.v
theories/RunProofs7.v
theories/RunProofs8.v
theories/RunProofs9.v
theories/RunProofs10.v
theories/TypedProps.v
theories/CqmModel.v
theories/CqmSpec.v
theories/CqmProofs.v
theories/CqmProps.v
theories/CqmProofs2.v
theories/RunProofs11.v
theories/RunProofs12.v
theories/ViewProofs7.v
theories/RunProofs13.v
theories/RunProofs14.v
theories/QuboModel.v
theories/QuboSpec.v
theories/QuboProofs.v
theories/QuboProps.v
theories/CoordModel.v
theories/CoordSpec.v
theories/CoordProofs.v
theories/CoordProps.v
theories/MaskSpec.v
theories/MaskModel.v
theories/MaskProofs.v
theories/MaskProps.v
theories/NetModel.v
theories/NetSpec.v
theories/NetProofs.v
theories/NetProps.v
theories/FutureModel.v
theories/FutureSpec.v
theories/FutureProofs.v
theories/FutureProps.v
theories/ScalarProps.v
theories/FeasModel.v
theories/FeasSpec.v
theories/FeasProofs.v
theories/FeasProps.v
theories/BufModel.v
theories/BufSpec.v
theories/BufProofs.v
theories/BufProps.v
theories/FileProps2.v
