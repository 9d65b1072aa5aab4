-Q theories Verif
theories/AngModel.v
theories/AngProofs.v
theories/AngProofs2.v
theories/AngProps.v
theories/AngSpec.v
theories/ArrModel.v
theories/ArrProps.v
theories/AxModel.v
theories/AxProps.v
theories/Base.v
theories/BinFloat.v
theories/BinFloatModel.v
theories/BinFloatProofs.v
theories/BinFloatProps.v
theories/BinFloatSpec.v
theories/BinModel.v
theories/BinProofs.v
theories/BinProofs2.v
theories/BinProofs3.v
theories/BinProofs4.v
theories/BinProofs5.v
theories/BinProps.v
theories/BinSpec.v
theories/CacheModel.v
theories/CacheProofs.v
theories/CacheProps.v
theories/CacheSpec.v
theories/CoordModel.v
theories/CoordProps.v
theories/CoordSpec.v
theories/CosmModel.v
theories/CosmProps.v
theories/DataDictModel.v
theories/DataDictProofs.v
theories/DataDictProps.v
theories/DataDictSpec.v
theories/DataTableModel.v
theories/DataTableProofs.v
theories/DataTableProps.v
theories/DataTableSpec.v
theories/DensModel.v
theories/DensProofs.v
theories/DensProps.v
theories/DensSpec.v
theories/FbinModel.v
theories/FbinProofs.v
theories/FbinProps.v
theories/FbinSpec.v
theories/FcosModel.v
theories/FcosProofs.v
theories/FcosProofs2.v
theories/FcosProofs3.v
theories/FcosProofs4.v
theories/FcosProps.v
theories/FcosSpec.v
theories/FdenModel.v
theories/FdenProofs.v
theories/FdenProofs2.v
theories/FdenProofs3.v
theories/FdenProps.v
theories/FdenSpec.v
theories/FigModel.v
theories/FigProps.v
theories/FintModel.v
theories/FintProofs.v
theories/FintProps.v
theories/FintSpec.v
theories/FioModel.v
theories/FioProps.v
theories/FknnModel.v
theories/FknnProofs.v
theories/FknnProofs2.v
theories/FknnProofs3.v
theories/FknnProofs4.v
theories/FknnProps.v
theories/FknnSpec.v
theories/FlevModel.v
theories/FlevProofs.v
theories/FlevProps.v
theories/FlevSpec.v
theories/FmtModel.v
theories/FmtProps.v
theories/FmtSpec.v
theories/FortModel.v
theories/FortProofs.v
theories/FortProps.v
theories/FortSpec.v
theories/FquaModel.v
theories/FquaProofs.v
theories/FquaProofs2.v
theories/FquaProofs3.v
theories/FquaProofs4.v
theories/FquaProofs5.v
theories/FquaProofs6.v
theories/FquaProps.v
theories/FquaSpec.v
theories/FrameModel.v
theories/FrameProofs.v
theories/FrameProps.v
theories/FrameSpec.v
theories/FredModel.v
theories/FredProofs.v
theories/FredProofs2.v
theories/FredProofs3.v
theories/FredProofs4.v
theories/FredProps.v
theories/FredSpec.v
theories/GfltModel.v
theories/GfltProofs.v
theories/GfltProofs2.v
theories/GfltProofs3.v
theories/GfltProofs4.v
theories/GfltProofs5.v
theories/GfltProps.v
theories/GfltSpec.v
theories/GravModel.v
theories/GravProofs.v
theories/GravProofs2.v
theories/GravProofs3.v
theories/GravProps.v
theories/GravShapeProps.v
theories/GravSpec.v
theories/GravWaveProps.v
theories/GroupModel.v
theories/GroupProofs.v
theories/GroupProps.v
theories/GroupSpec.v
theories/H5Model.v
theories/H5Proofs.v
theories/H5Proofs2.v
theories/H5Proofs3.v
theories/H5Proofs4.v
theories/H5Proofs5.v
theories/H5Props.v
theories/H5Spec.v
theories/H5cModel.v
theories/H5cProofs.v
theories/H5cProps.v
theories/H5cSpec.v
theories/H5gModel.v
theories/H5gProps.v
theories/H5mProps.v
theories/H5tModel.v
theories/H5tProps.v
theories/HaloModel.v
theories/HaloProofs.v
theories/HaloProps.v
theories/InterpFloatModel.v
theories/InterpFloatProofs.v
theories/InterpFloatProps.v
theories/InterpModel.v
theories/InterpProofs.v
theories/InterpProps.v
theories/KernModel.v
theories/KernProofs.v
theories/KernProps.v
theories/LayModel.v
theories/LayProps.v
theories/LcdmModel.v
theories/LcdmProofs.v
theories/LcdmProps.v
theories/LinModel.v
theories/LinProofs.v
theories/MatModel.v
theories/MatProps.v
theories/MeshFloatModel.v
theories/MeshFloatProofs.v
theories/MeshFloatProps.v
theories/MeshFloatSpec.v
theories/MeshModel.v
theories/MeshProofs.v
theories/MeshProofs2.v
theories/MeshProofs3.v
theories/MeshProofs4.v
theories/MeshProps.v
theories/MeshSpec.v
theories/NearModel.v
theories/NearProofs.v
theories/NearProps.v
theories/NearSpec.v
theories/NfltModel.v
theories/NfltProofs.v
theories/NfltProofs2.v
theories/NfltProofs3.v
theories/NfltProps.v
theories/NfltSpec.v
theories/OdictSpec.v
theories/OrderSpec.v
theories/ParamModel.v
theories/ParamProps.v
theories/ParamSpec.v
theories/PiBound.v
theories/PowModel.v
theories/PowProofs.v
theories/PowProofs2.v
theories/PowProofs3.v
theories/PowProofs4.v
theories/PowProofs5.v
theories/PowProps.v
theories/PowSpec.v
theories/PrepFloatModel.v
theories/PrepFloatProofs.v
theories/PrepFloatProps.v
theories/PrepFloatSpec.v
theories/PrepModel.v
theories/PrepProofs.v
theories/PrepProofs2.v
theories/PrepProps.v
theories/ProcFloat.v
theories/ProcModel.v
theories/ProcProofs.v
theories/ProcProofs2.v
theories/ProcProps.v
theories/ProcSpec.v
theories/RawModel.v
theories/RawProofs.v
theories/RawProps.v
theories/RawSpec.v
theories/RcModel.v
theories/ReduModel.v
theories/ReduProofs.v
theories/ReduProofs2.v
theories/ReduProofs3.v
theories/ReduProps.v
theories/ReduSpec.v
theories/ReduWeightProps.v
theories/RegeModel.v
theories/RegeProofs.v
theories/RegeProps.v
theories/RegeSpec.v
theories/RegrModel.v
theories/RegrProofs.v
theories/RegrProps.v
theories/RegrSpec.v
theories/ReprModel.v
theories/ReprProps.v
theories/RngModel.v
theories/RngProps.v
theories/SampModel.v
theories/SampProofs.v
theories/SampProps.v
theories/SampSpec.v
theories/SheetModel.v
theories/SheetProofs.v
theories/SheetProps.v
theories/SheetSpec.v
theories/Str.v
theories/TabModel.v
theories/TabProps.v
theories/TidModel.v
theories/TidProofs.v
theories/TidProofs2.v
theories/TidProps.v
theories/TidSpec.v
theories/TreeModel.v
theories/TreeProofs.v
theories/TreeProps.v
theories/TreeSpec.v
theories/TwoModel.v
theories/TwoProofs.v
theories/TwoProps.v
theories/TwoSpec.v
theories/VdModel.v
theories/VdProps.v
theories/YamlModel.v
theories/YamlProofs.v
theories/YamlProps.v
theories/YamlSpec.v
