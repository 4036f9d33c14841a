-Q theories Verif
theories/Base.v
theories/SapModel.v
theories/MoverModel.v
theories/SapProofs.v
theories/MoverProofs.v
theories/SapSpec.v
theories/SapRefine.v
theories/UniformProofs.v
theories/StorageProps.v
theories/SapCpp.v
theories/SapCppProofs.v
theories/CppProps.v
theories/Vec.v
theories/TrackModel.v
theories/VecProofs.v
theories/Geometry.v
theories/FindFacetProofs.v
theories/FindFacetProps.v
theories/BcModel.v
theories/TrackProofs.v
theories/TrackGeomProofs.v
theories/Conforming.v
theories/TrackEval.v
theories/TrackProps.v
theories/TrackGeomProps.v
theories/ReflectProps.v
theories/TrajModel.v
theories/TrajProofs.v
theories/TrajProps.v
theories/TrajRecProps.v
theories/FieldProps.v
theories/Rounding.v
theories/RoundProps.v
theories/DiagModel.v
theories/DiagProofs.v
theories/DumpProps.v
theories/SumProps.v
theories/HistoryProps.v
theories/TrajRunProps.v
theories/AcceptProps.v
theories/SourceModel.v
theories/SourceProps.v
theories/UidProps.v
theories/DensityModel.v
theories/DensityProps.v
theories/BcTableModel.v
theories/BcTableProps.v
theories/MeshModel.v
theories/MeshProps.v
theories/LineMeshModel.v
theories/LineMeshProps.v
theories/RegionModel.v
theories/RegionProps.v
theories/InsideModel.v
theories/InsideProps.v
theories/OrientProps.v
theories/CppTrackModel.v
theories/CppTrackProps.v
theories/SpeciesModel.v
theories/SpeciesProps.v
theories/PstructModel.v
theories/PstructProps.v
theories/RunModel.v
theories/RunProps.v
theories/RunTotalProps.v
theories/MainProps.v
theories/MainTotalProps.v
theories/TransparentProps.v
theories/HarmlessProps.v
theories/PointProps.v
theories/PointRunProps.v
theories/LocateModel.v
theories/LocateProps.v
theories/TrajFileModel.v
theories/TrajFileProps.v
theories/TrajFileRunProps.v
theories/TriMeshModel.v
theories/TriMeshProps.v
theories/RectMeshProofs.v
theories/RectMeshProps.v
theories/RectFillProps.v
theories/CircMeshProps.v
theories/CircMoreProps.v
theories/RankProps.v
theories/RectTrackProofs.v
theories/RectTrackProps.v
theories/DomainRunProofs.v
theories/RectRunProps.v
theories/MeshFieldModel.v
theories/MeshFieldProps.v
theories/CppPassProps.v
theories/CppFieldModel.v
theories/BatchProofs.v
theories/BatchProps.v
theories/CppFieldProps.v
theories/OldMoverModel.v
theories/OldMoverProps.v
theories/AccelProps.v
theories/CppStepModel.v
theories/CppStepProps.v
theories/DeltaModel.v
theories/DeltaProps.v
theories/SolveModel.v
theories/SolveProps.v
theories/RadialReflectProps.v
theories/PicModel.v
theories/PicProps.v
