-Q theories Verif
theories/AP/Model.v
theories/AP/Proofs.v
theories/AP/Props.v
theories/AP/Spec.v
theories/Alias/Model.v
theories/Alias/Proofs.v
theories/Alias/Proofs2.v
theories/Alias/Proofs3.v
theories/Alias/Props.v
theories/Alias/Spec.v
theories/Arrays/Model.v
theories/Arrays/Proofs.v
theories/Arrays/Props.v
theories/Arrays/Spec.v
theories/Assoc/Model.v
theories/Assoc/Proofs.v
theories/Assoc/Props.v
theories/Assoc/Spec.v
theories/Base/Fs.v
theories/Base/FsFacts.v
theories/Base/Py.v
theories/Base/PyFacts.v
theories/Base/Sort.v
theories/Base/Vec.v
theories/Base/Xml.v
theories/Box/Model.v
theories/Box/Proofs.v
theories/Box/Props.v
theories/Box/Spec.v
theories/Cloud/Model.v
theories/Cloud/Proofs.v
theories/Cloud/Props.v
theories/Cloud/Spec.v
theories/Color/Model.v
theories/Color/Props.v
theories/Color/Spec.v
theories/Contain/Model.v
theories/Contain/Props.v
theories/Contain/Spec.v
theories/Copy/Proofs.v
theories/Copy/Props.v
theories/Copy/Spec.v
theories/Cube/Model.v
theories/Cube/Proofs.v
theories/Cube/Props.v
theories/Cube/Spec.v
theories/Depth/Model.v
theories/Depth/Proofs.v
theories/Depth/Props.v
theories/Depth/Spec.v
theories/Doc/Again.v
theories/Doc/Broken.v
theories/Doc/Facts.v
theories/Doc/Materials.v
theories/Doc/Model.v
theories/Doc/Parts.v
theories/Doc/Props.v
theories/Doc/Spec.v
theories/Doc/Whole.v
theories/Equal/Model.v
theories/Equal/Proofs.v
theories/Equal/Props.v
theories/Equal/Spec.v
theories/Extra/Proofs.v
theories/Extra/Props.v
theories/Extra/Spec.v
theories/Fetch/Model.v
theories/Fetch/Proofs.v
theories/Fetch/Props.v
theories/Fetch/Spec.v
theories/Foreign/Props.v
theories/Foreign/Read.v
theories/Foreign/Refused.v
theories/Foreign/Spec.v
theories/Foreign/Whole.v
theories/Frame/MoveProofs.v
theories/Frame/Proofs.v
theories/Frame/Props.v
theories/Frame/Spec.v
theories/Geom/Model.v
theories/Geom/Proofs.v
theories/Geom/Props.v
theories/Geom/Spec.v
theories/Glb/LoadProofs.v
theories/Glb/Model.v
theories/Glb/Proofs.v
theories/Glb/Props.v
theories/Glb/SaveProofs.v
theories/Glb/Spec.v
theories/Glb/Toy.v
theories/Gltf/Model.v
theories/Gltf/Proofs.v
theories/Gltf/Props.v
theories/Gltf/Spec.v
theories/Json/Facts.v
theories/Json/Grammar.v
theories/Json/Model.v
theories/Json/Numbers.v
theories/Json/Printing.v
theories/Json/Props.v
theories/Json/Sound.v
theories/Json/Spec.v
theories/Json/Strings.v
theories/Json/Writing.v
theories/Mesh/Model.v
theories/Mesh/Normals.v
theories/Mesh/Proofs.v
theories/Mesh/Props.v
theories/Mesh/Spec.v
theories/Own/Inv.v
theories/Own/Model.v
theories/Own/Proofs.v
theories/Own/Props.v
theories/Own/Spec.v
theories/Percept/Model.v
theories/Percept/Proofs.v
theories/Percept/Props.v
theories/Percept/Spec.v
theories/Ply/Model.v
theories/Ply/Noise.v
theories/Ply/Proofs.v
theories/Ply/Props.v
theories/Ply/Spec.v
theories/PlyText/Data.v
theories/PlyText/Header.v
theories/PlyText/Model.v
theories/PlyText/Props.v
theories/PlyText/Spec.v
theories/PlyText/Whole.v
theories/Png/Chunks.v
theories/Png/Model.v
theories/Png/Passes.v
theories/Png/Props.v
theories/Png/Rows.v
theories/Png/Safe.v
theories/Png/Spec.v
theories/Png/Whole.v
theories/Png/Writer.v
theories/Points/Model.v
theories/Points/Proofs.v
theories/Points/Props.v
theories/Points/Spec.v
theories/PoseErr/Model.v
theories/PoseErr/Proofs.v
theories/PoseErr/Props.v
theories/PoseErr/Spec.v
theories/Quat/Model.v
theories/Quat/Proofs.v
theories/Quat/Props.v
theories/Quat/Spec.v
theories/Round/Model.v
theories/Round/Proofs.v
theories/Round/Proofs2.v
theories/Round/Proofs3.v
theories/Round/Props.v
theories/Round/Rounding.v
theories/Round/ScoreModel.v
theories/Round/ScoreProofs.v
theories/Round/ScoreProps.v
theories/Round/ScoreSpec.v
theories/Round/Spec.v
theories/Run/Model.v
theories/Run/Proofs.v
theories/Run/Props.v
theories/Run/Spec.v
theories/Sample/Model.v
theories/Sample/Proofs.v
theories/Sample/Props.v
theories/Sample/Spec.v
theories/Scene/ConvProofs.v
theories/Scene/LoadProofs.v
theories/Scene/Model.v
theories/Scene/Proofs.v
theories/Scene/Props.v
theories/Scene/SaveProofs.v
theories/Scene/Spec.v
theories/Scene/Toy.v
theories/Scene/World.v
theories/Scene/XmlProofs.v
theories/Scores/Model.v
theories/Scores/Proofs.v
theories/Scores/Props.v
theories/Scores/Spec.v
theories/Settings/Model.v
theories/Settings/Proofs.v
theories/Settings/Props.v
theories/Settings/Spec.v
theories/Symm/Model.v
theories/Symm/Proofs.v
theories/Symm/Props.v
theories/Symm/Spec.v
theories/Text/Atoms.v
theories/Text/Decimals.v
theories/Text/Digits.v
theories/Text/Files.v
theories/Text/Lexer.v
theories/Text/Model.v
theories/Text/Parser.v
theories/Text/Props.v
theories/Text/Range.v
theories/Text/Single.v
theories/Text/Spec.v
theories/Text/Strings.v
theories/Text/Writing.v
theories/Tiff/Model.v
theories/Tiff/Proofs.v
theories/Tiff/Props.v
theories/Tiff/Spec.v
theories/Timing/Model.v
theories/Timing/Props.v
theories/Timing/Spec.v
theories/Trip/Adding.v
theories/Trip/Arrays.v
theories/Trip/Bounds.v
theories/Trip/Building.v
theories/Trip/Fits.v
theories/Trip/Floats.v
theories/Trip/Model.v
theories/Trip/Props.v
theories/Trip/Reading.v
theories/Trip/Saving.v
theories/Trip/Spec.v
theories/Uri/Model.v
theories/Uri/Paths.v
theories/Uri/Proofs.v
theories/Uri/Props.v
theories/Uri/Spec.v
theories/Voxel/Model.v
theories/Voxel/Proofs.v
theories/Voxel/Props.v
theories/Voxel/Spec.v
theories/Wrap/Model.v
theories/Wrap/Proofs.v
theories/Wrap/Props.v
theories/Wrap/Spec.v
theories/Zlib/Any.v
theories/Zlib/Bits.v
theories/Zlib/Blocks.v
theories/Zlib/Canon.v
theories/Zlib/Model.v
theories/Zlib/Props.v
theories/Zlib/Spec.v
theories/Zlib/Store.v
