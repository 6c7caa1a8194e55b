-Q theories Verif
theories/Prelude.v
theories/F32.v
theories/Text.v
theories/MapModel.v
theories/DiffModel.v
theories/GeoModel.v
theories/LayerModel.v
theories/GameDataModel.v
theories/SceneModel.v
theories/WadModel.v
theories/RunModel.v
theories/BaseProofs.v
theories/TextSpec.v
theories/NumberSpec.v
theories/FloatProofs.v
theories/DecimalProofs.v
theories/TextProofs.v
theories/NumberProofs.v
theories/ArithProofs.v
theories/ShortProofs.v
theories/PropsNumber.v
theories/MapSpec.v
theories/TokenProofs.v
theories/ParserProofs.v
theories/PlaneProofs.v
theories/MapProofs.v
theories/Witness.v
theories/PropsMap.v
theories/DiffSpec.v
theories/DiffProofs.v
theories/PropsDiff.v
theories/PathSpec.v
theories/PathProofs.v
theories/PropsPath.v
theories/LayerSpec.v
theories/LayerProofs.v
theories/PropsLayer.v
theories/WadSpec.v
theories/WadProofs.v
theories/WadWitness.v
theories/PropsWad.v
theories/CaseProofs.v
theories/PropsCase.v
theories/Golden.v
theories/GameDataSpec.v
theories/GameDataProofs.v
theories/FgdProofs.v
theories/ColorProofs.v
theories/CodeProofs.v
theories/PropsGameData.v
theories/GatherSpec.v
theories/GatherProofs.v
theories/SurfaceSpec.v
theories/SurfaceProofs.v
theories/SurfaceWitness.v
theories/SurfaceFinal.v
theories/PropsSurface.v
theories/TreeSpec.v
theories/TreeProofs.v
theories/NodeProofs.v
theories/SceneWitness.v
theories/PropsScene.v
theories/PropertySpec.v
theories/PropertyProofs.v
theories/DefaultProofs.v
theories/PropertyWitness.v
theories/PropsProperty.v
theories/GeoSpec.v
theories/GeoProofs.v
theories/GeoFinal.v
theories/ExactProofs.v
theories/DegenerateProofs.v
theories/AttributeProofs.v
theories/RealSpec.v
theories/RealProofs.v
theories/RealAttributes.v
theories/BoxSpec.v
theories/BoxProofs.v
theories/BoxFinal.v
theories/GeoWitness.v
theories/DegenerateFinal.v
theories/PropsGeo.v
theories/WindSpec.v
theories/WindProofs.v
theories/WindWitness.v
theories/OrderProofs.v
theories/ShiftProofs.v
theories/PropsWind.v
theories/SolidSpec.v
theories/SolidProofs.v
theories/SolidWitness.v
theories/TouchProofs.v
theories/TouchWitness.v
theories/PropsSolid.v
theories/Utf8Spec.v
theories/Utf8Proofs.v
theories/FuelProofs.v
theories/RunSpec.v
theories/OutcomeProofs.v
theories/RunProofs.v
theories/DocumentProofs.v
theories/PrintProofs.v
theories/RunDiffProofs.v
theories/RunWitness.v
theories/PropsRun.v
theories/InvarianceSpec.v
theories/InvarianceProofs.v
theories/SoundProofs.v
theories/InvarianceWitness.v
theories/PropsInvariance.v
theories/SaveModel.v
theories/SaveSpec.v
theories/SaveProofs.v
theories/PropsSave.v
theories/DebugModel.v
theories/DebugSpec.v
theories/DebugProofs.v
theories/PropsDebug.v
theories/ErrorSpec.v
theories/ErrorProofs.v
theories/ErrorFinal.v
theories/ErrorWitness.v
theories/PropsError.v
theories/CornerSpec.v
theories/CornerProofs.v
theories/CornerWitness.v
theories/PropsCorner.v
theories/CentreProofs.v
theories/CentreWitness.v
theories/PropsCentre.v
theories/NormalProofs.v
theories/NormalWitness.v
theories/PropsNormal.v
theories/PointsSpec.v
theories/PointsProofs.v
theories/PointsFinal.v
theories/PointsWitness.v
theories/PropsPoints.v
theories/KeptSpec.v
theories/KeptProofs.v
theories/KeptFinal.v
theories/KeptWitness.v
theories/PropsKept.v
theories/ArchiveSpec.v
theories/ArchiveProofs.v
theories/PropsArchive.v
theories/UvSpec.v
theories/UvProofs.v
theories/UvFinal.v
theories/UvWitness.v
theories/PropsUv.v
theories/MeshSpec.v
theories/MeshProofs.v
theories/MeshFinal.v
theories/MeshWitness.v
theories/PropsMesh.v
theories/TangentSpec.v
theories/TangentProofs.v
theories/TangentWitness.v
theories/PropsTangent.v
theories/MeanSpec.v
theories/MeanProofs.v
theories/PropsMean.v
theories/WoundSpec.v
theories/WoundPlane.v
theories/WoundProofs.v
theories/WoundWitness.v
theories/DentWitness.v
theories/PropsWound.v
theories/TriangleSpec.v
theories/TriangleProofs.v
theories/TriangleFinal.v
theories/TriangleWitness.v
theories/PropsTriangle.v
theories/SharedSpec.v
theories/SharedProofs.v
theories/CoverSpec.v
theories/CoverProofs.v
theories/CoverFinal.v
theories/CoverWitness.v
theories/PropsCover.v
theories/FillSpec.v
theories/FillProofs.v
theories/FillFinal.v
theories/FillWitness.v
theories/PropsFill.v
theories/PlaceSpec.v
theories/PlaceProofs.v
theories/PlaceFinal.v
theories/PlaceWitness.v
theories/PropsPlace.v
theories/SharedWitness.v
theories/PropsShared.v
theories/ActorSpec.v
theories/ActorProofs.v
theories/ActorWitness.v
theories/PropsActor.v
theories/SiblingSpec.v
theories/SiblingProofs.v
theories/SiblingWitness.v
theories/PropsSibling.v
theories/HideSpec.v
theories/HideProofs.v
theories/HideWitness.v
theories/PropsHide.v
theories/GrowSpec.v
theories/GrowProofs.v
theories/GrowWitness.v
theories/PropsGrow.v
theories/ReworkSpec.v
theories/ReworkProofs.v
theories/IdleSpec.v
theories/IdleProofs.v
theories/IdleFinal.v
theories/IdleWitness.v
theories/PropsIdle.v
theories/AlignSpec.v
theories/AlignProofs.v
theories/AlignWitness.v
theories/PropsAlign.v
theories/ShuffleSpec.v
theories/ShuffleProofs.v
theories/ShuffleFinal.v
theories/ShuffleWitness.v
theories/PropsShuffle.v
theories/ValidSpec.v
theories/ValidProofs.v
theories/ValidWitness.v
theories/PropsValid.v
theories/RigidSpec.v
theories/RigidProofs.v
theories/RigidFinal.v
theories/RigidWitness.v
theories/PropsRigid.v
theories/RestateSpec.v
theories/RestateProofs.v
theories/RestateWitness.v
theories/PropsRestate.v
theories/SidesSpec.v
theories/SidesProofs.v
theories/SidesWitness.v
theories/PropsSides.v
theories/ScaleSpec.v
theories/ScaleProofs.v
theories/ScaleFinal.v
theories/ScaleWitness.v
theories/PropsScale.v
theories/EdgeSpec.v
theories/EdgeProofs.v
theories/EdgeWitness.v
theories/PropsEdge.v
theories/ClosedProofs.v
theories/PropsClosed.v
theories/ShellSpec.v
theories/ShellProofs.v
theories/ShellFinal.v
theories/ShellWitness.v
theories/PropsShell.v
theories/SizeSpec.v
theories/SizeProofs.v
theories/SizeFinal.v
theories/SizeWitness.v
theories/PropsSize.v
theories/NeighbourSpec.v
theories/NeighbourProofs.v
theories/PropsNeighbour.v
theories/EulerSpec.v
theories/EulerProofs.v
theories/EulerFinal.v
theories/EulerWitness.v
theories/PropsEuler.v
theories/RaySpec.v
theories/RayProofs.v
theories/PropsRay.v
theories/BoxEdgeSpec.v
theories/BoxEdgeProofs.v
theories/BoxEdgeWitness.v
theories/PropsBoxEdge.v
theories/SeamSpec.v
theories/SeamProofs.v
theories/SeamWitness.v
theories/PropsSeam.v
theories/BrickSpec.v
theories/BrickProofs.v
theories/BrickFinal.v
theories/BrickWitness.v
theories/PropsBrick.v
theories/StableSpec.v
theories/StableProofs.v
theories/StableWitness.v
theories/PropsStable.v
theories/BulkSpec.v
theories/BulkProofs.v
theories/BulkWitness.v
theories/PropsBulk.v
theories/MassSpec.v
theories/MassFinal.v
theories/MassWitness.v
theories/PropsMass.v
theories/LatestSpec.v
theories/LatestProofs.v
theories/LatestFinal.v
theories/PropsLatest.v
theories/LostSpec.v
theories/LostProofs.v
theories/LostWitness.v
theories/PropsLost.v
theories/InverseSpec.v
theories/InverseProofs.v
theories/InverseWitness.v
theories/PropsInverse.v
theories/ExtentSpec.v
theories/ExtentProofs.v
theories/ExtentWitness.v
theories/PropsExtent.v
theories/VerdictSpec.v
theories/VerdictProofs.v
theories/VerdictWitness.v
theories/PropsVerdict.v
theories/RegroupSpec.v
theories/RegroupProofs.v
theories/RegroupWitness.v
theories/PropsRegroup.v
theories/RetextureSpec.v
theories/RetextureProofs.v
theories/RetextureWitness.v
theories/PropsRetexture.v
theories/HeedSpec.v
theories/HeedProofs.v
theories/HeedWitness.v
theories/PropsHeed.v
theories/MirrorSpec.v
theories/MirrorProofs.v
theories/MirrorWitness.v
theories/PropsMirror.v
theories/CutSpec.v
theories/CutProofs.v
theories/CutWitness.v
theories/PropsCut.v
theories/ReclassSpec.v
theories/ReclassProofs.v
theories/ReclassWitness.v
theories/PropsReclass.v
theories/JoinSpec.v
theories/JoinProofs.v
theories/JoinWitness.v
theories/PropsJoin.v
theories/CartonSpec.v
theories/CartonProofs.v
theories/CartonWitness.v
theories/PropsCarton.v
theories/CastSpec.v
theories/CastProofs.v
theories/CastWitness.v
theories/PropsCast.v
theories/FewestSpec.v
theories/FewestProofs.v
theories/PropsFewest.v
theories/SolelySpec.v
theories/SolelyProofs.v
theories/SolelyWitness.v
theories/PropsSolely.v
theories/PierceSpec.v
theories/PierceProofs.v
theories/PierceWitness.v
theories/PropsPierce.v
theories/CladSpec.v
theories/CladProofs.v
theories/CladWitness.v
theories/PropsClad.v
theories/TunnelSpec.v
theories/TunnelProofs.v
theories/TunnelWitness.v
theories/PropsTunnel.v
theories/WrapSpec.v
theories/WrapProofs.v
theories/PropsWrap.v
theories/AgreeSpec.v
theories/AgreeProofs.v
theories/AgreeWitness.v
theories/PropsAgree.v
