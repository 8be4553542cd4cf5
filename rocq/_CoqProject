-Q theories Verif
theories/Py.v
theories/Num.v
theories/NumFacts.v
theories/Util.v
theories/SpecUtil.v
theories/UtilFacts.v
theories/UtilProofs.v
theories/Props_Util.v
theories/Text.v
theories/Json.v
theories/Codec.v
theories/SpecCodec.v
theories/TextFacts.v
theories/JsonFacts.v
theories/JsonTotal.v
theories/CodecProofs.v
theories/RoundFacts.v
theories/DecodeProofs.v
theories/Props_Codec.v
theories/DefaultEntities.v
theories/EntityData.v
theories/C3.v
theories/Classes.v
theories/SpecClass.v
theories/C3Proofs.v
theories/Mixins.v
theories/Entity.v
theories/Setters.v
theories/World.v
theories/WorldFacts.v
theories/SetFacts.v
theories/Inv.v
theories/SortFacts.v
theories/SpecWorld.v
theories/LayerProofs.v
theories/PersistProofs.v
theories/EntInv.v
theories/ClassProofs.v
theories/WireProofs.v
theories/ExportProofs.v
theories/ParseProofs.v
theories/Demo.v
theories/Props_Layer.v
theories/Props_Wire.v
theories/Props_Class.v
theories/SpecRotate.v
theories/RotateProofs.v
theories/TurnProofs.v
theories/Props_Rotate.v
theories/DictFacts.v
theories/SpecGeom.v
theories/GeomProofs.v
theories/Props_Geom.v
theories/SpecDoc.v
theories/KeepProofs.v
theories/DocProofs.v
theories/Props_Doc.v
theories/SpecEntity.v
theories/ChainFacts.v
theories/EntProofs.v
theories/CbProofs.v
theories/Props_Entity.v
theories/SpecTrip.v
theories/TripProofs.v
theories/EntTrip.v
theories/Props_Trip.v
theories/SpecName.v
theories/NameProofs.v
theories/Props_Name.v
theories/SpecRename.v
theories/GrowProofs.v
theories/RenameProofs.v
theories/Props_Rename.v
theories/SpecBlueprint.v
theories/ShapeProofs.v
theories/BlueTrip.v
theories/Props_Blue.v
theories/SpecVector.v
theories/VectorProofs.v
theories/Props_Vector.v
theories/SpecStrict.v
theories/StrictProofs.v
theories/Props_Strict.v
theories/SpecFrame.v
theories/FrameProofs.v
theories/FrameStep.v
theories/Props_Frame.v
theories/BpString.v
theories/SpecReload.v
theories/JeqProofs.v
theories/ReloadProofs.v
theories/KeyedProofs.v
theories/KeyedLoad.v
theories/ReloadTrip.v
theories/StringTrip.v
theories/Props_Reload.v
theories/SpecEqual.v
theories/EqualProofs.v
theories/Props_Equal.v
theories/SpecAttr.v
theories/AttrProofs.v
theories/Props_Attr.v
theories/SpecRound.v
theories/RoundProofs.v
theories/SpecJson.v
theories/JsonGrammar.v
theories/CodecGrammar.v
theories/Props_Grammar.v
theories/SpecLoad.v
theories/LoadProofs.v
theories/Props_Load.v
theories/SpecArith.v
theories/ArithProofs.v
theories/FloorProofs.v
theories/Props_Arith.v
theories/SpecShort.v
theories/ShortProofs.v
theories/ShortText.v
theories/ShortUnique.v
theories/Props_Short.v
theories/SpecWrite.v
theories/WriteProofs.v
theories/Props_Write.v
theories/Values.v
theories/SpecValues.v
theories/ValuesProofs.v
theories/SpecCompass.v
theories/CompassProofs.v
theories/Props_Values.v
theories/SpecSetting.v
theories/SettingProofs.v
theories/Props_Setting.v
theories/SpecBehaviour.v
theories/BehaviourProofs.v
theories/Props_Behaviour.v
theories/SpecMake.v
theories/MakeProofs.v
theories/Props_Make.v
theories/SpecExport.v
theories/ShownProofs.v
theories/Props_Made.v
theories/Repr.v
theories/SpecRepr.v
theories/ReprProofs.v
theories/Props_Repr.v
theories/SpecShow.v
theories/ShowProofs.v
theories/Props_Show.v
theories/SpecParts.v
theories/PartsProofs.v
theories/Props_Parts.v
theories/SpecBuild.v
theories/BuildProofs.v
theories/Props_Build.v
theories/SpecOrder.v
theories/OrderProofs.v
theories/Props_Order.v
theories/SpecSame.v
theories/SameProofs.v
theories/Props_Same.v
theories/SpecShuffle.v
theories/ShuffleProofs.v
theories/Props_Shuffle.v
theories/SpecMove.v
theories/MoveProofs.v
theories/Props_Move.v
theories/SpecTake.v
theories/TakeProofs.v
theories/Props_Take.v
