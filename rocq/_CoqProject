-Q theories Verif
theories/Base.v
theories/Stream.v
theories/StreamFacts.v
theories/TypedBin.v
theories/TypedSpec.v
theories/ValOrder.v
theories/TypedBinFacts.v
theories/TypedBinSound.v
theories/BinLemmas.v
theories/Prop_Bin.v
theories/Name.v
theories/NameFacts.v
theories/NameParts.v
theories/Prop_Name.v
theories/Decimal.v
theories/Asset.v
theories/AssetFacts.v
theories/Prop_Asset.v
theories/Time.v
theories/TimeSpec.v
theories/TimeFacts.v
theories/Calendar.v
theories/TimeText.v
theories/Prop_Time.v
theories/Hex.v
theories/Prop_Hex.v
theories/Ripemd160.v
theories/RipemdSpec.v
theories/RipemdFacts.v
theories/Prop_Ripemd.v
theories/Base58.v
theories/Base58Facts.v
theories/Keys.v
theories/KeysFacts.v
theories/Prop_Keys.v
theories/JsonInt.v
theories/JsonIntFacts.v
theories/Prop_JsonInt.v
theories/ToKey.v
theories/ToKeyFacts.v
theories/Prop_Key.v
theories/Utf8.v
theories/Json.v
theories/JsonSpec.v
theories/JsonStrFacts.v
theories/JsonFacts.v
theories/JsonSound.v
theories/JsonWrite.v
theories/Prop_Json.v
theories/Abi.v
theories/AbiSpec.v
theories/AbiFacts.v
theories/AbiLoad.v
theories/Prop_Abi.v
theories/TypedBinLocal.v
theories/Fpconv.v
theories/FpconvFacts.v
theories/FpconvSpec.v
theories/FpconvReal.v
theories/FpconvText.v
theories/FpconvPrint.v
theories/AbiScalar.v
theories/AbiScalarFacts.v
theories/Machine.v
theories/AbiValue.v
theories/AbiBin.v
theories/AbiBinFacts.v
theories/AbiBinSound.v
theories/AbiBinSafe.v
theories/JsonPrint.v
theories/AbiDoc.v
theories/AbiUse.v
theories/Prop_AbiBin.v
theories/AbiJson.v
theories/AbiRead.v
theories/AbiJsonFacts.v
theories/AbiJsonSound.v
theories/AbiJsonText.v
theories/AbiJsonCut.v
theories/AbiJsonSafe.v
theories/AbiJvalue.v
theories/AbiReadBack.v
theories/Prop_AbiJson.v
theories/TypedJson.v
theories/TypedJsonSpec.v
theories/TypedJsonFacts.v
theories/TypedJsonRead.v
theories/TypedJsonText.v
theories/TypedJsonBack.v
theories/Prop_TypedJson.v
theories/AbiDef.v
theories/AbiDefSpec.v
theories/AbiDefFacts.v
theories/AbiDefJson.v
theories/Prop_AbiDef.v
theories/AbiStable.v
theories/Capi.v
theories/CapiSpec.v
theories/CapiFacts.v
theories/Prop_Capi.v
theories/FixedBytes.v
theories/FixedFacts.v
theories/Prop_Fixed.v
theories/Opaque.v
theories/Prop_Opaque.v
theories/Varint.v
theories/Prop_Varint.v
theories/TypedBinFuel.v
theories/Ship.v
theories/ShipSpec.v
theories/ShipFacts.v
theories/Prop_Ship.v
theories/AddType.v
theories/AddTypeSpec.v
theories/AddTypeFacts.v
theories/AddTypeRun.v
theories/AddTypeValue.v
theories/Prop_AddType.v
theories/AbiExportSpec.v
theories/AbiExportFacts.v
theories/Prop_AbiExport.v
theories/Prop_Float.v
theories/Convert.v
theories/ConvertSpec.v
theories/ConvertFacts.v
theories/Prop_Convert.v
theories/NameTool.v
theories/NameToolSpec.v
theories/NameToolFacts.v
theories/Prop_NameTool.v
theories/DecodeInto.v
theories/DecodeIntoSpec.v
theories/DecodeIntoFacts.v
theories/Prop_DecodeInto.v
theories/CapiPtr.v
theories/CapiPtrSpec.v
theories/CapiPtrFacts.v
theories/Prop_CapiPtr.v
theories/TimeArith.v
theories/TimeArithSpec.v
theories/Prop_TimeArith.v
theories/Fuzzer.v
theories/FuzzerSpec.v
theories/Prop_Fuzzer.v
theories/JsonInto.v
theories/JsonIntoSpec.v
theories/JsonIntoScalar.v
theories/JsonIntoFacts.v
theories/Prop_JsonInto.v
theories/MurmurSpec.v
theories/Prop_Murmur.v
theories/DecodeAgreeSpec.v
theories/DecodeAgreeFacts.v
theories/Prop_DecodeAgree.v
theories/SizeSpec.v
theories/SizeScalar.v
theories/SizeJson.v
theories/SizeText.v
theories/SizeValue.v
theories/SizeBomb.v
theories/Prop_Size.v
theories/Prop_AddFail.v
theories/Watch.v
theories/WatchSpec.v
theories/WatchFacts.v
theories/Prop_Watch.v
theories/Reload.v
theories/ReloadSpec.v
theories/ReloadFacts.v
theories/Prop_Reload.v
theories/Prop_TwoPass.v
theories/LoadFault.v
theories/LoadFaultFacts.v
theories/Prop_LoadFault.v
theories/Prop_Hazard.v
theories/CapiWorld.v
theories/Prop_World.v
theories/CapiOom.v
theories/CapiOomFacts.v
theories/Prop_Oom.v
theories/InPlace.v
theories/InPlaceFacts.v
theories/Prop_InPlace.v
theories/JsonPull.v
theories/JsonPullSpec.v
theories/JsonPullFacts.v
theories/Prop_JsonPull.v
theories/StreamMem.v
theories/StreamMemSpec.v
theories/StreamMemFacts.v
theories/Prop_StreamMem.v
theories/StreamMemJson.v
theories/StreamMemJsonFacts.v
theories/Prop_StreamMemJson.v
theories/TestVectors.v
