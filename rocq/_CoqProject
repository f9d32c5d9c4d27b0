-Q theories Verif
theories/Base.v
theories/Values.v
theories/Env0.v
theories/Tactics.v
theories/MsgPackModel.v
theories/MsgPackSpec.v
theories/MsgPackFuel.v
theories/MsgPackDecode.v
theories/MsgPackEncode.v
theories/MsgPackThms.v
theories/MsgPackThms2.v
theories/Properties_MsgPack.v
theories/BsonModel.v
theories/BsonSpec.v
theories/Env0Thms.v
theories/BsonThms.v
theories/BsonRound.v
theories/BsonEncode.v
theories/BsonMore.v
theories/Properties_Bson.v
theories/JsonModel.v
theories/JsonSpec.v
theories/JsonLex.v
theories/JsonParse.v
theories/JsonSound.v
theories/JsonWrite.v
theories/JsonThms.v
theories/Properties_Json.v
theories/HeapModel.v
theories/MsgLoadModel.v
theories/JsonLoadModel.v
theories/ReflectModel.v
theories/BsonLoadModel.v
theories/ReflectInd.v
theories/EncodeModel.v
theories/HeapSpec.v
theories/MsgLoadSpec.v
theories/HeapBase.v
theories/HeapConf.v
theories/ApiSpec.v
theories/HeapMap.v
theories/HeapGet.v
theories/HeapCalls.v
theories/HeapObj.v
theories/HeapArr.v
theories/HeapForce.v
theories/HeapTree.v
theories/HeapClone.v
theories/HeapBuild.v
theories/HeapEqual.v
theories/EncodeThms.v
theories/HeapMono.v
theories/HeapMerge.v
theories/HeapMergeObj.v
theories/HeapMergeDeep.v
theories/GetModel.v
theories/NamedModel.v
theories/HeapTyped.v
theories/MsgLoadThms.v
theories/MsgLoadArr.v
theories/Properties_Map.v
theories/Properties_Heap.v
theories/Properties_Clone.v
theories/Properties_Equal.v
theories/Properties_Merge.v
theories/Properties_MergeDeep.v
theories/Properties_MergeFn.v
theories/VisitModel.v
theories/VisitThms.v
theories/Properties_Visit.v
theories/HeapTimes.v
theories/HeapIndexed.v
theories/Properties_Times.v
theories/Properties_Get.v
theories/Properties_Index.v
theories/CopyThms.v
theories/MarshalerModel.v
theories/MarshalerSpec.v
theories/MarshalerThms.v
theories/Properties_Marshaler.v
theories/BufferModel.v
theories/BufferThms.v
theories/Properties_Buffer.v
theories/PoolModel.v
theories/PoolThms.v
theories/Properties_Pool.v
theories/ReaderModel.v
theories/ReaderThms.v
theories/Properties_Reader.v
theories/FileModel.v
theories/FileThms.v
theories/Properties_File.v
theories/HeapView.v
theories/YamlModel.v
theories/YamlSpec.v
theories/YamlThms.v
theories/YamlTerm.v
theories/YamlPool.v
theories/YamlConf.v
theories/YamlFlat.v
theories/YamlMerge.v
theories/Properties_Yaml.v
theories/Properties_MsgLoad.v
theories/JsonLoadSpec.v
theories/JsonLoadThms.v
theories/JsonLoadKept.v
theories/Properties_JsonLoad.v
theories/ReflectSpec.v
theories/ReflectThms.v
theories/ReflectPerm.v
theories/ReflectRoot.v
theories/Properties_Reflect.v
theories/ExportModel.v
theories/ExportSpec.v
theories/ExportThms.v
theories/ExportStruct.v
theories/HandlerModel.v
theories/HandlerSpec.v
theories/HandlerThms.v
theories/StructSpec.v
theories/StructThms.v
theories/Properties_Export.v
theories/BsonLoadThms.v
theories/MsgCodeModel.v
theories/Properties_Codes.v
theories/BsonLoadArr.v
theories/OwnWalk.v
theories/Properties_BsonLoad.v
theories/Properties_BsonArr.v
theories/YamlTreeSpec.v
theories/YamlTree.v
theories/YamlTreeDoc.v
theories/YamlStyle.v
theories/YamlRefSpec.v
theories/YamlRef.v
theories/YamlRefDoc.v
theories/YamlDecor.v
theories/Properties_YamlTree.v
theories/Properties_YamlStyle.v
theories/Properties_YamlRef.v
theories/EncodeRead.v
theories/EncodeRound.v
theories/Properties_Encode.v
theories/HeapCopy.v
theories/Properties_Copy.v
theories/MarshalModel.v
theories/Properties_Marshal.v
theories/Properties_Unmarshal.v
theories/Properties_NewFrom.v
theories/Properties_Tree.v
theories/Properties_New.v
theories/Properties_Handler.v
theories/Properties_Named.v
