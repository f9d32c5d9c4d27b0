# Formal model of suiyunonghen/dxsvalue in Coq 8.16 — design

The properties are in `properties.jsonl`, the machine-checked statements in `rocq/theories/Properties_*.v`, the map between
the two in `MANIFEST.json`.  The code in /repo is read as text; it is never built or run.

## Layers

* **Value trees** (`Values.v`): `value` is the user-visible unfolding of a `*DxValue`: constructor = `DataType`, with the
  lazily-unescaped flag of objects, `ExtType` where the code reads it, and numbers as raw 64-bit patterns.  `nil` pointers are
  an explicit constructor.  The codecs (MessagePack, BSON, JSON) are modelled on trees.
* **Heap** (`HeapModel.v`): cells with *all* fields of `DxValue`, pointers, the five shared constants, caches (`ValueCache`)
  with capacity and recycling, and the pool.  Mutators, getters, clone, merge, `Equal`, paths, the YAML parser
  (`YamlModel.v`), decoding of MessagePack, JSON and BSON (`MsgLoadModel.v`, `JsonLoadModel.v`, `BsonLoadModel.v`), import
  (`ReflectModel.v`) and export (`ExportModel.v`) of Go values work here.
  `rep h p v` (`HeapSpec.v`) relates a pointer in a heap to the tree it unfolds to.
* **State machines**: the pool under concurrency (`PoolModel.v`), concurrent lookups (`ReaderModel.v`), reading files under an
  arbitrary schedule of short reads (`FileModel.v`), byte slices with backing arrays (`BufferModel.v`).

Go panics are the outcome `Panic`, errors `Err e`.  Recursion and loops without a structural measure use fuel, with an
explicit outcome `OutOfFuel`.  A theorem that says something holds of a run excludes `OutOfFuel` by a fuel bound it computes
from the input, or quantifies over "every fuel from some bound on"; a statement of divergence is "`OutOfFuel` for every fuel".

## Trusted base

1. The Coq 8.16.1 kernel (including its `vm_compute` conversion, used for concrete cases and refutation witnesses).
2. The fidelity of the model files `*Model.v`, `Values.v`, `Base.v` to the Go text; each definition cites file and lines.
3. The specification files, which a reader must agree with: `MsgPackSpec.v`, `BsonSpec.v`, `JsonSpec.v`, `ApiSpec.v`,
   `HeapSpec.v`, `HeapCalls.v`, `YamlSpec.v`, `YamlTreeSpec.v`, `YamlRefSpec.v`, `HeapTree.v` (`walk`, `treelike`), `OwnWalk.v` (`put`, `apart`, `tree_apart`), `BsonLoadThms.v` (`unshared`), and the definitions made inside `Properties_*.v` themselves.
4. Go semantics as used by the models: int64 wrap-around, slices and `append`, `for range` evaluating its operand once,
   `sync.Pool` returning an object put before or a new one, sequentially consistent steps for the concurrency models.

**Axioms.**  There are none of our own: no `Axiom`, `Parameter`, section-less `Variable`/`Hypothesis`, no `Admitted`.
Every theorem of `Properties_*.v` is followed by `Print Assumptions`; the answer is **"Closed under the global context"** for
every one of them.  No theorem uses classical logic, functional extensionality, or any other standard-library axiom.
(Loading `lia` brings in standard-library files that contain seven parameters in `Coq.ssr.ssrunder`; no theorem depends
on them.)  No kernel check is switched off; there are no functors, module types or plugins.

**External code.**  DxCommonLib, `strconv` on floats, `time`, `strings.EqualFold` are not in /repo.  They are fields of the
records `env` (`Base.v`) and `tenv` (`GetModel.v`) that every theorem quantifies over.  Facts about them are explicit
hypotheses of the theorem (such as "unescaping inverts escaping", "`EqualFold` is an equivalence"), never axioms;
`Env0.v` is a concrete instance and `Env0Thms.v`/`Properties_Map.v` prove that it meets the hypotheses.

## What is modelled

| Go file | lines | model | left out or simplified |
|---|---|---|---|
| dxvalue.go | 14-155, 157-257, 318-353 | `HeapModel.v` | `farr` has no hidden capacity (it is only shrunk or appended to); `strkvs` keeps its hidden slots |
| dxvalue.go | 259-316 `LoadFrom*` | `HeapModel.v`/`YamlModel.v`/`JsonModel.v`/`JsonLoadModel.v`/`MsgLoadModel.v`/`BsonLoadModel.v` | `LoadFromBson` into a shared constant is left out |
| dxvalue.go | 383-412 | `MsgPackModel.v`, `BsonModel.v`, `JsonModel.v` on trees; `EncodeModel.v` on cells, with the escapes they resolve in place | C74 relates the two |
| dxvalue.go | 414-529 merge, `Equal` | `HeapModel.v` | a merge callback answers, it does not itself mutate values |
| dxvalue.go | 535-985, 1053-1107, 1263-1301 getters | `HeapModel.v`, `GetModel.v` | `String()` of a container goes through the tree formatter |
| dxvalue.go | 359-392, 531-533, 760-786, 1069-1075 `Find`, `AsX`, `XByName`, `ToJson`, `ToMsgPack` | `NamedModel.v` | `int` has 64 bits |
| dxvalue.go | 553-698, 1021-1260 | `HeapModel.v` | in `add_kvs` (586-592) the exposed slot holds nil until the clone is stored; Go leaves what an earlier pair left there |
| dxvalue.go | 1326-1341 `Visit` | `VisitModel.v` with any callback; `ExportModel.v` with the callbacks of `ToStdValue` | |
| cache.go | all | `HeapModel.v` (sequential), `PoolModel.v` (concurrent) | cells moved by `append` (29): the stale copy owns its own pair list, while in Go the two copies share it. The copy is only handed out after the root was cleared or freed, so this concerns values kept beyond that point: where a theorem says that values in use keep their content, it is not to be read as covering these |
| bin_value.go | all | `BufferModel.v` | only `DataType`, `ExtType`, `fbinary` |
| iofiles.go | all | `FileModel.v` | an allocation of any size succeeds |
| msgpack_codes.go, msgpack_value.go, msgpackparse.go | all of the codec | `MsgPackModel.v` on trees; `MsgLoadModel.v` decodes into cells | C10, C61 relate the two |
| bson_code.go, bson_parse.go | all of the codec | `BsonModel.v` (trees), `BsonLoadModel.v` (decoding on memory) | slices have capacity equal to length |
| jsonparse.go | all | `JsonModel.v` (trees), `FileModel.v`, `JsonLoadModel.v` (heap: `NewValueFromJson`, `LoadFromJson`) | heap: a nested object's pair is added after its value is read instead of before its key (a failed parse drops the object); while `LoadFromJson` reads a value, the receiver's next slot is not yet visible |
| yamlparse.go | all | `YamlModel.v`, `FileModel.v` (`NewValueFromYamlFile`) | error texts dropped |
| reflect_parse.go | 189-922 `SetValue`, `SetKeyvalue`, `SetIndexvalue`; dxvalue.go 175-186 `NewValueFrom`, 1192-1206 `getRealValue`; bin_value.go 54-75 `SetBinary` | `ReflectModel.v` | Go values are the type `goval`; arguments of type `DxValue`/`*DxValue` are covered in `NewValueFrom`, as the whole argument or as all elements of a map or slice, and in `MarshalerModel.v`; types with their own `EncodeToDxValue` are in `MarshalerModel.v`; maps with pointer keys are left out |
| reflect_parse.go | the same functions for values whose types have an `EncodeToDxValue` method (value or pointer receiver), and for `DxValue`s and pointers to them, at any depth | `MarshalerModel.v` | the method is an arbitrary function on the memory; a copied `DxValue` struct has its own lists in the model, in the code the copies share their memory until one of them grows; a pointer to a pointer as in `ReflectModel.v` |
| reflect_parse.go | 11-187, 925-1076 `ToStdValue` | `ExportModel.v` | into map[string]interface{}, map[string]string, []interface{}, []string, and pointers to structs and slices; Go variables are the type `slot` with their type `gtype`. Types with their own `DecodeFromDxValue`, handlers of struct_type.go and pointers to basic types are in `HandlerModel.v`. `String` of containers and bytes is a parameter about which nothing is assumed |
| reflect_parse.go | 1078-1098 `Marshal`, `Unmarshal` | `MarshalModel.v` | of `*DxValue` and of `DxValue` passed by value (a copy of the struct that shares the lists and the cache); other Go types (encoding/json) are left out |
| struct_type.go | 14-34 `RegisterTypeMapFunc`, and its uses in reflect_parse.go | `HandlerModel.v` | types have an identity (`htype`); registered functions and `DecodeFromDxValue` methods are parameters (user code), assumed to change no container while it is visited; defined types over time.Time are left out |
| *_test.go | none | | |

Not modelled at all: data races finer than one memory access, memory exhaustion, integer overflow of lengths beyond what an
address space holds (theorems state the bound `zlen b < 2^63` where it matters), and the text of error messages other than
JSON parse errors.

## Statements and their status

`proved` in `MANIFEST.json` means that the property as it holds of the code is a theorem.  Many properties are *false* of the
code as first stated.  For these the manifest lists a `…_refuted` theorem with a witness input, together with the strongest
positive theorems found (exact conditions under which the property does hold, or an exact description of what the code does).
A property whose theorems leave a gap is `partial`, and the note says what is missing.

Each theorem in `Properties_*.v` is followed by an `Example`/`Lemma` with concrete inputs that meet its hypotheses.

## Where the proofs are

| ids | statements | proofs |
|---|---|---|
| C01-C09, C51 | `Properties_MsgPack.v` | `MsgPackFuel/Decode/Encode/Thms/Thms2.v` |
| C11-C17 | `Properties_Bson.v` | `BsonThms/Round/Encode/More.v` |
| C18-C27, C52-C54 | `Properties_Json.v` | `JsonLex/Parse/Sound/Write/Thms.v` |
| C28-C32 | `Properties_Map.v` | `HeapMap/Obj/Arr.v` |
| C33, C34, C39 | `Properties_Heap.v` | `HeapBase/Conf/Get/Force.v` |
| C35 | `Properties_Clone.v` | `HeapClone.v` |
| C77, C78 | `Properties_Copy.v` | `HeapCopy.v` |
| C36 | `Properties_Equal.v` | `HeapEqual/Mono.v` |
| C37, C38, C80 | `Properties_Merge.v`, `Properties_MergeDeep.v`, `Properties_MergeFn.v` | `HeapMerge/MergeObj/MergeDeep.v` |
| C40 | `Properties_Pool.v` | `PoolThms.v` |
| C41 | `Properties_Reader.v` | `ReaderThms.v` |
| C42, C82, C94, C97 | `Properties_Get.v`, `Properties_Times.v`, `Properties_Index.v`, `Properties_Named.v` | `HeapTyped.v`, `HeapTimes.v`, `HeapIndexed.v` |
| C81 | `Properties_Visit.v` | `VisitThms.v` |
| C43, C55 | `Properties_Buffer.v` | `BufferThms.v` |
| C10, C61 | `Properties_MsgLoad.v` | `HeapBuild.v`, `MsgLoadThms.v`, `MsgLoadArr.v` |
| C66, C67 | `Properties_JsonLoad.v` | `HeapBuild.v`, `JsonLoadThms.v` |
| C68, C69 | `Properties_BsonLoad.v` | `BsonLoadThms.v` |
| C98 | `Properties_BsonArr.v` | `BsonLoadArr.v` |
| C99 | `Properties_Codes.v` | `MsgCodeModel.v` |
| C74-C76 | `Properties_Encode.v` | `EncodeThms/Read/Round.v` |
| C79, C83 | `Properties_Marshal.v`, `Properties_Unmarshal.v` | C18, C67, C74, `JsonLoadKept.v` |
| C44-C47, C57-C60 | `Properties_Yaml.v` | `YamlThms/Term/Pool/Conf/Flat/Merge.v` |
| C70-C73 | `Properties_YamlTree.v` | `YamlTree.v`, `YamlTreeDoc.v`, `YamlDecor.v` (grammar, meaning and decorations: `YamlTreeSpec.v`) |
| C85, C86 | `Properties_YamlRef.v` | `YamlRef.v`, `YamlRefDoc.v`, `OwnWalk.v` (documents with references and their meaning: `YamlRefSpec.v`) |
| C87 | `Properties_Tree.v` | `HeapTree.v`, `OwnWalk.v` |
| C88 | `Properties_New.v` | — |
| C89-C91 | `Properties_YamlStyle.v` | `YamlStyle.v`, `YamlTree.v`, `YamlTreeDoc.v` (flow values, text lines: `YamlTreeSpec.v`) |
| C48, C62, C84 | `Properties_Reflect.v`, `Properties_NewFrom.v` | `ReflectInd/Thms/Perm/Root.v`, `HeapCopy.v` |
| C95 | `Properties_Marshaler.v` | `MarshalerThms.v` (`MarshalerSpec.v`) |
| C96 | `Properties_Marshaler.v` | `MarshalerThms.v`, `CopyThms.v`, `HeapCopy.v` |
| C49, C63, C64, C65 | `Properties_Export.v` | `ExportThms/ExportStruct/StructThms.v` |
| C92, C93 | `Properties_Handler.v` | `HandlerThms.v` (`HandlerSpec.v`) |
| C50, C56 | `Properties_File.v` | `FileThms.v` |

Method: fuel bounds and recursion equations first, then one simulation or refinement lemma per function, then the property.
The heap proofs rest on one invariant `inv P PC` (`HeapSpec.v`): the state is well-formed, and the protected cells `P` and
caches `PC` are not touched; every API function preserves it for an arbitrary protected part, which yields framing
(`Clone` independence, confinement, constants) as instances.

## Testing the theorems

`seeded/LOG.jsonl` records edits made to model definitions in a scratch copy (wrong boundaries, missed cases, swapped
arguments, dropped updates), which theorems stopped proving, and which were tightened when none did.
