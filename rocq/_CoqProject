-Q theories Verif
theories/Bytes.v
theories/Sha256.v
theories/Toy.v
theories/HashTree.v
theories/HashTreeSpec.v
theories/HashTreeProofs.v
theories/HashTreeSpecProofs.v
theories/RbTree.v
theories/RbShape.v
theories/RbContent.v
theories/RbHash.v
theories/RbWitness.v
theories/RbBounds.v
theories/Nested.v
theories/NestedSpec.v
theories/NestedProofs.v
theories/RbSpec.v
theories/Props_HashTree.v
theories/Props_RbTree.v
theories/Props_Nested.v
theories/Utf8.v
theories/Cbor.v
theories/CborProofs.v
theories/CborSpec.v
theories/Props_Cbor.v
theories/Leb128.v
theories/RiHash.v
theories/Text.v
theories/HttpTypes.v
theories/HttpHash.v
theories/HttpSpec.v
theories/RiHashProofs.v
theories/Cel.v
theories/Props_Hash.v
theories/CelSpec.v
theories/CelProofs.v
theories/Props_Cel.v
theories/Wildcard.v
theories/WildcardSpec.v
theories/WildcardProofs.v
theories/V2.v
theories/Props_Wildcard.v
theories/CertVerify.v
theories/CertSpec.v
theories/SigCache.v
theories/Props_Cert.v
theories/Base64.v
theories/Header.v
theories/HeaderSpec.v
theories/HeaderProofs.v
theories/Props_Header.v
theories/Verify.v
theories/VerifySpec.v
theories/Props_Verify.v
theories/Utf8Split.v
theories/HttpTree.v
theories/HttpTreeSpec.v
theories/Props_HttpTree.v
theories/AssetRouter.v
theories/RangeSpec.v
theories/Props_Range.v
theories/AssetSpec.v
theories/AssetProofs.v
theories/AssetEffect.v
theories/PreparedProofs.v
theories/Props_Router.v
theories/Props_Revoke.v
theories/Props_Backed.v
theories/ServeSpec.v
theories/Props_Serve.v
theories/Props_Encoding.v
theories/Props_Chunks.v
theories/Props_Accept.v
theories/Props_Only.v
theories/Props_Roundtrip.v
theories/Props_RouterEx.v
theories/Props_Panic.v
theories/Props_Irrelevant.v
theories/Props_Trip.v
theories/RbCompare.v
theories/Props_Compare.v
theories/Props_Idempotent.v
theories/Serde.v
theories/SerdeSpec.v
theories/Props_Serde.v
theories/HttpBuild.v
theories/Props_Build.v
theories/AssetMap.v
theories/Props_AssetMap.v
theories/CertBuilder.v
theories/CertBuilderSpec.v
theories/Props_Builder.v
theories/V1Assets.v
theories/Props_V1.v
theories/JsBindings.v
theories/Props_Js.v
theories/Errors.v
theories/ErrorSpec.v
theories/Props_Errors.v
theories/Utf8Spec.v
theories/Props_Utf8.v
theories/MergeSpec.v
theories/Props_Merge.v
theories/JsonApi.v
theories/JsonSpec.v
theories/JsonText.v
theories/Props_Json.v
theories/Props_JsonEx.v
theories/Counter.v
theories/Props_Counter.v
theories/Props_Skip.v
theories/Props_SkipEx.v
theories/Shared.v
theories/Props_Shared.v
theories/Props_SharedEx.v
theories/Props_SharedGet.v
theories/SiteExample.v
theories/Props_Site.v
theories/Props_SiteEx.v
theories/CustomAssets.v
theories/CustomSpec.v
theories/Props_Custom.v
theories/Props_CustomEx.v
theories/SmallExamples.v
theories/Props_Small.v
theories/Labels.v
theories/Props_Labels.v
theories/JsErrors.v
theories/Props_JsErrors.v
theories/Candid.v
theories/Props_Candid.v
theories/Props_SiteHeaders.v
theories/Props_RbMore.v
theories/Props_Size.v
theories/Props_SizeHttp.v
theories/Fixtures.v
theories/Props_Fixtures.v
theories/CborGrammar.v
theories/Props_CborGrammar.v
theories/CborDocs.v
theories/Props_CborDocs.v
theories/Props_Agree.v
theories/Props_V2Iff.v
theories/Props_Base64.v
theories/CelGrammar.v
theories/Props_CelGrammar.v
theories/Props_Leb.v
theories/CborCost.v
theories/Props_Cost.v
theories/CelCost.v
theories/Props_CelCost.v
theories/Props_Depth.v
theories/Props_HeaderSize.v
theories/Props_ExprText.v
theories/Body.v
theories/Props_Body.v
theories/Conform_Core.v
theories/Conform_Http.v
theories/Conform_Nested.v
theories/Conform_Assets.v
theories/Conform_Tree.v
theories/Props_RootHash.v
theories/Encodings.v
theories/Props_Variants.v
theories/Props_Fresh.v
theories/Props_FreshRouter.v
theories/RbCost.v
theories/Props_RbCost.v
theories/Props_CounterUpgrade.v
theories/Props_FreshJson.v
theories/Messages.v
theories/Props_Messages.v
theories/Props_MessagesEx.v
theories/JsonGrammar.v
theories/Props_JsonText.v
theories/CelErrors.v
theories/CelErrorSpec.v
theories/Props_CelErrors.v
theories/CborErrors.v
theories/CborErrorSpec.v
theories/Props_CborErrors.v
theories/CanisterErrors.v
theories/CanisterErrorSpec.v
theories/Props_CanisterErrors.v
theories/CanisterMessages.v
theories/Props_CanisterMessages.v
theories/Download.v
theories/Props_Download.v
theories/TreeText.v
theories/Props_TreeText.v
theories/Props_Privacy.v
theories/ReaderMessages.v
theories/Props_ReaderMessages.v
theories/Props_Recertify.v
theories/Props_Downgrade.v
theories/Width.v
theories/Props_Width.v
theories/Props_Spelling.v
theories/Props_Moment.v
theories/Props_Replay.v
theories/Props_JsonUpgrade.v
theories/Props_Determine.v
theories/HttpText.v
theories/Props_HttpText.v
theories/Props_Config.v
