-Q theories Verif
theories/PyBase.v
theories/PyVal.v
theories/Errors.v
theories/Validators.v
theories/Keywords.v
theories/PyBaseFacts.v
theories/Mono.v
theories/Spec.v
theories/LeafFacts.v
theories/RunFacts.v
theories/KeywordFacts.v
theories/Master.v
theories/Claims.v
theories/ScalarFacts.v
theories/PropsScalar.v
theories/ExBase.v
theories/PropsScalarEx.v
theories/CompositeFacts.v
theories/PropsComposite.v
theories/PropsObject.v
theories/RejectFacts.v
theories/OrderFacts.v
theories/PropsOrder.v
theories/PropsCompositeEx.v
theories/PropsErrors.v
theories/PropsTotal.v
theories/PropsErrorsEx.v
theories/Memory.v
theories/PropsMemory.v
theories/PropsMemoryEx.v
theories/Regex.v
theories/RegexFacts.v
theories/Pointer.v
theories/PropsPointer.v
theories/Iso.v
theories/Formats.v
theories/FormatSpec.v
theories/PropsFormats.v
theories/PropsUrl.v
theories/PropsFormatKeyword.v
theories/IsoSpec.v
theories/IsoFacts.v
theories/PropsIso.v
theories/ClockFacts.v
theories/PropsClock.v
theories/PropsDuration.v
theories/Uri.v
theories/UriFacts.v
theories/UriSpec.v
theories/UriNorm.v
theories/PropsUri.v
theories/PropsResolve.v
theories/PropsUriText.v
theories/PropsUriEx.v
theories/Store.v
theories/PropsStore.v
theories/PropsLoader.v
theories/PropsFiles.v
theories/Numbers.v
theories/PropsNumber.v
theories/Heap.v
theories/HeapFacts.v
theories/PropsWrap.v
theories/PropsPlaces.v
theories/Doc.v
theories/DocMono.v
theories/DocFacts.v
theories/PropsQuery.v
theories/PropsIndex.v
theories/DocLoad.v
theories/PropsLoad.v
theories/DocDocument.v
theories/PropsAnchor.v
theories/Parametric.v
theories/Interrupt.v
theories/PropsRef.v
theories/DocLibrary.v
theories/DocReading.v
theories/PropsRemote.v
theories/Validate.v
theories/PropsValidate.v
theories/PropsRefEdge.v
theories/PropsRefArray.v
theories/PropsBlame.v
theories/PropsIds.v
theories/PropsEnum.v
theories/Session.v
theories/PropsSession.v
theories/PropsRemoteEx.v
theories/Live.v
theories/PropsLive.v
theories/PropsLiveEx.v
theories/PropsFetch.v
theories/Imports.v
theories/PropsImports.v
theories/Ident.v
theories/IdentFacts.v
theories/PropsIdent.v
theories/StdText.v
theories/PropsStd.v
theories/PropsStdChars.v
theories/Threads.v
theories/ThreadFacts.v
theories/PropsThreads.v
theories/PropsThreadsLoaded.v
theories/ErrorText.v
theories/PropsErrorText.v
theories/PropsBraces.v
theories/LoadThreads.v
theories/LoadThreadFacts.v
theories/PropsLoadThreads.v
theories/Compare.v
theories/PropsCompare.v
theories/Arrays.v
theories/PropsArrays.v
theories/PropsNested.v
theories/PropsRetry.v
theories/RefCache.v
theories/PropsRefCache.v
theories/PointerObj.v
theories/PropsPointerObj.v
theories/SchemaEdits.v
theories/PropsSchemaEdits.v
theories/PropsSchemaEditsEx.v
theories/ObjectMethods.v
theories/PropsObjectMethods.v
theories/VocStore.v
theories/PropsVocStore.v
theories/Standard.v
theories/PropsStandard.v
theories/PropsInline.v
theories/PropsRefStandard.v
theories/PropsKeywordData.v
theories/UriCompare.v
theories/PropsUriCompare.v
theories/PropsFormatOthers.v
theories/NonFinite.v
theories/PropsNonFinite.v
theories/PropsLoadAfter.v
theories/PropsEndless.v
theories/PropsRecursive.v
theories/RefOperand.v
theories/PropsRefOperand.v
theories/SchemaError.v
theories/SchemaErrorFacts.v
theories/PropsSchemaError.v
theories/LoadError.v
theories/PropsLoadError.v
theories/PropsMapping.v
theories/FormatSession.v
theories/PropsFormatSession.v
theories/PropsFormatUse.v
theories/ManySchemas.v
theories/PropsManySchemas.v
