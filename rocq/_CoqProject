-Q theories Verif
theories/PyVal.v
theories/PyEq.v
theories/Diff.v
theories/DiffProofs.v
theories/DiffExact.v
theories/HeapPatch.v
theories/PropsDiff.v
theories/Time.v
theories/TimeProofs.v
theories/TimeNaive.v
theories/PropsTime.v
theories/TimeParse.v
theories/PropsDates.v
theories/Prepare.v
theories/PrepareProofs.v
theories/PropsPrepare.v
theories/Store.v
theories/Mongo.v
theories/MongoProofs.v
theories/MongoStore.v
theories/MongoMore.v
theories/PropsMongo.v
theories/Client.v
theories/ClientProofs.v
theories/PropsWrites.v
theories/Repeats.v
theories/PropsRepeats.v
theories/PropsClient.v
theories/Locking.v
theories/PropsLocking.v
theories/LockMeta.v
theories/PropsLockMeta.v
theories/Index.v
theories/IndexSpec.v
theories/IndexProofs.v
theories/PropsIndex.v
theories/Sync.v
theories/SyncSpec.v
theories/SyncProofs.v
theories/SyncBuild.v
theories/SyncColl.v
theories/SyncTrace.v
theories/SyncView.v
theories/SyncMore.v
theories/SyncArcs.v
theories/SyncEvents.v
theories/SyncReach.v
theories/PropsSync.v
theories/PropsSyncRefuted.v
theories/SyncStale.v
theories/SyncLocal.v
theories/SyncTruth.v
theories/PropsSyncAny.v
theories/PropsSyncTruth.v
theories/PropsSyncMore.v
theories/PropsSyncMoreRefuted.v
theories/Workers.v
theories/WorkersProofs.v
theories/PropsWorkers.v
theories/Parser.v
theories/ParserProofs.v
theories/ParserTypes.v
theories/ParserEq.v
theories/PropsParser.v
theories/PropsParserTypes.v
theories/ParserOrder.v
theories/Cache.v
theories/PropsCache.v
theories/Options.v
theories/PropsOptions.v
theories/Search.v
theories/PropsSearch.v
theories/Fields.v
theories/PropsFields.v
theories/PropsFieldsMore.v
theories/PropsFieldCounts.v
theories/PropsFieldKinds.v
theories/Names.v
theories/Json.v
theories/PropsNames.v
theories/Geo.v
theories/PropsGeo.v
theories/GeoFloat.v
theories/PropsGeoFloat.v
theories/Mapping.v
theories/PropsMapping.v
theories/PropsContent.v
theories/PropsTotal.v
theories/ParserSim.v
theories/EndToEnd.v
theories/PropsEndToEnd.v
theories/PropsEndToEndAny.v
theories/ParserPlaces.v
theories/PropsPlaces.v
theories/ParserExact.v
theories/EndToEndParsed.v
theories/PropsQueries.v
theories/PropsQueriesMore.v
theories/Bulk.v
theories/BulkParse.v
theories/PropsBulk.v
theories/GeoParse.v
theories/PropsGeoParse.v
theories/Bson.v
theories/BsonProofs.v
theories/BsonLimits.v
theories/PropsBson.v
theories/Race.v
theories/PropsRace.v
theories/SyncRace.v
theories/PropsSyncRace.v
theories/PropsClock.v
theories/Interrupt.v
theories/PropsInterrupt.v
theories/PropsAtOnce.v
theories/Raises.v
theories/PropsRaises.v
theories/PropsFormats.v
theories/BadOptions.v
theories/PropsBadOptions.v
theories/FieldLimit.v
theories/PropsFieldLimit.v
theories/BsonSize.v
theories/BsonSizeProofs.v
theories/PropsBsonSize.v
theories/SyncThen.v
theories/PropsSyncThen.v
theories/PropsChanges.v
theories/PropsAtOnceMore.v
theories/PropsRaceMore.v
theories/PropsBsonRoom.v
theories/PropsBsonNested.v
theories/PropsBulkSize.v
theories/PropsBulkRoom.v
