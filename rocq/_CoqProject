-Q theories Verif
theories/Base.v
theories/Types.v
theories/Codec.v
theories/State.v
theories/Ledger.v
theories/PrincipalText.v
theories/TextProofs.v
theories/Canister.v
theories/About.v
theories/Depositor.v
theories/CodecFacts.v
theories/Effects.v
theories/Spec.v
theories/ApiSpec.v
theories/Inv.v
theories/Steps.v
theories/World.v
theories/Demo.v
theories/QueryFacts.v
theories/CallFacts.v
theories/CallCases.v
theories/StepFacts.v
theories/AllowFacts.v
theories/RefundFacts.v
theories/AsyncFacts.v
theories/PropertiesLog.v
theories/CodecProofs.v
theories/Cbor.v
theories/ConfigCodec.v
theories/CborProofs.v
theories/PropertiesCodec.v
theories/DedupFacts.v
theories/PropertiesDedup.v
theories/CreateFacts.v
theories/PropertiesCalls.v
theories/PropertiesAuth.v
theories/EventFacts.v
theories/PropertiesAsync.v
theories/PropertiesRefund.v
theories/PropertiesPaging.v
theories/PropertiesQuery.v
theories/PropertiesPrune.v
theories/PropertiesUpgrade.v
theories/ValueHash.v
theories/HashSpec.v
theories/Sha256.v
theories/HashProofs.v
theories/PropertiesHash.v
theories/AnswerSpec.v
theories/RefLedger.v
theories/PropertiesAnswers.v
theories/PropertiesRetry.v
theories/IndexerSpec.v
theories/PropertiesIndexer.v
theories/PropertiesExposure.v
theories/PropertiesHistory.v
theories/PropertiesMeta.v
theories/PropertiesOrder.v
theories/PropertiesConfig.v
theories/PropertiesDepositor.v
theories/PropertiesBacklog.v
theories/SchemaSpec.v
theories/PropertiesSchema.v
theories/PropertiesControl.v
theories/PropertiesNamed.v
theories/PropertiesExact.v
theories/PropertiesCallbacks.v
theories/PropertiesEarnings.v
theories/PropertiesRefundBound.v
theories/PropertiesListing.v
theories/PropertiesChain.v
theories/Http.v
theories/PropertiesHttp.v
theories/Cmc.v
theories/PropertiesCmc.v
theories/PropertiesCashOut.v
theories/PropertiesStored.v
theories/PropertiesStorage.v
theories/TipBytes.v
theories/PropertiesTip.v
theories/PropertiesWork.v
theories/PropertiesMessages.v
theories/PropertiesRevoke.v
theories/PropertiesOnce.v
theories/PropertiesTwin.v
theories/PropertiesReference.v
theories/PropertiesReceipts.v
theories/PropertiesBooks.v
theories/PropertiesParties.v
theories/PropertiesMarks.v
theories/PropertiesSpend.v
theories/PropertiesCrash.v
theories/StableMemory.v
theories/PropertiesStable.v
theories/PropertiesTrack.v
theories/PropertiesRecord.v
theories/Candid.v
theories/CandidProofs.v
theories/Wire.v
theories/WireFacts.v
theories/WireInj.v
theories/PropertiesWire.v
theories/PropertiesSize.v
theories/PropertiesNames.v
theories/Requests.v
theories/PropertiesRequests.v
theories/Endpoint.v
theories/PropertiesBytes.v
theories/PropertiesAudit.v
theories/PropertiesResend.v
