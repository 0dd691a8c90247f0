-Q theories Verif
theories/Base.v
theories/ModelPrincipal.v
theories/ModelState.v
theories/ModelIcrc7.v
theories/ModelIcrc37.v
theories/ModelManagement.v
theories/ModelLifecycle.v
theories/ModelQueries.v
theories/ModelStep.v
theories/ModelHttp.v
theories/ModelInstall.v
theories/ModelStorage.v
theories/ModelConsent.v
theories/ModelIndex.v
theories/ModelCodec.v
theories/ModelCli.v
theories/ModelPrompts.v
theories/ModelWorkflow.v
theories/ModelMain.v
theories/ModelJoint.v
theories/SpecIndex.v
theories/ProofsItems.v
theories/ProofsManage.v
theories/ProofsMicro.v
theories/Spec.v
theories/ProofsCore.v
theories/ProofsOwner.v
theories/ProofsTime.v
theories/ProofsLog.v
theories/ProofsRate.v
theories/ProofsApprovals.v
theories/ProofsQueries.v
theories/ProofsBalance.v
theories/ProofsLock.v
theories/ProofsMeta.v
theories/ProofsUploads.v
theories/ProofsPrincipal.v
theories/ProofsIndex.v
theories/ProofsCodec.v
theories/Scenario.v
theories/PropertiesLedger.v
theories/PropertiesApprovals.v
theories/PropertiesBatch.v
theories/PropertiesQueries.v
theories/PropertiesManage.v
theories/PropertiesMeta.v
theories/PropertiesUploads.v
theories/PropertiesHttp.v
theories/PropertiesReads.v
theories/PropertiesIndex.v
theories/PropertiesCross.v
theories/PropertiesCodec.v
theories/PropertiesText.v
theories/PropertiesStored.v
theories/PropertiesCli.v
theories/PropertiesLive.v
theories/PropertiesTrail.v
theories/PropertiesRecord.v
theories/PropertiesReasons.v
theories/PropertiesInstall.v
theories/PropertiesFrame.v
theories/PropertiesUploadLive.v
theories/PropertiesCatchup.v
theories/PropertiesLift.v
theories/PropertiesStandard.v
theories/PropertiesPrompts.v
theories/PropertiesWorkflow.v
theories/PropertiesOrder.v
theories/PropertiesMirror.v
theories/PropertiesBatches.v
theories/PropertiesTool.v
theories/PropertiesProvenance.v
theories/PropertiesKept.v
theories/PropertiesConsent.v
theories/PropertiesRepeat.v
theories/PropertiesLimiter.v
theories/PropertiesPaging.v
theories/PropertiesPowers.v
theories/PropertiesPrivacy.v
theories/PropertiesRetry.v
theories/PropertiesRename.v
theories/PropertiesClock.v
theories/PropertiesAlike.v
theories/PropertiesMore.v
theories/PropertiesRoom.v
theories/PropertiesMemo.v
theories/PropertiesTwins.v
theories/PropertiesForce.v
theories/PropertiesRefused.v
theories/PropertiesCases.v
theories/PropertiesNumber.v
theories/PropertiesIdle.v
theories/PropertiesSpend.v
theories/PropertiesMetaLog.v
theories/PropertiesRefine.v
theories/PropertiesCover.v
theories/PropertiesRecords.v
theories/PropertiesRenounce.v
theories/PropertiesSum.v
theories/PropertiesCause.v
theories/PropertiesLasting.v
theories/PropertiesPieces.v
theories/PropertiesParties.v
theories/PropertiesEnd.v
theories/PropertiesPedigree.v
theories/PropertiesBooks.v
theories/PropertiesCustody.v
theories/PropertiesJoint.v
theories/Conformance.v
