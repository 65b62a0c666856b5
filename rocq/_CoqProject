-Q theories Verif
theories/Base.v
theories/Api.v
theories/Tables.v
theories/Range.v
theories/Mii.v
theories/Ram.v
theories/Gear.v
theories/Pigz.v
theories/Gzip.v
theories/FastCdc.v
theories/Bup.v
theories/BuzHash.v
theories/Zpaq.v
theories/Zstd.v
theories/Spec.v
theories/Lists.v
theories/Contract.v
theories/Step.v
theories/MiiProofs.v
theories/RamProofs.v
theories/Words.v
theories/GearProofs.v
theories/PigzProofs.v
theories/Window.v
theories/GzipProofs.v
theories/Ring.v
theories/BupProofs.v
theories/BupAny.v
theories/Rot.v
theories/BuzProofs.v
theories/ZpaqProofs.v
theories/ZstdProofs.v
theories/FastCdcProofs.v
theories/IterProofs.v
theories/ZstdIter.v
theories/CutFacts.v
theories/ZpaqCtor.v
theories/Builtin.v
theories/BuiltinProofs.v
theories/IterAll.v
theories/Reach.v
theories/Agree.v
theories/FastCdcTotal.v
theories/Totality.v
theories/StateFacts.v
theories/Cap.v
theories/BuzWindow.v
theories/Answers.v
theories/CutProps.v
theories/IterOps.v
theories/Cases.v
theories/PropsIter.v
theories/PropsEdge.v
theories/PropsMiiRam.v
theories/PropsGearPigz.v
theories/PropsGzip.v
theories/PropsFastCdc.v
theories/PropsBup.v
theories/PropsBuz.v
theories/PropsZpaq.v
theories/ZstdEdge.v
theories/PropsZstd.v
theories/PropsCuts.v
theories/Drivers.v
theories/Pcg.v
theories/Validation.v
theories/DriverProofs.v
theories/DriverFast.v
theories/Oracle.v
theories/DriverZstd.v
theories/PropsDrivers.v
theories/PropsDefaults.v
theories/Stable.v
theories/Unbounded.v
theories/PropsBounds.v
theories/Feed.v
theories/PropsLoops.v
theories/Force.v
theories/PropsForce.v
theories/AgreeExact.v
theories/PropsAgree.v
theories/FastCdcExact.v
theories/PropsFastCdcExact.v
theories/FastCdcSafe.v
theories/FastCdcAny.v
theories/PropsFastCdcSafe.v
theories/PropsDedup.v
theories/Count.v
theories/Density.v
theories/PropsDensity.v
theories/Density2.v
theories/PropsDensity2.v
theories/Sensitive.v
theories/PropsSensitive.v
theories/HashDiff.v
theories/PropsHash.v
theories/PropsEdgeRest.v
theories/PushApp.v
theories/PropsStream.v
theories/Release.v
theories/PropsRelease.v
theories/DriverAny.v
theories/DriverOrder.v
theories/PropsDriverAny.v
theories/Float.v
theories/Rust.v
theories/RustText.v
theories/RustLex.v
theories/RustParse.v
theories/RustElab.v
theories/RustSource.v
theories/RustFiles.v
theories/RustSim.v
theories/RustMii.v
theories/RustRam.v
theories/RustGear.v
theories/RustPigz.v
theories/RustGzip.v
theories/RustFastCdc.v
theories/RustBup.v
theories/RustBuzHash.v
theories/RustRange.v
theories/RustZpaq.v
theories/RustZstd.v
theories/RustLib.v
theories/RustConfig.v
theories/PropsSource.v
theories/RustMeta.v
theories/PropsBuilds.v
theories/DriverText.v
theories/DriverSim.v
theories/PropsCallers.v
theories/PropsFloat.v
theories/PropsText.v
theories/RustTests.v
theories/PropsTests.v
theories/RustRules.v
theories/RulesProofs.v
theories/PropsRules.v
theories/PropsCutTests.v
theories/PropsGolden.v
theories/Grammar.v
theories/GrammarSound.v
theories/Lexical.v
theories/LexSound.v
theories/PropsGrammar.v
theories/Typing.v
theories/TypingSound.v
theories/PropsTyping.v
theories/BuzSeed.v
theories/PropsBuzSeed.v
theories/Bupsplit.v
theories/PropsBupsplit.v
theories/PropsBupText.v
theories/GenData.v
theories/PropsGenData.v
theories/SeedTests.v
theories/PropsSeedTests.v
theories/PropsLoans.v
theories/PropsDefault.v
