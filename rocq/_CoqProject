-Q theories Verif
theories/Base/Prelude.v
theories/Base/Utf8.v
theories/Base/BitFacts.v
theories/Reader/Model.v
theories/Leb/Spec.v
theories/Leb/Model.v
theories/Leb/Proofs.v
theories/Reader/Spec.v
theories/Reader/Mono.v
theories/Leb/ReaderProofs.v
theories/Leb/Top.v
theories/Leb/Properties.v
theories/Encoder/Model.v
theories/Parser/Model.v
theories/Parser/Spec.v
theories/Parser/Proofs.v
theories/Parser/Stream.v
theories/Parser/Shape.v
theories/Parser/Chunks.v
theories/Parser/Complete.v
theories/Parser/Tiling.v
theories/Parser/Module.v
theories/Parser/Forward.v
theories/Parser/Top.v
theories/Parser/Encoded.v
theories/Parser/Properties.v
theories/Wit/LayoutModel.v
theories/Wit/Spec.v
theories/Wit/LayoutProofs.v
theories/Wit/LayoutTop.v
theories/Wit/FlatModel.v
theories/Wit/FlatSpec.v
theories/Wit/FlatProofs.v
theories/Wit/FlatTop.v
theories/Wit/Properties.v
theories/Base/Search.v
theories/Locals/Model.v
theories/Locals/Spec.v
theories/Locals/Proofs.v
theories/Locals/Properties.v
theories/Coll/SnapshotModel.v
theories/Coll/SnapshotProofs.v
theories/Coll/MapModel.v
theories/Coll/MapSpec.v
theories/Coll/MapProofs.v
theories/Coll/Properties.v
theories/Codec/Kit.v
theories/Codec/Local.v
theories/Types/RefModel.v
theories/Types/RefSpec.v
theories/Types/RefProofs.v
theories/Types/CodecModel.v
theories/Types/CodecSpec.v
theories/Types/CodecProofs.v
theories/Types/CodecTop.v
theories/Types/EntityModel.v
theories/Types/EntitySpec.v
theories/Types/EntityProofs.v
theories/Types/LocalTypes.v
theories/Types/Strict.v
theories/Types/Properties.v
theories/Types/CanonModel.v
theories/Types/CanonSpec.v
theories/Types/CanonLemmas.v
theories/Types/CanonSub.v
theories/Types/CanonChecks.v
theories/Types/CanonTop.v
theories/Types/CanonPanic.v
theories/Types/PropertiesCanon.v
theories/Instr/ImmModel.v
theories/Instr/ImmSpec.v
theories/Instr/ImmProofs.v
theories/Instr/Ops.v
theories/Instr/Sink.v
theories/Instr/Visit.v
theories/Instr/LocalInstr.v
theories/Instr/HonestInstr.v
theories/Instr/Convert.v
theories/Instr/Imms.v
theories/Instr/Den.v
theories/Instr/BodyModel.v
theories/Instr/BodySpec.v
theories/Instr/Nest.v
theories/Instr/InstrProofs.v
theories/Instr/BodyProofs.v
theories/Instr/AlignSpec.v
theories/Instr/BodyTop.v
theories/Instr/Properties.v
theories/Sections/SegModel.v
theories/Sections/SegSpec.v
theories/Sections/SeeModel.v
theories/Sections/Item.v
theories/Sections/SeeProofs.v
theories/Sections/SegProofs.v
theories/Sections/NameModel.v
theories/Sections/NameProofs.v
theories/Sections/ModuleModel.v
theories/Sections/ModuleProofs.v
theories/Sections/SectionsTop.v
theories/Sections/Properties.v
theories/Validator/State.v
theories/Validator/Checks.v
theories/Validator/Visit.v
theories/Validator/Api.v
theories/Validator/Generic.v
theories/Validator/Undo.v
theories/Validator/Top.v
theories/Validator/Properties.v
theories/Validator/Sig.v
theories/Validator/TypeSpec.v
theories/Validator/TypeBase.v
theories/Validator/TypeSem.v
theories/Validator/TypeLook.v
theories/Validator/TypeSig.v
theories/Validator/TypeSigs.v
theories/Validator/TypeInst.v
theories/Validator/TypeOps.v
theories/Validator/TypeOps2.v
theories/Validator/TypeOps3.v
theories/Validator/TypeRefs.v
theories/Validator/TypeBlocks.v
theories/Validator/TypeRun.v
theories/Validator/Body.v
theories/Validator/TypeKinds.v
theories/Validator/TypeFunc.v
theories/Validator/Module.v
theories/Validator/ModuleRes.v
theories/Validator/Mono.v
theories/Validator/Readable.v
theories/Validator/PropertiesTyping.v
theories/Validator/Calm.v
theories/Validator/CalmOps.v
theories/Validator/CalmControl.v
theories/Validator/CalmBody.v
theories/Validator/CalmModule.v
theories/Validator/CalmLimit.v
theories/Validator/PropertiesPanic.v
theories/Peephole/Flt.v
theories/Peephole/Machine.v
theories/Peephole/Lang.v
theories/Peephole/Sem.v
theories/Peephole/Sound.v
theories/Peephole/Egraph.v
theories/Peephole/PropertiesPeephole.v
theories/Smith/Structured.v
theories/Smith/NoTraps.v
theories/Smith/FloatOrder.v
theories/Smith/NoTrapsProofs.v
theories/Smith/PropertiesSmith.v
theories/Names/Kebab.v
theories/Names/KebabProofs.v
theories/Names/Name.v
theories/Names/NameProofs.v
theories/Names/PropertiesNames.v
theories/Text/Lexer.v
theories/Text/Print.v
theories/Text/Numbers.v
theories/Text/Spec.v
theories/Text/LexProofs.v
theories/Text/PrintProofs.v
theories/Text/Tile.v
theories/Text/IntProofs.v
theories/Text/PropertiesText.v
theories/Text/FloatCore.v
theories/Text/FloatFinish.v
theories/Text/HexFloat.v
theories/Text/FloatText.v
theories/Text/FloatPrint.v
theories/Text/PropertiesFloat.v
theories/Graph/Toposort.v
theories/Graph/Spec.v
theories/Graph/ToposortIndex.v
theories/Graph/ToposortProofs.v
theories/Graph/PropertiesToposort.v
theories/Graph/Compose.v
theories/Graph/ComposeMaps.v
theories/Graph/ComposeProofs.v
theories/Graph/PropertiesCompose.v
theories/Shrink/Model.v
theories/Shrink/PropertiesShrink.v
theories/Wave/Model.v
theories/Wave/Spec.v
theories/Wave/LexProofs.v
theories/Wave/Proofs.v
theories/Wave/SoundProofs.v
theories/Wave/PropertiesWave.v
theories/Meta/Model.v
theories/Meta/Spec.v
theories/Meta/Doc.v
theories/Meta/DocWrite.v
theories/Meta/DocCanon.v
theories/Meta/RewriteProofs.v
theories/Meta/EditProofs.v
theories/Meta/Final.v
theories/Meta/ProducersProofs.v
theories/Meta/NamesProofs.v
theories/Meta/EffectProofs.v
theories/Meta/PropertiesMeta.v
theories/Modval/Model.v
theories/Modval/Spec.v
theories/Modval/Mono.v
theories/Modval/Const.v
theories/Modval/Entities.v
theories/Modval/Stages.v
theories/Modval/Items.v
theories/Modval/Slots.v
theories/Modval/Top.v
theories/Modval/PropertiesModule.v
theories/Modval/Again.v
theories/Modval/PropertiesAgain.v
theories/Modval/QuietRead.v
theories/Modval/QuietData.v
theories/Modval/Quiet.v
theories/Modval/QuietTop.v
theories/Modval/PropertiesQuiet.v
theories/Live/Model.v
theories/Live/Spec.v
theories/Live/Proofs.v
theories/Live/PropertiesLive.v
theories/Inline/Model.v
theories/Inline/Spec.v
theories/Inline/Proofs.v
theories/Inline/PropertiesInline.v
theories/Label/Model.v
theories/Label/Spec.v
theories/Label/Proofs.v
theories/Label/PropertiesLabel.v
theories/Space/Model.v
theories/Space/Spec.v
theories/Space/Proofs.v
theories/Space/Accept.v
theories/Space/PropertiesSpace.v
theories/Inldata/Model.v
theories/Inldata/Spec.v
theories/Inldata/Proofs.v
theories/Inldata/PropertiesInldata.v
theories/Folded/Model.v
theories/Folded/Spec.v
theories/Folded/Proofs.v
theories/Folded/PropertiesFolded.v
theories/Foldprint/Model.v
theories/Foldprint/Spec.v
theories/Foldprint/Proofs.v
theories/Foldprint/PropertiesFoldprint.v
theories/Hints/Model.v
theories/Hints/PropertiesHints.v
theories/Place/Model.v
theories/Place/Spec.v
theories/Place/Proofs.v
theories/Place/PropertiesPlace.v
