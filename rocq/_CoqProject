-Q theories Verif
theories/GoBase.v
theories/CacheModel.v
theories/CacheSpec.v
theories/CacheProofs.v
theories/CacheProofs2.v
theories/CacheProofs3.v
theories/CacheWitness.v
theories/CacheProps.v
theories/TestsCache.v
theories/CacheConc.v
theories/CacheConcProofs.v
theories/CacheConcSpec.v
theories/CacheConcProofs2.v
theories/CacheConcProofs3.v
theories/CacheConcWitness.v
theories/CacheConcProps.v
theories/SettingsSpec.v
theories/SettingsProofs.v
theories/SettingsProps.v
theories/VerifyProofs.v
theories/VerifyProps.v
theories/NestSpec.v
theories/NestProofs.v
theories/NestProofs2.v
theories/NestProps.v
theories/LockModel.v
theories/LockProofs.v
theories/SkelModel.v
theories/SkelProofs.v
theories/Skeletons.v
theories/SkelInst.v
theories/SkelProps.v
theories/ExecSkel.v
theories/ExecSkelProofs.v
theories/ExecSkelProps.v
theories/GoStrings.v
theories/GoStringsProofs.v
theories/LangModel.v
theories/LangSpec.v
theories/LangProofs.v
theories/LangProofs2.v
theories/LangProps.v
theories/LockInst.v
theories/LockInstProofs.v
theories/LockInstProofs2.v
theories/LockInstProofs3.v
theories/LockProps.v
theories/CacheLock.v
theories/CacheLockProofs.v
theories/CacheLockProps.v
theories/DatasetModel.v
theories/DatasetSpec.v
theories/DatasetProofs.v
theories/DatasetProofs2.v
theories/FloatProofs.v
theories/DatasetProofs3.v
theories/DatasetProofs4.v
theories/DatasetProofs5.v
theories/DatasetProofs6.v
theories/DatasetProps.v
theories/AliasModel.v
theories/AliasProofs.v
theories/AliasProps.v
theories/Regex.v
theories/RegexSyntax.v
theories/TemplateModel.v
theories/RegexProofs.v
theories/TemplateSpec.v
theories/TemplateProofs.v
theories/TemplateProofs2.v
theories/TemplateProofs3.v
theories/TemplateProofs4.v
theories/TemplateProofs5.v
theories/TemplateProofs6.v
theories/TemplateProps.v
theories/AddProofs.v
theories/AddProps.v
theories/PrintModel.v
theories/PrintProofs.v
theories/PrintProps.v
theories/FileModel.v
theories/FileProofs.v
theories/FileProps.v
theories/RenderSpec.v
theories/RenderProofs.v
theories/RenderProofs2.v
theories/RenderProofs3.v
theories/RenderProofs4.v
theories/RenderProofs5.v
theories/RenderProofs6.v
theories/RenderProofs7.v
theories/RenderProofs8.v
theories/RenderProofs9.v
theories/RenderProofs10.v
theories/RenderProofs11.v
theories/RenderProps.v
theories/BuildSpec.v
theories/BuildProofs.v
theories/BuildProps.v
theories/XmlModel.v
theories/XmlSpec.v
theories/XmlProofs.v
theories/XmlProofs2.v
theories/XmlProofs3.v
theories/XmlProofs4.v
theories/XmlProofs5.v
theories/XmlProofs6.v
theories/XmlProps.v
theories/TextSpec.v
theories/TextProofs.v
theories/TextProps.v
theories/TestsLang.v
theories/TestsDataset.v
theories/TestsTemplate.v
theories/V1Cache.v
theories/V1CacheProofs.v
theories/V1Props.v
theories/V1Skel.v
theories/V1SkelProps.v
theories/V1Lang.v
theories/V1LangProofs.v
theories/V1Dataset.v
theories/V1DatasetProofs.v
theories/V1DataProps.v
theories/V1Template.v
theories/V1TemplateSpec.v
theories/V1TemplateProofs.v
theories/V1TemplateProofs2.v
theories/V1TemplateProofs3.v
theories/V1TemplateProofs4.v
theories/V1TemplateProofs5.v
theories/V1TemplateProofs6.v
theories/V1TemplateProofs7.v
theories/V1TemplateProps.v
theories/SameSpec.v
theories/SameProofs.v
theories/SameProofs2.v
theories/SameProofs3.v
theories/SameProps.v
theories/DocProofs.v
theories/DocProps.v
theories/FlatSpec.v
theories/FlatProofs.v
theories/FlatProps.v
theories/XmlDocSpec.v
theories/XmlDocProofs.v
theories/XmlDocProofs2.v
theories/XmlDocProofs3.v
theories/XmlDocProofs4.v
theories/XmlDocProofs5.v
theories/XmlDocProofs6.v
theories/XmlDocProofs7.v
theories/XmlDocProps.v
theories/SliceModel.v
theories/SliceSpec.v
theories/SliceProofs.v
theories/SliceProofs2.v
theories/SliceProps.v
theories/ZeroModel.v
theories/ZeroSpec.v
theories/ZeroProofs.v
theories/ZeroProps.v
theories/WrapModel.v
theories/WrapProofs.v
theories/WrapProps.v
theories/PlainSpec.v
theories/PlainProofs.v
theories/PlainProps.v
theories/NilModel.v
theories/NilSpec.v
theories/NilProofs.v
theories/NilProofs2.v
theories/NilProps.v
theories/RecentSpec.v
theories/RecentProofs.v
theories/RecentProps.v
theories/HoleSpec.v
theories/HoleProofs.v
theories/HoleProofs2.v
theories/HoleProofs3.v
theories/HoleProps.v
theories/RaceSpec.v
theories/RaceProofs.v
theories/RaceWitness.v
theories/RaceProps.v
theories/PathSpec.v
theories/PathProofs.v
theories/PathProofs2.v
theories/PathProps.v
theories/WriteSpec.v
theories/WriteProofs.v
theories/WriteProps.v
theories/LangConc.v
theories/LangConcSpec.v
theories/LangConcProofs.v
theories/LangConcWitness.v
theories/LangConcProps.v
theories/CrashSpec.v
theories/CrashProofs.v
theories/CrashProofs2.v
theories/CrashProps.v
theories/ShrinkProofs.v
theories/ShrinkProps.v
theories/ReentModel.v
theories/ReentSpec.v
theories/ReentProofs.v
theories/ReentProps.v
theories/LawsSpec.v
theories/LawsProofs.v
theories/LawsProps.v
theories/ParModel.v
theories/ParSpec.v
theories/ParProofs.v
theories/ParProofs2.v
theories/ParProofs3.v
theories/ParProofs4.v
theories/ParProofs5.v
theories/ParProps.v
theories/MeanSpec.v
theories/MeanProofs.v
theories/MeanProofs2.v
theories/MeanProofs3.v
theories/MeanProofs4.v
theories/MeanProps.v
theories/CopyModel.v
theories/CopySpec.v
theories/CopyProofs.v
theories/CopyProofs2.v
theories/CopyProofs3.v
theories/CopyProofs4.v
theories/CopyProofs5.v
theories/CopyProps.v
theories/EditModel.v
theories/EditSpec.v
theories/EditProofs.v
theories/EditProofs2.v
theories/EditProofs3.v
theories/EditProofs4.v
theories/EditProofs5.v
theories/EditProps.v
theories/GrowSpec.v
theories/GrowProofs.v
theories/GrowProofs2.v
theories/GrowProofs3.v
theories/GrowProps.v
theories/TransSpec.v
theories/TransProofs.v
theories/TransProps.v
theories/SpeakModel.v
theories/SpeakSpec.v
theories/SpeakProofs.v
theories/SpeakProofs2.v
theories/SpeakProofs3.v
theories/SpeakProofs4.v
theories/SpeakProps.v
theories/SnapModel.v
theories/SnapSpec.v
theories/SnapProofs.v
theories/SnapProofs2.v
theories/SnapProps.v
theories/TellModel.v
theories/TellSpec.v
theories/TellProofs.v
theories/TellProofs2.v
theories/TellProps.v
theories/WaitModel.v
theories/WaitSpec.v
theories/WaitProofs.v
theories/WaitProofs2.v
theories/WaitProofs3.v
theories/WaitProofs4.v
theories/WaitProps.v
theories/PeekSpec.v
theories/PeekProofs.v
theories/PeekProofs2.v
theories/PeekProofs3.v
theories/PeekProps.v
theories/WalkModel.v
theories/WalkSpec.v
theories/WalkProofs.v
theories/WalkProofs2.v
theories/WalkProps.v
theories/ServeModel.v
theories/ServeSpec.v
theories/ServeProofs.v
theories/ServeProofs2.v
theories/ServeProofs3.v
theories/ServeProps.v
theories/SizeSpec.v
theories/SizeProofs.v
theories/SizeProofs2.v
theories/SizeProofs3.v
theories/SizeProps.v
theories/KindSpec.v
theories/KindProofs.v
theories/KindProofs2.v
theories/KindProofs3.v
theories/KindProofs4.v
theories/KindProps.v
theories/DemandSpec.v
theories/DemandProofs.v
theories/DemandProofs2.v
theories/DemandProps.v
theories/CrowdSpec.v
theories/CrowdProofs.v
theories/CrowdProofs2.v
theories/CrowdProofs3.v
theories/CrowdProps.v
theories/AgeSpec.v
theories/AgeProofs.v
theories/AgeProofs2.v
theories/AgeProps.v
