-Q theories Verif
theories/Base.v
theories/CatModel.v
theories/CatProofs.v
theories/CatProps.v
theories/CatSpec.v
theories/DateLitModel.v
theories/DateLitProps.v
theories/DateLitSpec.v
theories/DateModel.v
theories/DateProofs.v
theories/DateProofs2.v
theories/DateProps.v
theories/DateSpec.v
theories/ExpCatModel.v
theories/ExpCatProps.v
theories/ExpCatSpec.v
theories/ExpCatVoidModel.v
theories/ExpCatVoidProps.v
theories/ExpCatVoidSpec.v
theories/ExpModel.v
theories/ExpProofs.v
theories/ExpProps.v
theories/ExpSpec.v
theories/FinModel.v
theories/FinProofs.v
theories/FinProps.v
theories/FinSpec.v
theories/FloatModel.v
theories/FloatProofs.v
theories/FloatProps.v
theories/FmtModel.v
theories/FmtNulProps.v
theories/FmtProofs.v
theories/FmtProofs2.v
theories/FmtProofs3.v
theories/FmtProofs4.v
theories/FmtProofs5.v
theories/FmtProofs6.v
theories/FmtProofs7.v
theories/FmtProps.v
theories/FmtProps2.v
theories/FmtSpec.v
theories/FmtSpec2.v
theories/HexModel.v
theories/HexProofs.v
theories/HexProps.v
theories/HexSpec.v
theories/IntModel.v
theories/IntProofs.v
theories/NumModel.v
theories/NumProofs.v
theories/NumProps.v
theories/NumSpec.v
theories/OptHashModel.v
theories/OptHashProps.v
theories/OptModel.v
theories/OptProofs.v
theories/OptProps.v
theories/OptSpec.v
theories/ParClockProofs.v
theories/ParClockProps.v
theories/ParClockProps2.v
theories/ParClockProps3.v
theories/ParClockProps4.v
theories/ParClockSpec.v
theories/ParModel.v
theories/ParNulProps.v
theories/ParProofs1.v
theories/ParProofs10.v
theories/ParProofs11.v
theories/ParProofs12.v
theories/ParProofs2.v
theories/ParProofs3.v
theories/ParProofs4.v
theories/ParProofs5.v
theories/ParProofs6.v
theories/ParProofs7.v
theories/ParProofs8.v
theories/ParProofs9.v
theories/ParProps.v
theories/ParProps2.v
theories/ParProps3.v
theories/ParSpec.v
theories/ParSysProps.v
theories/ParTimeProofs1.v
theories/ParTimeProofs2.v
theories/ParTimeProps.v
theories/PoolCtorModel.v
theories/PoolCtorProps.v
theories/PoolCtorSpec.v
theories/PoolFairProofs.v
theories/PoolFairProofs2.v
theories/PoolFairProofs3.v
theories/PoolFairProps.v
theories/PoolFairSpec.v
theories/PoolMemModel.v
theories/PoolMemProofs.v
theories/PoolMemProps.v
theories/PoolModel.v
theories/PoolProofs.v
theories/PoolProofs2.v
theories/PoolProofs3.v
theories/PoolProofs4.v
theories/PoolProofs5.v
theories/PoolProofs6.v
theories/PoolProofs7.v
theories/PoolProofs8.v
theories/PoolProps.v
theories/PoolRun.v
theories/PoolSpec.v
theories/RefModel.v
theories/RefProps.v
theories/RefSpec.v
theories/SbExcModel.v
theories/SbExcProofs.v
theories/SbExcProps.v
theories/SbExcSpec.v
theories/SbModel.v
theories/SbProofs.v
theories/SbProofs2.v
theories/SbProps.v
theories/SbSlotProps.v
theories/SbSpec.v
theories/SlashFmtModel.v
theories/SlashFmtSpec.v
theories/SlashIntProps.v
theories/SlashModel.v
theories/SlashProps.v
theories/SlashProps2.v
theories/SlashProps3.v
theories/SlashSpec.v
theories/SleepModel.v
theories/SleepProps.v
theories/SleepSpec.v
theories/SpanModel.v
theories/SpanProofs.v
theories/SpanProps.v
theories/SpanSpec.v
theories/StatItModel.v
theories/StatItProps.v
theories/StatModel.v
theories/StatProofs.v
theories/StatProofs2.v
theories/StatProofs3.v
theories/StatProps.v
theories/StatSpec.v
theories/StrModel.v
theories/StrProofs1.v
theories/StrProofs2.v
theories/StrProps.v
theories/StrSearch.v
theories/StrSpec.v
theories/SvModel.v
theories/SvProofs.v
theories/SvProps.v
theories/SvSpec.v
theories/ToNumModel.v
theories/ToNumProofs.v
theories/ToNumProofs2.v
theories/ToNumProofs3.v
theories/ToNumProofs4.v
theories/ToNumProps.v
theories/ToNumProps2.v
theories/ToNumSpec.v
theories/TocFineProps.v
theories/TocModel.v
theories/TocProofs.v
theories/TocProps.v
theories/TocSpec.v
theories/TrigFairProofs.v
theories/TrigFairProps.v
theories/TrigFairSpec.v
theories/TrigModel.v
theories/TrigProofs.v
theories/TrigProps.v
theories/TrigRun.v
theories/TrigSpec.v
theories/TypeNameModel.v
theories/TypeNameProofs.v
theories/TypeNameProps.v
theories/TypeNameSpec.v
theories/VecModel.v
theories/VecProofs.v
theories/VecProofs10.v
theories/VecProofs11.v
theories/VecProofs12.v
theories/VecProofs12b.v
theories/VecProofs13.v
theories/VecProofs2.v
theories/VecProofs3.v
theories/VecProofs4.v
theories/VecProofs5.v
theories/VecProofs6.v
theories/VecProofs7.v
theories/VecProofs8.v
theories/VecProofs9.v
theories/VecProps.v
theories/VecSpec.v
theories/VtModel.v
theories/VtProofs.v
theories/VtProofs2.v
theories/VtProps.v
theories/VtSelModel.v
theories/VtSelProps.v
theories/VtSelSpec.v
theories/VtSpec.v
