-Q theories Verif
theories/Outcome.v
theories/F64.v
theories/Rng.v
theories/F64Facts.v
theories/RngFacts.v
theories/Pop.v
theories/F64Bounds.v
theories/PopSpec.v
theories/PopInv.v
theories/PopSel.v
theories/PopDel.v
theories/PopCover.v
theories/PopMatch.v
theories/PopMset.v
theories/PopUpdate.v
theories/PopEA.v
theories/PopPA.v
theories/PopTrial.v
theories/PopFit.v
theories/PopRL.v
theories/PopOps.v
theories/PopSeq.v
theories/PopClock.v
theories/Clock.v
theories/PopKeep.v
theories/Arr.v
theories/Sam.v
theories/Cond.v
theories/Blas.v
theories/Pred.v
theories/ArrFacts.v
theories/SamFacts.v
theories/TernFacts.v
theories/RectFacts.v
theories/EllipFacts.v
theories/BlasFacts.v
theories/PredFacts.v
theories/Exact.v
theories/Comp.v
theories/CompFacts.v
theories/Loss.v
theories/LossFacts.v
theories/Demo.v
theories/DemoEx.v
theories/PropPop.v
theories/PropTrial.v
theories/PropFrame.v
theories/PropSel.v
theories/PropRef.v
theories/RandInt.v
theories/PropTern.v
theories/PropBox.v
theories/PropGrow.v
theories/PropRefCond.v
theories/PropPred.v
theories/PropStore.v
theories/PropMulti.v
theories/PropClock.v
theories/PropAvg.v
theories/Env.v
theories/EnvFacts.v
theories/PropEnv.v
theories/Names.v
theories/Param.v
theories/PropNames.v
theories/PropParam.v
theories/PopTick.v
theories/PropCover.v
theories/PropEarly.v
theories/PropPy.v
theories/PropPyRef.v
theories/Py.v
theories/Gp.v
theories/GpFacts.v
theories/GpOps.v
theories/GpRand.v
theories/PropGp.v
theories/Dgp.v
theories/DgpFacts.v
theories/PropDgp.v
theories/Act.v
theories/ActFacts.v
theories/Image.v
theories/Layer.v
theories/LayerFacts.v
theories/PoolFacts.v
theories/PropConn.v
theories/PropPool.v
theories/ConvFacts.v
theories/PropConv.v
theories/FiltFacts.v
theories/MutFacts.v
theories/PropMut.v
theories/PropUpd.v
theories/UpdFacts.v
theories/Llist.v
theories/LlistFacts.v
theories/PropList.v
theories/Net.v
theories/NetFacts.v
theories/NetChain.v
theories/NetLayer.v
theories/PropNet.v
theories/PropRule.v
theories/PropRange.v
theories/RangeFacts.v
theories/File.v
theories/FileFacts.v
theories/FileNet.v
theories/FileOver.v
theories/PropFile.v
theories/Pa.v
theories/PaFacts.v
theories/PropPa.v
theories/Json.v
theories/PropJson.v
theories/PropJsonEx.v
theories/PropCross.v
theories/PropBack.v
theories/PropFlag.v
theories/PropFwd.v
theories/Expand.v
theories/NetAct.v
theories/PropExpand.v
theories/PropSys.v
theories/PropText.v
theories/Text.v
theories/PropLstm.v
theories/PropRecur.v
theories/RecFacts.v
theories/Recur.v
theories/ParJson.v
theories/PropParJson.v
theories/PropParPy.v
theories/PropDgpConn.v
theories/PropRuleJson.v
theories/RuleJson.v
theories/PropStats.v
theories/Stats.v
theories/PropDraws.v
theories/DgpJson.v
theories/PropDgpJson.v
theories/PropTight.v
theories/C01.v
theories/C02.v
theories/C03.v
theories/C04.v
theories/C05.v
theories/C06.v
theories/C07.v
theories/C08.v
theories/C09.v
theories/C10.v
theories/C11.v
theories/C12.v
theories/C13.v
theories/C14.v
theories/C15.v
theories/C16.v
theories/C17.v
theories/C18.v
theories/C19.v
theories/C20.v
theories/C21.v
theories/C22.v
theories/C23.v
theories/C24.v
theories/C25.v
theories/C26.v
theories/C27.v
theories/C28.v
theories/C29.v
theories/C30.v
theories/C31.v
theories/C32.v
theories/C33.v
theories/C34.v
theories/C35.v
theories/C36.v
theories/C37.v
theories/C38.v
theories/C39.v
theories/C40.v
theories/C41.v
theories/C42.v
theories/C43.v
theories/C44.v
theories/C45.v
theories/C46.v
theories/C47.v
theories/C48.v
theories/C49.v
theories/C50.v
theories/C51.v
theories/C52.v
theories/C53.v
theories/C54.v
theories/C55.v
theories/C56.v
theories/C57.v
theories/C58.v
theories/C59.v
theories/C60.v
theories/C61.v
theories/C62.v
theories/C63.v
theories/C64.v
theories/C65.v
theories/C66.v
theories/C67.v
theories/C68.v
theories/C69.v
theories/C70.v
theories/C71.v
theories/C72.v
theories/C73.v
theories/C74.v
theories/C75.v
theories/C76.v
theories/C77.v
theories/C78.v
theories/C79.v
theories/C80.v
