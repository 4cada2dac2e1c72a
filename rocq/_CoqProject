-Q theories Verif
theories/M_Base.v
theories/M_Crypto.v
theories/M_Aes.v
theories/M_Curve.v
theories/P_Base.v
theories/P_Prime.v
theories/S_Crypto.v
theories/P_Curve.v
theories/K_Toy.v
theories/M_Proto.v
theories/M_Uuid.v
theories/M_Message.v
theories/M_Ratchet.v
theories/M_State.v
theories/M_Store.v
theories/M_Group.v
theories/M_Session.v
theories/S_Message.v
theories/S_Ratchet.v
theories/S_Session.v
theories/S_State.v
theories/S_Shape.v
theories/S_Api.v
theories/S_Group.v
theories/S_Send.v
theories/K_World.v
theories/S_Aes.v
theories/P_Aes.v
theories/P_Proto.v
theories/S_Uuid.v
theories/P_Uuid.v
theories/P_Message.v
theories/P_Ratchet.v
theories/P_State.v
theories/P_Shape.v
theories/P_Chain.v
theories/M_Fingerprint.v
theories/M_Identity.v
theories/M_Slice.v
theories/S_Fingerprint.v
theories/P_Fingerprint.v
theories/S_Identity.v
theories/P_Misc.v
theories/S_Curve.v
theories/P_Verify.v
theories/S_Wire.v
theories/P_Wire.v
theories/P_CryptoTop.v
theories/P_Decrypt.v
theories/P_Receive.v
theories/P_Encrypt.v
theories/P_Init.v
theories/P_Prog.v
theories/P_Record.v
theories/P_Send.v
theories/S_Bundle.v
theories/P_Bundle.v
theories/S_Conv.v
theories/P_Conv.v
theories/P_DecApi.v
theories/S_X3dh.v
theories/S_Receive.v
theories/P_DecTop.v
theories/P_Replay.v
theories/P_Archive.v
theories/P_X3dh.v
theories/P_DecMore.v
theories/P_SendTop.v
theories/P_Trust.v
theories/K_Receive.v
theories/P_Group.v
theories/P_Api.v
theories/P_Conv2.v
theories/S_History.v
theories/P_History.v
theories/P_Establish.v
theories/K_Conv.v
theories/S_Atomic.v
theories/P_Atomic.v
theories/P_Frames.v
theories/P_CrashConv.v
theories/S_Isolation.v
theories/P_Isolation.v
theories/S_Sessions.v
theories/P_Sessions.v
theories/P_Cross.v
theories/K_Cross.v
theories/P_ManyRec.v
theories/S_Many.v
theories/P_ManyApi.v
theories/P_ManyFail.v
theories/P_ManyLink.v
theories/S_Secrecy.v
theories/P_Many.v
theories/P_ManySteps.v
theories/S_GroupMsg.v
theories/P_GroupMsg.v
theories/P_Member.v
theories/P_Keep.v
theories/P_GroupSend.v
theories/P_WireTop.v
theories/S_Size.v
theories/P_Size.v
theories/S_Header.v
theories/P_Header.v
theories/P_GroupTop.v
theories/S_Transit.v
theories/P_Transit.v
theories/P_Mailbox.v
theories/S_Used.v
theories/P_Used.v
theories/S_Schedule.v
theories/S_Speak.v
theories/P_Speak.v
theories/P_Schedule.v
theories/P_Secrecy.v
theories/P_Captured.v
theories/P_ManyTop.v
theories/K_Many.v
theories/S_Net.v
theories/P_Net.v
theories/K_Net.v
theories/S_Apart.v
theories/P_Apart.v
theories/S_Spent.v
theories/P_Spent.v
theories/P_Redeliver.v
theories/P_NetCut.v
theories/P_Agree.v
theories/K_Agree.v
theories/K_Group.v
theories/S_Thefts.v
theories/P_Thefts.v
theories/S_Raid.v
theories/P_RaidTerms.v
theories/P_RaidInv.v
theories/P_Raid.v
theories/K_Raid.v
theories/S_GroupSecrecy.v
theories/P_GroupSecrecy.v
theories/S_Carried.v
theories/P_Carried.v
theories/K_Carried.v
theories/K_Cut.v
theories/S_Damaged.v
theories/K_Damaged.v
theories/S_Team.v
theories/P_Team.v
theories/S_Enrolled.v
theories/P_Enrolled.v
theories/K_Enrolled.v
theories/K_RecvCases.v
theories/S_Forge.v
theories/K_Forge.v
theories/P_GroupKept.v
theories/S_GroupAttack.v
theories/P_GroupAttack.v
theories/S_Serial.v
theories/P_Serial.v
theories/P_Locked.v
theories/P_NetShared.v
theories/K_GroupAttack.v
theories/S_GroupOpen.v
theories/P_GroupOpen.v
theories/K_GroupOpen.v
theories/S_Attack.v
theories/P_Attack.v
theories/P_First.v
theories/S_Hostile.v
theories/P_Hostile.v
theories/K_Hostile.v
theories/K_HostileShared.v
theories/P_IdZero.v
theories/K_IdZero.v
theories/K_Kinds.v
theories/K_NetCut.v
theories/S_Once.v
theories/K_Once.v
theories/P_Field.v
theories/P_Edwards.v
theories/P_PrimeEll.v
theories/R_Curve.v
theories/P_RealCurve.v
theories/P_RealEd.v
theories/P_Ladder.v
theories/S_Edwards.v
theories/P_CurveSpec.v
theories/R_Aes.v
theories/P_RealAes.v
theories/R_Sha.v
theories/R_Real.v
theories/P_Real.v
theories/P_Count.v
theories/P_PrimeTwist.v
theories/P_Twist.v
theories/P_LowOrder.v
theories/P_LowKeys.v
theories/S_SmallKeys.v
theories/P_SmallKeys.v
theories/P_SmallSess.v
theories/P_StateInv.v
theories/S_Opening.v
theories/P_Opening.v
theories/K_Opening.v
theories/S_Outcome.v
theories/P_Outcome.v
theories/K_Outcome.v
theories/M_Records.v
theories/S_Paired.v
theories/P_Paired.v
theories/S_PairedView.v
theories/P_PairedView.v
theories/K_Paired.v
theories/S_Pin.v
theories/P_Pin.v
theories/K_Pin.v
theories/K_SendCases.v
theories/K_Size.v
theories/K_SmallKeys.v
theories/K_Team.v
theories/K_Theft.v
theories/K_VecBase.v
theories/K_Vec1.v
theories/K_Vec2.v
theories/K_Vec3.v
theories/K_Vec4.v
theories/K_Vec5.v
theories/M_Text.v
theories/P_Bytes.v
theories/P_Damaged.v
theories/P_Forge.v
theories/P_GroupSiege.v
theories/P_HostileShared.v
theories/S_Kinds.v
theories/P_Kinds.v
theories/P_Mac.v
theories/S_Numbers.v
theories/P_Numbers.v
theories/P_Once.v
theories/S_Outlast.v
theories/P_Outlast.v
theories/P_RecvTop.v
theories/P_Refuse.v
theories/P_SmallInv.v
theories/S_Text.v
theories/P_Text.v
theories/S_Xeddsa.v
theories/P_Xeddsa.v
theories/T_Agree.v
theories/T_Attack.v
theories/T_Carried.v
theories/T_Conv.v
theories/T_Crypto.v
theories/T_Cut.v
theories/T_Damaged.v
theories/T_Enrolled.v
theories/T_Forge.v
theories/T_Group.v
theories/T_GroupAttack.v
theories/T_GroupOpen.v
theories/T_GroupSecrecy.v
theories/T_Header.v
theories/T_Hostile.v
theories/T_Kinds.v
theories/T_Many.v
theories/T_Net.v
theories/T_NetCut.v
theories/T_Numbers.v
theories/T_Opening.v
theories/T_Outcome.v
theories/T_Outlast.v
theories/T_Paired.v
theories/T_Raid.v
theories/T_Real.v
theories/T_Receive.v
theories/T_Schedule.v
theories/T_Secrecy.v
theories/T_Send.v
theories/T_Serial.v
theories/T_Sess.v
theories/T_SmallKeys.v
theories/T_Speak.v
theories/T_Store.v
theories/T_Team.v
theories/T_Text.v
theories/T_Thefts.v
theories/T_Transit.v
theories/T_Used.v
theories/T_Wire.v
theories/T_Xeddsa.v
