-Q theories Verif
theories/Base.v
theories/Utils.v
theories/Path.v
theories/Crypto.v
theories/Tree.v
theories/TreeSpec.v
theories/TreeFacts.v
theories/CloneFacts.v
theories/TreeHist.v
theories/PathFacts.v
theories/SoundFacts.v
theories/TreeMain.v
theories/Prop_Tree.v
theories/Prop_Proof.v
theories/STR.v
theories/PAD.v
theories/PADSpec.v
theories/PADFacts.v
theories/PADMain.v
theories/Prop_PAD.v
theories/Protocol.v
theories/Directory.v
theories/DirSpec.v
theories/DirFacts.v
theories/DirMain.v
theories/Prop_Directory.v
theories/Auditor.v
theories/AudSpec.v
theories/AudFacts.v
theories/Client.v
theories/Prop_Auditor.v
theories/ClientSpec.v
theories/ClientFacts.v
theories/JointFacts.v
theories/Prop_Client.v
theories/TreeHeap.v
theories/HeapFacts.v
theories/Prop_Heap.v
theories/Storage.v
theories/StorageFacts.v
theories/Extra25519.v
theories/Prop_Storage.v
theories/Conc.v
theories/Json.v
theories/JsonText.v
theories/Wire.v
theories/Text.v
theories/Server.v
theories/ServerFacts.v
theories/ServerWire.v
theories/TextFacts.v
theories/Prop_Server.v
theories/Prop_Text.v
theories/Deploy.v
theories/DeployFacts.v
theories/Prop_Deploy.v
theories/Lifecycle.v
theories/Prop_Lifecycle.v
theories/Bot.v
theories/Prop_Bot.v
theories/Cli.v
theories/Prop_Cli.v
theories/GoInt.v
theories/GoPoly.v
theories/EdCode.v
theories/Field.v
theories/FieldSpec.v
theories/FieldFacts.v
theories/FieldBytes.v
theories/FieldPow.v
theories/Scalar.v
theories/ScalarFacts.v
theories/Prop_Field.v
theories/FastZ.v
theories/NumTheory.v
theories/Fp.v
theories/EdGroup.v
theories/EdOrder.v
theories/EdConst.v
theories/Group.v
theories/GroupFacts.v
theories/EncFacts.v
theories/MulFacts.v
theories/BaseFacts.v
theories/SmulFacts.v
theories/PointFacts.v
theories/EdCyclic.v
theories/VRF.v
theories/VRFSpec.v
theories/VRFFacts.v
theories/Prop_Curve.v
theories/Prop_VRF.v
theories/Elligator.v
theories/ElligatorFacts.v
theories/Prop_Elligator.v
theories/Prop_Nonce.v
theories/PADHeap.v
theories/PADHeapFacts.v
theories/Prop_PADHeap.v
theories/BotDeploy.v
theories/Prop_BotDeploy.v
theories/BotMail.v
theories/Prop_BotMail.v
theories/Privacy.v
theories/Prop_Privacy.v
theories/ConcLive.v
theories/Prop_Live.v
theories/Equiv.v
theories/Prop_Equiv.v
theories/Repl.v
theories/Prop_Repl.v
theories/Kv.v
theories/KvSpec.v
theories/KvFacts.v
theories/Prop_Kv.v
theories/Prop_Install.v
theories/MptSpec.v
theories/MptFacts.v
theories/Prop_Mpt.v
theories/Prop_Whole.v
theories/Leak.v
theories/Prop_Leak.v
theories/Ed25519.v
theories/Prop_Ed25519.v
theories/Prop_Weak.v
theories/BaseMult.v
theories/Hashes.v
theories/Prop_Real.v
theories/Cases.v
theories/Slices.v
theories/SlicesSpec.v
theories/SlicesFacts.v
theories/SlicesDir.v
theories/Prop_Slices.v
theories/Prop_Fit.v
theories/Prop_FitReal.v
theories/Log.v
theories/Prop_Log.v
theories/Prop_Tight.v
theories/Prop_FitBot.v
theories/Prop_Together.v
theories/Prop_Concur.v
theories/Prop_Past.v
