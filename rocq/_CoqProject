-Q theories Verif
theories/AdcModel.v
theories/AdcProofs.v
theories/AdcProps.v
theories/AdcSpec.v
theories/AmpModel.v
theories/AmpProofs.v
theories/AmpProps.v
theories/AmpSpec.v
theories/AnimLoop.v
theories/AnimModel.v
theories/AnimProofs.v
theories/AnimProps.v
theories/AnimSpec.v
theories/ArgModel.v
theories/ArgProofs.v
theories/ArgProps.v
theories/ArgSpec.v
theories/ArithModel.v
theories/ArithProofs.v
theories/ArithProps.v
theories/ArithSpec.v
theories/BattModel.v
theories/BattProofs.v
theories/BattProps.v
theories/BattSpec.v
theories/BeepModel.v
theories/BeepProofs.v
theories/BeepProps.v
theories/BeepSpec.v
theories/BfrModel.v
theories/BfrProofs.v
theories/BfrProps.v
theories/BfrSpec.v
theories/BlendModel.v
theories/BlendProofs.v
theories/BlendProps.v
theories/BlendSpec.v
theories/BufferModel.v
theories/BufferProofs.v
theories/BufferProps.v
theories/BufferSpec.v
theories/BusModel.v
theories/BusProofs.v
theories/BusProps.v
theories/BusSpec.v
theories/ButtonModel.v
theories/ButtonProofs.v
theories/ButtonProps.v
theories/ButtonSpec.v
theories/ChecksumProofs.v
theories/ClashModel.v
theories/ClashProofs.v
theories/ClashProps.v
theories/ClashSpec.v
theories/ColorModel.v
theories/ColorProofs.v
theories/ColorProps.v
theories/ColorSpec.v
theories/ConfigModel.v
theories/ConfigProofs.v
theories/ConfigProps.v
theories/ConfigSpec.v
theories/DacModel.v
theories/DacProofs.v
theories/DacProps.v
theories/DacSpec.v
theories/DialModel.v
theories/DialProofs.v
theories/DialProps.v
theories/DialSpec.v
theories/EditModel.v
theories/EditProofs.v
theories/EditProps.v
theories/EditSpec.v
theories/EffectModel.v
theories/EffectProofs.v
theories/EffectProps.v
theories/EffectSpec.v
theories/ExtraModel.v
theories/ExtraProofs.v
theories/ExtraProps.v
theories/ExtraSpec.v
theories/FileModel.v
theories/FileProofs.v
theories/FileProps.v
theories/FileSpec.v
theories/FrameConv.v
theories/FrameLand.v
theories/FrameModel.v
theories/FramePerm.v
theories/FrameProofs.v
theories/FrameProps.v
theories/FrameSpec.v
theories/FrameText.v
theories/FuncModel.v
theories/FuncProofs.v
theories/FuncProps.v
theories/FuncSpec.v
theories/FuncTimeProofs.v
theories/GestModel.v
theories/GestProofs.v
theories/GestProps.v
theories/GestSpec.v
theories/HiltModel.v
theories/HiltProofs.v
theories/HiltProps.v
theories/HiltSpec.v
theories/IRModel.v
theories/IRProofs.v
theories/IRProps.v
theories/IRSpec.v
theories/IdentModel.v
theories/IdentProofs.v
theories/IdentProps.v
theories/IdentSpec.v
theories/KeepModel.v
theories/KeepProofs.v
theories/KeepProps.v
theories/KeepSpec.v
theories/LampModel.v
theories/LampProofs.v
theories/LampProps.v
theories/LampSpec.v
theories/LedModel.v
theories/LedProofs.v
theories/LedProps.v
theories/LedSpec.v
theories/LineModel.v
theories/LineProofs.v
theories/LineProps.v
theories/LineSpec.v
theories/LinkModel.v
theories/LinkProofs.v
theories/LinkProps.v
theories/LinkSpec.v
theories/Machine.v
theories/MixModel.v
theories/MixProofs.v
theories/MixProps.v
theories/MixSpec.v
theories/ModeModel.v
theories/ModeProofs.v
theories/ModeProps.v
theories/ModeSpec.v
theories/OffModel.v
theories/OffProofs.v
theories/OffProps.v
theories/OffSpec.v
theories/OscModel.v
theories/OscProofs.v
theories/OscProps.v
theories/OscSpec.v
theories/OwnerModel.v
theories/OwnerProofs.v
theories/OwnerProps.v
theories/OwnerSpec.v
theories/PathModel.v
theories/PathProofs.v
theories/PathProps.v
theories/PathSpec.v
theories/PinModel.v
theories/PinProofs.v
theories/PinProps.v
theories/PinSpec.v
theories/PoolModel.v
theories/PoolProofs.v
theories/PoolProps.v
theories/PoolSpec.v
theories/PovModel.v
theories/PovProofs.v
theories/PovProps.v
theories/PovSpec.v
theories/PowerModel.v
theories/PowerProofs.v
theories/PowerProps.v
theories/PowerSpec.v
theories/PqoiAlpha.v
theories/PqoiModel.v
theories/PqoiProofs.v
theories/PqoiProps.v
theories/PqoiSpec.v
theories/PqoiStream.v
theories/PresetModel.v
theories/PresetProofs.v
theories/PresetProps.v
theories/PresetSpec.v
theories/RfidProofs.v
theories/SaveModel.v
theories/SaveProofs.v
theories/SaveProps.v
theories/SaveSafety.v
theories/SaveSpec.v
theories/SaveWitness.v
theories/SayModel.v
theories/SayProofs.v
theories/SayProps.v
theories/SaySpec.v
theories/ScrModel.v
theories/ScrProofs.v
theories/ScrProps.v
theories/ScrSpec.v
theories/SerialModel.v
theories/SerialProofs.v
theories/SerialProps.v
theories/SerialSpec.v
theories/ShotModel.v
theories/ShotProofs.v
theories/ShotProps.v
theories/ShotSpec.v
theories/SoundModel.v
theories/SoundProofs.v
theories/SoundProps.v
theories/SoundSpec.v
theories/SparkModel.v
theories/SparkProofs.v
theories/SparkProps.v
theories/SparkSpec.v
theories/StatModel.v
theories/StatProofs.v
theories/StatProps.v
theories/StatSpec.v
theories/StrModel.v
theories/StrProofs.v
theories/StrProps.v
theories/StrSpec.v
theories/StyleModel.v
theories/StyleProofs.v
theories/StyleProps.v
theories/StyleSpec.v
theories/SubModel.v
theories/SubProofs.v
theories/SubProps.v
theories/SubSpec.v
theories/SwingModel.v
theories/SwingProofs.v
theories/SwingProps.v
theories/SwingSpec.v
theories/SyncModel.v
theories/SyncProofs.v
theories/SyncProps.v
theories/SyncSpec.v
theories/TransModel.v
theories/TransProofs.v
theories/TransProps.v
theories/TransSpec.v
theories/TuneModel.v
theories/TuneProofs.v
theories/TuneProps.v
theories/TuneSpec.v
theories/TurnModel.v
theories/TurnProofs.v
theories/TurnProps.v
theories/TurnSpec.v
theories/WavModel.v
theories/WavProofs.v
theories/WavProps.v
theories/WavSpec.v
theories/WaveModel.v
theories/WaveProofs.v
theories/WaveProps.v
theories/WaveSpec.v
theories/WireModel.v
theories/WireProofs.v
theories/WireProps.v
theories/WireSpec.v
theories/WorkModel.v
theories/WorkProofs.v
theories/WorkProps.v
theories/WorkSpec.v
