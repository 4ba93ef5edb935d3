-Q theories Verif

theories/Common.v
theories/CommonFacts.v
theories/Ring_Model.v
theories/Ring_Spec.v
theories/Ring_Proof.v
theories/Ring_Props.v
theories/Delay_Model.v
theories/Delay_Proof.v
theories/Delay_Props.v
theories/Bitset_Model.v
theories/Bitset_Spec.v
theories/Bitset_Proof.v
theories/Bitset_Props.v
theories/MovMax_Model.v
theories/MovMax_Proof.v
theories/MovMax_Props.v
theories/MovSum_Model.v
theories/MovSum_Spec.v
theories/MovSum_Proof.v
theories/MovSum_Props.v
theories/Detect_Model.v
theories/Detect_Spec.v
theories/Detect_Proof.v
theories/Detect_Props.v
theories/Midi_Model.v
theories/Midi_Spec.v
theories/Midi_Proof.v
theories/Midi_Props.v
theories/Phase_Model.v
theories/Phase_Proof.v
theories/Rand_Proof.v
theories/Phase_Props.v
theories/Float.v
theories/FloatFacts.v
theories/MovSumF_Model.v
theories/MovSumF_Spec.v
theories/MovSumF_Proof.v
theories/MovSumF_Props.v
theories/Drift_Proof.v
theories/Drift_Props.v
theories/Shape_Model.v
theories/Shape_Proof.v
theories/Shape_Props.v
theories/Frac_Model.v
theories/Frac_Spec.v
theories/Frac_Proof.v
theories/Frac_Props.v
theories/DetectF_Proof.v
theories/DetectF_Props.v
theories/Notes_Model.v
theories/Notes_Spec.v
theories/Notes_Proof.v
theories/Notes_Props.v
theories/Sin_Table.v
theories/Osc_Model.v
theories/Osc_Spec.v
theories/Osc_Proof.v
theories/PhaseF_Proof.v
theories/Sin_Proof.v
theories/Osc_Props.v
theories/Zc_Model.v
theories/Zc_Spec.v
theories/Zc_Proof.v
theories/Zc_Frac.v
theories/Zc_Props.v
theories/FloatRel.v
theories/PD_Model.v
theories/PD_Spec.v
theories/PD_Proof.v
theories/PD_Pred.v
theories/PD_Props.v
theories/Env_Spec.v
theories/Env_Model.v
theories/FloatLerp.v
theories/Env_Proof.v
theories/EnvSet_Proof.v
theories/Env_Props.v
theories/Adsr_Model.v
theories/Adsr_Spec.v
theories/Adsr_Proof.v
theories/Coeff_Proof.v
theories/Adsr_Live.v
theories/Adsr_Hist.v
theories/Adsr_Props.v
theories/Filt_Spec.v
theories/Filt_Model.v
theories/Filt_Proof.v
theories/Filt_Props.v
theories/Dyn_Model.v
theories/Dyn_Spec.v
theories/Dyn_Proof.v
theories/Dyn_Props.v
theories/Io_Spec.v
theories/Io_Model.v
theories/Io_Proof.v
theories/Io_Props.v
theories/Db_Table.v
theories/Db_Model.v
theories/Db_Proof.v
theories/Db_Full.v
theories/Db_Props.v
theories/Db_Ln.v
theories/Db_Acc.v
theories/Db_Acc2.v
theories/Db_Acc3.v
theories/DbAcc_Props.v
theories/Expo.v
theories/Adsr_Param.v
theories/Fft_Model.v
theories/Fft_Spec.v
theories/Fft_Proof.v
theories/Fft_Real.v
theories/Fft_Series.v
theories/Fft_Double.v
theories/Fft_Props.v
theories/Pitch_Model.v
theories/Pitch_Spec.v
theories/Pitch_Proof.v
theories/Pitch_Props.v
theories/Bq_Model.v
theories/Bq_Spec.v
theories/Bq_Lin.v
theories/Bq_Proof.v
theories/Bq_Design.v
theories/Bq_Resp.v
theories/Bq_Float.v
theories/Bq_Coef.v
theories/Bq_Allpass.v
theories/Bq_AllpassF.v
theories/Bq_Round.v
theories/Bq_Props.v
theories/Val_Model.v
theories/Val_Spec.v
theories/Val_Proof.v
theories/Val_Props.v
theories/Dual_Model.v
theories/Dual_Spec.v
theories/Dual_Proof.v
theories/Dual_Props.v
theories/Fast_Model.v
theories/Fast_Spec.v
theories/Fast_Bits.v
theories/Fast_Ln.v
theories/Fast_Log.v
theories/Fast_Pow.v
theories/Fast_Exp.v
theories/Fast_More.v
theories/Fast_Poly.v
theories/Fast_Sin.v
theories/Fast_Tan.v
theories/Fast_Rat.v
theories/Fast_Props.v
theories/Trig_Props.v
theories/Cond_Model.v
theories/Cond_Spec.v
theories/Cond_Proof.v
theories/Cond_Props.v
theories/CondDb_Props.v
theories/Rms_Model.v
theories/Rms_Spec.v
theories/Rms_Proof.v
theories/Rms_Props.v
theories/Mix_Model.v
theories/Mix_Props.v
theories/Smooth_Model.v
theories/Smooth_Spec.v
theories/Smooth_Proof.v
theories/Smooth_Props.v
theories/Reso_Model.v
theories/Reso_Proof.v
theories/Reso_Float.v
theories/Reso_Coef.v
theories/Reso_Props.v
theories/Gate_Model.v
theories/Gate_Spec.v
theories/Gate_Proof.v
theories/Gate_Props.v
theories/Wav_Model.v
theories/Wav_Spec.v
theories/Wav_Proof.v
theories/Wav_Sim.v
theories/Wav_Props.v
theories/Stream_Model.v
theories/Stream_Spec.v
theories/Stream_Proof.v
theories/Stream_Props.v
theories/Ex_Model.v
theories/Ex_Spec.v
theories/Ex_Proof.v
theories/Ex_Props.v
theories/Per_Spec.v
theories/Per_Zc.v
theories/Per_Ana.v
theories/Per_Proof.v
theories/Per_Pred.v
theories/Per_Dual.v
theories/Per_Props.v
theories/Per_Lock.v
theories/Lock_Props.v
